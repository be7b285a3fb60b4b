(** Lemmas about the loop and array combinators of PTE_Model *)
From Coq Require Import ZArith Reals Bool List Lia Lra.
From Flocq Require Import Core.
From Verif Require Import Arith Robust_Model Robust_Proofs Thermo_Spec Thermo_Tools PTE_Driver_Model PTE_Model.
Import ListNotations.
Local Open Scope R_scope.

Lemma rsum_ext n f g : (forall m, (m < n)%nat -> f m = g m) -> rsum n f = rsum n g.
Proof. induction n as [|n IH]; intros H; cbn; [reflexivity|]. rewrite IH by (intros; apply H; lia). rewrite H by lia. reflexivity. Qed.
Lemma rsum_plus n f g : rsum n (fun m => f m + g m) = rsum n f + rsum n g.
Proof. induction n as [|n IH]; cbn; [lra|]. rewrite IH. lra. Qed.
Lemma rsum_minus n f g : rsum n (fun m => f m - g m) = rsum n f - rsum n g.
Proof. induction n as [|n IH]; cbn; [lra|]. rewrite IH. lra. Qed.
Lemma rsum_scal n c f : rsum n (fun m => c * f m) = c * rsum n f.
Proof. induction n as [|n IH]; cbn; [lra|]. rewrite IH. lra. Qed.
Lemma rsum_scal_r n c f : rsum n (fun m => f m * c) = rsum n f * c.
Proof. induction n as [|n IH]; cbn; [lra|]. rewrite IH. lra. Qed.
Lemma rsum_zero n : rsum n (fun _ => 0) = 0.
Proof. induction n as [|n IH]; cbn; lra. Qed.
Lemma rsum_nonneg n f : (forall m, (m < n)%nat -> 0 <= f m) -> 0 <= rsum n f.
Proof. induction n as [|n IH]; intros H; cbn; [lra|]. pose proof (H n ltac:(lia)). assert (0 <= rsum n f) by (apply IH; intros; apply H; lia). lra. Qed.
Lemma rsum_le n f g : (forall m, (m < n)%nat -> f m <= g m) -> rsum n f <= rsum n g.
Proof. induction n as [|n IH]; intros H; cbn; [lra|]. pose proof (H n ltac:(lia)). assert (rsum n f <= rsum n g) by (apply IH; intros; apply H; lia). lra. Qed.
Lemma rsum_ge_term n f k : (k < n)%nat -> (forall m, (m < n)%nat -> 0 <= f m) -> f k <= rsum n f.
Proof.
  induction n as [|n IH]; intros Hk H; [lia|]. cbn. pose proof (H n ltac:(lia)).
  destruct (Nat.eq_dec k n) as [->|]; [assert (0 <= rsum n f) by (apply rsum_nonneg; intros; apply H; lia); lra|].
  assert (f k <= rsum n f) by (apply IH; [lia|intros; apply H; lia]). lra.
Qed.
Lemma rsum_split n f k : (k < n)%nat -> rsum n f = f k + rsum n (fun m => if (m =? k)%nat then 0 else f m).
Proof.
  induction n as [|n IH]; intros Hk; [lia|]. cbn. destruct (Nat.eq_dec k n) as [->|Hne].
  - rewrite Nat.eqb_refl. rewrite (rsum_ext n (fun m => if (m =? n)%nat then 0 else f m) f); [lra|].
    intros m Hm. rewrite (proj2 (Nat.eqb_neq m n)) by lia. reflexivity.
  - rewrite (proj2 (Nat.eqb_neq n k)) by lia. rewrite IH by lia. lra.
Qed.
Lemma rsum_single n f k : (k < n)%nat -> (forall m, (m < n)%nat -> m <> k -> f m = 0) -> rsum n f = f k.
Proof.
  intros Hk H. rewrite (rsum_split n f k Hk). rewrite (rsum_ext n _ (fun _ => 0)), rsum_zero; [lra|].
  intros m Hm. destruct (Nat.eqb_spec m k); [reflexivity|apply H; assumption].
Qed.
Lemma rsum_shift n f : rsum (S n) f = f 0%nat + rsum n (fun m => f (S m)).
Proof. induction n as [|n IH]; [cbn; lra|]. change (rsum (S (S n)) f) with (rsum (S n) f + f (S n)). rewrite IH. cbn. lra. Qed.
Lemma rsum_app a b f : rsum (a + b) f = rsum a f + rsum b (fun m => f (a + m)%nat).
Proof. induction b as [|b IH]; cbn; [rewrite Nat.add_0_r; lra|]. rewrite Nat.add_succ_r. cbn. rewrite IH. lra. Qed.

Lemma map_n_lt n f o m : (m < n)%nat -> map_n n f o m = f m.
Proof. intros H. unfold map_n. rewrite (proj2 (Nat.ltb_lt m n) H). reflexivity. Qed.
Lemma map_n_ge n f o m : (n <= m)%nat -> map_n n f o m = o m.
Proof. intros H. unfold map_n. rewrite (proj2 (Nat.ltb_ge m n) H). reflexivity. Qed.
Lemma mapm_lt n f o m : (m < n)%nat -> mapm n f o m = f m.
Proof. apply map_n_lt. Qed.
Lemma upd_same a i x : upd a i x i = x.
Proof. unfold upd. rewrite Nat.eqb_refl. reflexivity. Qed.
Lemma upd_other a i x k : k <> i -> upd a i x k = a k.
Proof. intros H. unfold upd. rewrite (proj2 (Nat.eqb_neq k i) H). reflexivity. Qed.
Lemma rsum_mapm n f o : rsum n (mapm n f o) = rsum n f.
Proof. apply rsum_ext. intros. apply mapm_lt. assumption. Qed.

(** compensated summation is plain summation in exact arithmetic *)
Lemma neum_loop_spec op data off isk : forall fuel i sum c,
  neum_loop fuel i off isk op data sum c =
  sum + c + rsum fuel (fun k => if match isk with Some q => ((i + k) =? q)%nat | None => false end then 0 else op (data (i + k + off)%nat)).
Proof.
  induction fuel as [|f IH]; intros i sum c; [cbn; lra|].
  cbn [neum_loop]. rewrite rsum_shift. rewrite !Nat.add_0_r.
  assert (forall g h : nat -> R, (forall k, g k = h k) -> rsum f g = rsum f h) as EX by (intros; apply rsum_ext; auto).
  rewrite (EX (fun m => if match isk with Some q => (i + S m =? q)%nat | None => false end then 0 else op (data (i + S m + off)%nat))
              (fun k => if match isk with Some q => (S i + k =? q)%nat | None => false end then 0 else op (data (S i + k + off)%nat))).
  2: { intros k. replace (i + S k)%nat with (S i + k)%nat by lia. reflexivity. }
  destruct (match isk with Some q => (i =? q)%nat | None => false end).
  - rewrite IH. lra.
  - rewrite IH. destruct (Rle_bool _ _); lra.
Qed.
Lemma sum_neumaier_none data n off op : sum_neumaier data n off None op = rsum n (fun k => op (data (k + off)%nat)).
Proof. unfold sum_neumaier. rewrite neum_loop_spec. rewrite (rsum_ext n _ (fun k => op (data (k + off)%nat))); [lra|reflexivity]. Qed.
Lemma sum_neumaier_id data n : sum_neumaier data n 0 None idop = rsum n data.
Proof. rewrite sum_neumaier_none. apply rsum_ext. intros. rewrite Nat.add_0_r. reflexivity. Qed.
Lemma sum_neumaier_skip data n k : sum_neumaier data n 0 (Some k) idop = rsum n (fun m => if (m =? k)%nat then 0 else data m).
Proof.
  unfold sum_neumaier. rewrite neum_loop_spec. rewrite (rsum_ext n _ (fun m => if (m =? k)%nat then 0 else data m)); [lra|].
  intros m _. rewrite Nat.add_0_r. reflexivity.
Qed.

(** folds over seq *)
Lemma fold_sub_skip n f k a : fold_left (fun acc m => if (m =? k)%nat then acc else acc - f m) (seq 0 n) a =
  a - rsum n (fun m => if (m =? k)%nat then 0 else f m).
Proof.
  induction n as [|n IH]; [cbn; lra|]. rewrite seq_S, fold_left_app. cbn [fold_left rsum]. rewrite IH. rewrite Nat.add_0_l.
  destruct (n =? k)%nat; lra.
Qed.
(** an invariant of a fold over 0..n-1 *)
Lemma fold_seq_ind {B} (P : nat -> B -> Prop) (f : B -> nat -> B) : forall n a b,
  P a b -> (forall k x, (a <= k < a + n)%nat -> P k x -> P (S k) (f x k)) -> P (a + n)%nat (fold_left f (seq a n) b).
Proof.
  induction n as [|n IH]; intros a b H0 HS; [rewrite Nat.add_0_r; exact H0|].
  cbn [seq fold_left]. replace (a + S n)%nat with (S a + n)%nat by lia. apply IH.
  - apply HS; [lia|exact H0].
  - intros k x Hk Hx. apply HS; [lia|exact Hx].
Qed.

Lemma argmax_spec n f start : let '(im, fm) := argmax n f start in
  (im < n \/ im = 0)%nat /\ (forall m, (m < n)%nat -> f m <= fm) /\ start <= fm /\
  (fm = start /\ im = 0%nat \/ (im < n)%nat /\ fm = f im) /\ (forall m, (m < im)%nat -> f m < fm \/ fm = start).
Proof.
  unfold argmax.
  set (P := fun k (x : nat * R) => let '(im, fm) := x in
    (im < k \/ im = 0)%nat /\ (forall m, (m < k)%nat -> f m <= fm) /\ start <= fm /\
    (fm = start /\ im = 0%nat \/ (im < k)%nat /\ fm = f im) /\ (forall m, (m < im)%nat -> f m < fm \/ fm = start)).
  apply (fold_seq_ind P (fun '(im, fm) m => if Rlt_bool fm (f m) then (m, f m) else (im, fm)) n 0 (0%nat, start)).
  - unfold P. repeat split; try lra; try lia. left; auto.
  - intros k [im fm] Hk (H1 & H2 & H3 & H4 & H5). unfold P. case Rlt_bool_spec; intros Hc.
    + repeat split; try lia; try lra.
      * intros m Hm. destruct (Nat.eq_dec m k) as [->|]; [lra|]. pose proof (H2 m ltac:(lia)). lra.
      * right. split; [lia|reflexivity].
      * intros m Hm. left. pose proof (H2 m Hm). lra.
    + repeat split; try lia; try lra.
      * intros m Hm. destruct (Nat.eq_dec m k) as [->|]; [lra|]. apply H2; lia.
      * destruct H4 as [H4|[H4 H4']]; [left; exact H4|right; split; [lia|exact H4']].
      * exact H5.
Qed.
Lemma argmax_lt n f start : (0 < n)%nat -> (fst (argmax n f start) < n)%nat.
Proof. intros Hn. pose proof (argmax_spec n f start) as H. destruct (argmax n f start) as [im fm]. cbn. destruct H as ([H|H] & _); lia. Qed.

(** robust::ratio *)
Lemma ratio_mul a b : tiny <= Rabs b -> ratio a b * b = a.
Proof. intros H. rewrite ratio_abs by exact H. field. intros ->. rewrite Rabs_R0 in H. pose proof tiny_pos. lra. Qed.
(** the denominators used by robust::ratio have the sign of b and at least its magnitude *)
Lemma ratio_den_pos a b : 0 <= b -> exists d, b <= d /\ 0 < d /\ ratio a b = a / d.
Proof.
  intros Hb. unfold ratio. pose proof tiny_pos. fold tiny. case Rle_bool_spec; intros Hc.
  - rewrite Rabs_right in Hc by lra. exists b. repeat split; lra.
  - exists (b + 1 * SMALL). assert (0 < SMALL) by (unfold SMALL; pose proof (bpow_gt_0 radix2 (-1022)); lra).
    repeat split; try lra. unfold ratio_exact, ratio_denominator, sgn. rewrite Rle_bool_true by lra. reflexivity.
Qed.
Lemma ratio_den_neg a b : b < 0 -> exists d, d <= b /\ ratio a b = a / d.
Proof.
  intros Hb. unfold ratio. fold tiny. case Rle_bool_spec; intros Hc.
  - exists b. split; [lra|reflexivity].
  - exists (b + -1 * SMALL). assert (0 < SMALL) by (unfold SMALL; pose proof (bpow_gt_0 radix2 (-1022)); lra).
    split; [lra|]. unfold ratio_exact, ratio_denominator, sgn. rewrite Rle_bool_false by lra. reflexivity.
Qed.
Lemma ratio_pos_nonneg a b : 0 <= a -> 0 <= b -> 0 <= ratio a b.
Proof. intros Ha Hb. destruct (ratio_den_pos a b Hb) as (d & H1 & H2 & ->). apply Rmult_le_pos; [lra|]. left. apply Rinv_0_lt_compat. lra. Qed.
Lemma ratio_pos_pos a b : 0 < a -> 0 <= b -> 0 < ratio a b.
Proof. intros Ha Hb. destruct (ratio_den_pos a b Hb) as (d & H1 & H2 & ->). apply Rmult_lt_0_compat; [lra|]. apply Rinv_0_lt_compat. lra. Qed.
(** 0 <= ratio a b * b <= a for a >= 0, b > 0 *)
Lemma ratio_mul_le a b : 0 <= a -> 0 < b -> 0 <= ratio a b * b <= a.
Proof.
  intros Ha Hb. destruct (ratio_den_pos a b ltac:(lra)) as (d & H1 & H2 & ->).
  replace (a / d * b) with (a * (b / d)) by (field; lra).
  assert (0 <= b / d <= 1) as [H3 H4].
  { split; [apply Rmult_le_pos; [lra|left; apply Rinv_0_lt_compat; lra]|]. apply Rmult_le_reg_r with d; [lra|]. unfold Rdiv. rewrite Rmult_assoc, Rinv_l by lra. lra. }
  split; [apply Rmult_le_pos; lra|]. rewrite <- (Rmult_1_r a) at 2. apply Rmult_le_compat_l; lra.
Qed.
(** a <= ratio a b * b <= 0 and 0 <= ratio a b for a <= 0, b < 0 *)
Lemma ratio_mul_neg a b : a <= 0 -> b < 0 -> a <= ratio a b * b <= 0 /\ 0 <= ratio a b.
Proof.
  intros Ha Hb. destruct (ratio_den_neg a b Hb) as (d & H1 & ->).
  replace (a / d) with ((- a) / (- d)) by (field; lra).
  assert (0 < / (- d)) by (apply Rinv_0_lt_compat; lra).
  assert (0 <= (- b) / (- d) <= 1) as [H3 H4].
  { split; [apply Rmult_le_pos; lra|]. apply Rmult_le_reg_r with (- d); [lra|]. unfold Rdiv. rewrite Rmult_assoc, Rinv_l by lra. lra. }
  split.
  - replace (- a / - d * b) with (- ((- a) * ((- b) / (- d)))) by (field; lra).
    assert (0 <= - a * (- b / - d)) by (apply Rmult_le_pos; lra).
    assert (- a * (- b / - d) <= - a * 1) by (apply Rmult_le_compat_l; lra). lra.
  - apply Rmult_le_pos; lra.
Qed.
Lemma ratio_0_l b : ratio 0 b = 0.
Proof.
  destruct (Rle_lt_dec 0 b) as [H|H].
  - destruct (ratio_den_pos 0 b H) as (d & _ & H2 & ->). unfold Rdiv. lra.
  - destruct (ratio_den_neg 0 b H) as (d & _ & ->). unfold Rdiv. lra.
Qed.
