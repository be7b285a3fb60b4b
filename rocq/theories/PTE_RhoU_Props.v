(** C34, C36, C37, C46 for PTESolverRhoU (closure/mixed_cell_models.hpp:1925-2184) *)
From Coq Require Import ZArith Reals Bool List Lia Lra.
From Flocq Require Import Core.
From Verif Require Import Arith Robust_Model Robust_Proofs Thermo_Spec Thermo_Tools PTE_Driver_Model PTE_Driver_Props PTE_Model PTE_Tools PTE_Base_Props PTE_Init PTE_Tools2 PTE_Calm PTE_Witness.
Import ListNotations.
Local Open Scope R_scope.

Section RhoU.
Variable n : nat.
Variable eos : nat -> meos.
Variable vfrac_total sie_total : R.
Variable params : MixParams RArith.
Variable lin : nat -> (nat -> R) -> (nat -> R) -> (nat -> R).
Notation sys := (RhoU_system n eos vfrac_total sie_total params lin).

Lemma clip_low0 f v d sc : 0 <= f -> 0 <= v -> 0 <= sc -> sc * d < - f * v -> 0 <= - f * ratio v d <= sc /\ - f * v <= - f * ratio v d * d.
Proof.
  intros Hf Hv Hs H. rewrite <- ratio_scal. assert (0 <= f * v) by (apply Rmult_le_pos; lra). assert (d < 0) as Hd by nra.
  destruct (ratio_mul_neg (- f * v) d ltac:(lra) Hd) as [[A B] C]. split; [|exact A]. split; [exact C|]. nra.
Qed.
(** predicted change of the scaled temperature of material m *)
Definition ru_dt (s : pst) (m : nat) : R := dtdv s m * dx s m + dtde s m * dx s (m + n)%nat.
Definition ru_alpha_max (s : pst) (tt : R) (m : nat) : R :=
  ratio (rhobar s m) (Rmax (RhoPmin (eos m) (Tnorm s * temp s m)) (RhoPmin (eos m) (Tnorm s * tt))).
Definition ru_adm (s : pst) (m : nat) (sc : R) : Prop :=
  - (1 / 10) * vfrac s m <= sc * dx s m /\ - (1 / 10) * temp s m <= sc * ru_dt s m /\
  exists tt, vfrac s m <= ru_alpha_max s tt m -> sc * dx s m <= 1 / 2 * (ru_alpha_max s tt m - vfrac s m).
Lemma scaled_low f v d sc sc' : 0 <= f * v -> - f * v <= sc * d -> 0 <= sc' <= sc -> - f * v <= sc' * d.
Proof. intros. destruct (Rle_dec 0 d); nra. Qed.
Lemma scaled_high a d sc sc' : 0 <= a -> sc * d <= a -> 0 <= sc' <= sc -> sc' * d <= a.
Proof. intros. destruct (Rle_dec 0 d); nra. Qed.
Lemma ru_step_ok s : (forall m, (m < n)%nat -> 0 <= vfrac s m /\ 0 <= temp s m) -> forall m sc, (m < n)%nat -> 0 <= sc ->
  0 <= ru_scale_step n eos s sc m <= sc /\ ru_adm s m (ru_scale_step n eos s sc m).
Proof.
  intros H m sc Hm Hs. destruct (H m Hm) as [Hv Ht]. unfold ru_scale_step, ru_adm. fold (ru_dt s m).
  set (sc1 := if Rlt_bool (sc * dx s m) _ then _ else sc).
  assert (0 <= sc1 <= sc /\ - (1 / 10) * vfrac s m <= sc1 * dx s m) as [A1 A2].
  { unfold sc1. case Rlt_bool_spec; intros Hc; [exact (clip_low0 (1 / 10) (vfrac s m) (dx s m) sc ltac:(lra) Hv Hs Hc)|split; lra]. }
  clearbody sc1.
  set (sc2 := if Rlt_bool (sc1 * ru_dt s m) _ then _ else sc1).
  assert (0 <= sc2 <= sc1 /\ - (1 / 10) * temp s m <= sc2 * ru_dt s m) as [B1 B2].
  { unfold sc2. case Rlt_bool_spec; intros Hc; [exact (clip_low0 (1 / 10) (temp s m) (ru_dt s m) sc1 ltac:(lra) Ht ltac:(lra) Hc)|split; lra]. }
  clearbody sc2.
  set (tt := temp s m + sc2 * ru_dt s m). fold (ru_alpha_max s tt m). clearbody tt.
  assert (0 <= 1 / 10 * vfrac s m) by lra. assert (0 <= 1 / 10 * temp s m) by lra.
  case Rlt_bool_spec; intros Hc.
  - split; [lra|]. split; [eapply scaled_low; [|exact A2|]; lra|]. split; [exact B2|]. exists tt. intros; lra.
  - set (am := ru_alpha_max s tt m) in *.
    set (sc3 := if Rlt_bool _ _ then _ else sc2).
    assert (0 <= sc3 <= sc2 /\ sc3 * dx s m <= 1 / 2 * (am - vfrac s m)) as [C1 C2].
    { unfold sc3. case Rlt_bool_spec; intros Hd; [|split; lra]. rewrite <- ratio_scal. exact (clip_high (1 / 2 * (am - vfrac s m)) (dx s m) sc2 ltac:(lra) ltac:(lra) Hd). }
    clearbody sc3. split; [lra|]. split; [eapply scaled_low; [|exact A2|]; lra|]. split; [eapply scaled_low; [|exact B2|]; lra|].
    exists tt. intros _. exact C2.
Qed.
(** ** C36: the step the driver takes keeps every volume fraction (and every linearly predicted temperature) positive,
    and a material below the volume fraction of its density of minimum pressure (at the old and at some trial temperature) stays below it *)
Theorem C36_RhoU_scaled_step_admissible : forall s s' sc,
  (forall m, (m < n)%nat -> 0 <= vfrac s m /\ 0 <= temp s m) -> ru_ScaleDx n eos s = (s', sc) ->
  0 <= sc <= 1 /\ (forall i, (i < 2 * n)%nat -> dx s' i = dx s i * sc) /\
  (forall m, (m < n)%nat -> 9 / 10 * vfrac s m <= vfrac s m + dx s' m /\
     9 / 10 * temp s m <= temp s m + (dtdv s m * dx s' m + dtde s m * dx s' (m + n)%nat) /\
     exists tt, forall t, 0 <= t <= 1 -> vfrac s m <= ru_alpha_max s tt m -> vfrac s m + t * dx s' m <= ru_alpha_max s tt m).
Proof.
  intros s s' sc H E. unfold ru_ScaleDx in E.
  pose proof (fold_scale (ru_adm s) (ru_scale_step n eos s) n (ru_step_ok s H)) as HF.
  assert (forall m sc sc', (m < n)%nat -> ru_adm s m sc -> 0 <= sc' <= sc -> ru_adm s m sc') as HM.
  { intros m a b Hm (A & B & tt & C) Hb. destruct (H m Hm) as [Hv Ht].
    split; [eapply scaled_low; [|exact A|exact Hb]; lra|]. split; [eapply scaled_low; [|exact B|exact Hb]; lra|].
    exists tt. intros Hc. eapply scaled_high; [|exact (C Hc)|exact Hb]. lra. }
  specialize (HF HM 1 ltac:(lra)). cbv zeta in HF. destruct HF as [F1 F2].
  set (k := fold_left _ _ _) in *. clearbody k. inversion E; subst s' sc; clear E.
  split; [lra|]. assert (forall i, (i < 2 * n)%nat -> dx (set_dx (map_n (2 * n) (fun i => dx s i * k) (dx s)) s) i = dx s i * k) as HD.
  { intros i Hi. cbn. rewrite map_n_lt by exact Hi. reflexivity. }
  split; [exact HD|]. intros m Hm. destruct (F2 m Hm) as (A & B & tt & C). rewrite !HD by lia. destruct (H m Hm) as [Hv Ht].
  split; [lra|]. split; [unfold ru_dt in B; lra|]. exists tt. intros t Ht1 Hc. specialize (C Hc).
  assert (t * (dx s m * k) <= 1 / 2 * (ru_alpha_max s tt m - vfrac s m)); [|lra].
  destruct (Rle_dec 0 (dx s m * k)); nra.
Qed.

(** ** rows of the assembled matrix *)
Lemma updM N a i' j' x i j : (j < N)%nat -> (j' < N)%nat ->
  upd a (i' * N + j')%nat x (i * N + j)%nat = if (i =? i')%nat && (j =? j')%nat then x else a (i * N + j)%nat.
Proof.
  intros H1 H2. unfold upd. destruct (Nat.eqb_spec (i * N + j) (i' * N + j')) as [E|E].
  - assert (i = i') as -> by nia. assert (j = j') as -> by lia. rewrite !Nat.eqb_refl. reflexivity.
  - destruct (Nat.eqb_spec i i'); [|reflexivity]. destruct (Nat.eqb_spec j j'); [subst; lia|reflexivity].
Qed.
(** the matrix the solver should assemble: row 0 sums the volume increments, row 1 the energy increments, then the
    differences of the pressures of neighbouring materials, then those of the temperatures *)
Definition ru_spec (s : pst) (i j : nat) : R :=
  let m := if (j <? n)%nat then j else (j - n)%nat in
  let P := if (j <? n)%nat then dpdv s m else dpde s m in
  let T := if (j <? n)%nat then dtdv s m else dtde s m in
  if (i =? 0)%nat then (if (j <? n)%nat then 1 else 0)
  else if (i =? 1)%nat then (if (j <? n)%nat then 0 else 1)
  else if (i <=? n)%nat then (if (i =? m + 2)%nat then P else if (i =? m + 1)%nat then - P else 0)
  else (if (i =? n + 1 + m)%nat then T else if (i =? n + m)%nat then - T else 0).
Ltac eqs := repeat match goal with |- context [Nat.eqb ?a ?b] => destruct (Nat.eqb_spec a b); try (exfalso; lia); cbn [andb] end.
Lemma ru_ones a N : (N <= n)%nat -> forall i j, (i < 2 * n)%nat -> (j < 2 * n)%nat ->
  fold_left (fun a m => upd (upd a m 1) (2 * n + n + m) 1) (seq 0 N) a (i * (2 * n) + j)%nat =
  if (i =? 0)%nat && (j <? N)%nat || ((i =? 1) && (n <=? j) && (j <? n + N))%nat then 1 else a (i * (2 * n) + j)%nat.
Proof.
  intros HN i j Hi Hj. induction N as [|N IH].
  - cbn [seq fold_left]. destruct (i =? 0)%nat, (i =? 1)%nat, (Nat.leb_spec n j), (Nat.ltb_spec j (n + 0)); cbn; try reflexivity; lia.
  - rewrite seq_S, fold_left_app. cbn [fold_left plus]. set (b := fold_left _ (seq 0 N) a) in *. specialize (IH ltac:(lia)).
    replace (2 * n + n + N)%nat with (1 * (2 * n) + (n + N))%nat by lia.
    rewrite updM by lia. replace (upd b N 1) with (upd b (0 * (2 * n) + N) 1) by (f_equal; lia). rewrite updM by lia. rewrite IH.
    destruct (Nat.ltb_spec j N), (Nat.ltb_spec j (S N)), (Nat.leb_spec n j), (Nat.ltb_spec j (n + N)), (Nat.ltb_spec j (n + S N)); try lia; eqs; reflexivity.
Qed.
Definition ru_wr (s : pst) (a : nat -> R) (m : nat) : nat -> R :=
  upd (upd (upd (upd (upd (upd (upd (upd a
      ((1 + m) * 2 * n + m) (- dpdv s m)) ((2 + m) * 2 * n + m) (dpdv s m))
      ((n + m) * 2 * n + m) (- dtdv s m)) ((n + m + 1) * 2 * n + m) (dtdv s m))
      ((1 + m) * 2 * n + n + m) (- dpde s m)) ((2 + m) * 2 * n + n + m) (dpde s m))
      ((n + m) * 2 * n + n + m) (- dtde s m)) ((n + m + 1) * 2 * n + n + m) (dtde s m).
Lemma ru_wr_spec s a m i j : (m < n)%nat -> (j < 2 * n)%nat -> ru_wr s a m (i * (2 * n) + j)%nat =
  if (j =? m)%nat then (if (i =? n + m + 1)%nat then dtdv s m else if (i =? n + m)%nat then - dtdv s m
     else if (i =? 2 + m)%nat then dpdv s m else if (i =? 1 + m)%nat then - dpdv s m else a (i * (2 * n) + j)%nat)
  else if (j =? n + m)%nat then (if (i =? n + m + 1)%nat then dtde s m else if (i =? n + m)%nat then - dtde s m
     else if (i =? 2 + m)%nat then dpde s m else if (i =? 1 + m)%nat then - dpde s m else a (i * (2 * n) + j)%nat)
  else a (i * (2 * n) + j)%nat.
Proof.
  intros Hm Hj. unfold ru_wr.
  replace ((1 + m) * 2 * n + m)%nat with ((1 + m) * (2 * n) + m)%nat by lia.
  replace ((2 + m) * 2 * n + m)%nat with ((2 + m) * (2 * n) + m)%nat by lia.
  replace ((n + m) * 2 * n + m)%nat with ((n + m) * (2 * n) + m)%nat by lia.
  replace ((n + m + 1) * 2 * n + m)%nat with ((n + m + 1) * (2 * n) + m)%nat by lia.
  replace ((1 + m) * 2 * n + n + m)%nat with ((1 + m) * (2 * n) + (n + m))%nat by lia.
  replace ((2 + m) * 2 * n + n + m)%nat with ((2 + m) * (2 * n) + (n + m))%nat by lia.
  replace ((n + m) * 2 * n + n + m)%nat with ((n + m) * (2 * n) + (n + m))%nat by lia.
  replace ((n + m + 1) * 2 * n + n + m)%nat with ((n + m + 1) * (2 * n) + (n + m))%nat by lia.
  rewrite !updM by lia.
  destruct (Nat.eqb_spec j m), (Nat.eqb_spec j (n + m)); try (exfalso; lia); rewrite ?andb_true_r, ?andb_false_r; reflexivity.
Qed.
Lemma ru_mid s a : forall k, (k <= n - 1 - 1)%nat -> forall i j, (j < 2 * n)%nat ->
  fold_left (ru_wr s) (seq 1 k) a (i * (2 * n) + j)%nat =
  let m := if (j <? n)%nat then j else (j - n)%nat in
  if (1 <=? m)%nat && (m <=? k)%nat then ru_wr s a m (i * (2 * n) + j)%nat else a (i * (2 * n) + j)%nat.
Proof.
  intros k Hk i j Hj. cbv zeta. set (m := if (j <? n)%nat then j else (j - n)%nat).
  assert ((m < n)%nat /\ (j = m \/ j = n + m)%nat) as [Hm Hjm] by (unfold m; destruct (Nat.ltb_spec j n); lia). clearbody m.
  induction k as [|k IH].
  - cbn [seq fold_left]. destruct (Nat.leb_spec 1 m), (Nat.leb_spec m 0); cbn; try reflexivity; lia.
  - rewrite seq_S, fold_left_app. cbn [fold_left]. replace (1 + k)%nat with (S k) by lia. specialize (IH ltac:(lia)).
    set (b := fold_left _ (seq 1 k) a) in *. rewrite ru_wr_spec by lia.
    destruct (Nat.eq_dec m (S k)) as [E|E].
    + destruct (Nat.leb_spec 1 m), (Nat.leb_spec m (S k)); try lia. cbn [andb]. rewrite ru_wr_spec by lia. rewrite IH. rewrite E.
      destruct (Nat.leb_spec (S k) k); [lia|]. rewrite andb_false_r. reflexivity.
    + destruct (Nat.eqb_spec j (S k)); [exfalso; lia|]. destruct (Nat.eqb_spec j (n + S k)); [exfalso; lia|]. rewrite IH.
      destruct (Nat.leb_spec 1 m), (Nat.leb_spec m k), (Nat.leb_spec m (S k)); cbn; try reflexivity; lia.
Qed.
Lemma ru_fill_spec s a i j : (2 <= n)%nat -> (i < 2 * n)%nat -> (j < 2 * n)%nat -> ru_fill n s a (i * (2 * n) + j)%nat = ru_spec s i j.
Proof.
  intros N2 Hi Hj. unfold ru_fill. cbv zeta. change (fun (a0 : nat -> R) (m : nat) => upd (upd (upd (upd (upd (upd (upd (upd a0 _ _) _ _) _ _) _ _) _ _) _ _) _ _) _ _) with (ru_wr s).
  rewrite ru_mid by lia. cbv zeta.
  replace (2 * 2 * n)%nat with (2 * (2 * n) + 0)%nat by lia.
  replace (n * 2 * n + n - 1)%nat with (n * (2 * n) + (n - 1))%nat by lia.
  replace ((n + 1) * 2 * n)%nat with ((n + 1) * (2 * n) + 0)%nat by lia.
  replace ((2 * n - 1) * 2 * n + n - 1)%nat with ((2 * n - 1) * (2 * n) + (n - 1))%nat by nia.
  replace (n * 2 * n + 2 * n - 1)%nat with (n * (2 * n) + (2 * n - 1))%nat by nia.
  replace ((2 * n - 1) * 2 * n + 2 * n - 1)%nat with ((2 * n - 1) * (2 * n) + (2 * n - 1))%nat by nia.
  replace (2 * (2 * n) + 0 + n)%nat with (2 * (2 * n) + n)%nat by lia.
  replace ((n + 1) * (2 * n) + 0 + n)%nat with ((n + 1) * (2 * n) + n)%nat by lia.
  set (z := fold_left _ (seq 0 n) _).
  assert (z (i * (2 * n) + j)%nat = if (i =? 0)%nat && (j <? n)%nat || ((i =? 1) && (n <=? j))%nat then 1 else 0) as Ez.
  { unfold z. rewrite ru_ones by lia. destruct (Nat.ltb_spec j (n + n)); [|lia]. rewrite andb_true_r. destruct (_ || _); [reflexivity|].
    rewrite map_n_lt; [reflexivity|]. nia. }
  clearbody z. rewrite ru_wr_spec by (destruct (Nat.ltb_spec j n); lia). rewrite !updM by lia. rewrite Ez. unfold ru_spec.
  destruct (Nat.ltb_spec j n) as [H|H], (Nat.leb_spec n j) as [H0|H0]; try (exfalso; lia); rewrite ?andb_true_r, ?andb_false_r, ?orb_false_r; cbv zeta.
  - destruct (Nat.leb_spec 1 j), (Nat.leb_spec j (n - 1 - 1)), (Nat.leb_spec i n); cbn [andb]; eqs; try reflexivity; repeat f_equal; lia.
  - assert (exists m, j = n + m /\ m < n)%nat as (m & -> & Hmn) by (exists (j - n)%nat; lia). replace (n + m - n)%nat with m by lia.
    destruct (Nat.leb_spec 1 m), (Nat.leb_spec m (n - 1 - 1)), (Nat.leb_spec i n); cbn [andb]; eqs; try reflexivity; repeat f_equal; lia.
Qed.
(** ** the matrix is the linearisation of the residual *)
Lemma rsum_app a b (f : nat -> R) : rsum (a + b) f = rsum a f + rsum b (fun j => f (a + j)%nat).
Proof. induction b as [|b IH]; [rewrite Nat.add_0_r; cbn; ring|]. rewrite Nat.add_succ_r. cbn [rsum]. rewrite IH. ring. Qed.
Lemma rsum_one N (f : nat -> R) k : (k < N)%nat -> (forall j, (j < N)%nat -> j <> k -> f j = 0) -> rsum N f = f k.
Proof.
  intros Hk H. rewrite (rsum_split N f k Hk). rewrite (rsum_ext N _ (fun _ => 0)), rsum_zero; [ring|].
  intros j Hj. destruct (Nat.eqb_spec j k); [reflexivity|apply H; assumption].
Qed.
Lemma rsum_two N (f : nat -> R) k : (S k < N)%nat -> (forall j, (j < N)%nat -> j <> k -> j <> S k -> f j = 0) -> rsum N f = f k + f (S k).
Proof.
  intros Hk H. rewrite (rsum_split N f k ltac:(lia)). f_equal.
  rewrite (rsum_one N _ (S k) Hk).
  - destruct (Nat.eqb_spec (S k) k); [lia|reflexivity].
  - intros j Hj Hne. destruct (Nat.eqb_spec j k); [reflexivity|apply H; assumption].
Qed.
(** x applied to the matrix, row by row *)
Lemma ru_rows s x : (2 <= n)%nat -> let J := jac (ru_Jacobian n eos params s) in let D := ru_Jacobian n eos params s in
  matvec (2 * n) J x 0 = rsum n x /\ matvec (2 * n) J x 1 = rsum n (fun m => x (n + m)%nat) /\
  (forall k, (S k < n)%nat -> matvec (2 * n) J x (2 + k) =
     (dpdv D k * x k + dpde D k * x (n + k)%nat) - (dpdv D (S k) * x (S k) + dpde D (S k) * x (n + S k)%nat)) /\
  (forall k, (S k < n)%nat -> matvec (2 * n) J x (n + 1 + k) =
     (dtdv D k * x k + dtde D k * x (n + k)%nat) - (dtdv D (S k) * x (S k) + dtde D (S k) * x (n + S k)%nat)).
Proof.
  intros N2. cbv zeta.
  assert (forall i, (i < 2 * n)%nat -> matvec (2 * n) (jac (ru_Jacobian n eos params s)) x i =
    rsum n (fun j => ru_spec (ru_Jacobian n eos params s) i j * x j) + rsum n (fun j => ru_spec (ru_Jacobian n eos params s) i (n + j) * x (n + j)%nat)) as HR.
  { intros i Hi. unfold matvec. replace (2 * n)%nat with (n + n)%nat at 1 by lia. rewrite rsum_app. f_equal; apply rsum_ext; intros j Hj.
    - unfold ru_Jacobian. cbn [jac set_jac]. rewrite ru_fill_spec by lia. reflexivity.
    - unfold ru_Jacobian. cbn [jac set_jac]. rewrite ru_fill_spec by lia. reflexivity. }
  set (D := ru_Jacobian n eos params s) in *. clearbody D.
  split; [|split; [|split]].
  - rewrite HR by lia. rewrite (rsum_ext n _ x), (rsum_ext n (fun j => ru_spec D 0 (n + j) * _) (fun _ => 0)), rsum_zero; [ring| |].
    + intros j Hj. unfold ru_spec. destruct (Nat.ltb_spec (n + j) n); [lia|]. cbn. ring.
    + intros j Hj. unfold ru_spec. destruct (Nat.ltb_spec j n); [|lia]. cbn. ring.
  - rewrite HR by lia. rewrite (rsum_ext n (fun j => ru_spec D 1 (n + j) * _) (fun m => x (n + m)%nat)), (rsum_ext n _ (fun _ => 0)), rsum_zero; [ring| |].
    + intros j Hj. unfold ru_spec. destruct (Nat.ltb_spec j n); [|lia]. cbn. ring.
    + intros j Hj. unfold ru_spec. destruct (Nat.ltb_spec (n + j) n); [lia|]. cbn. ring.
  - intros k Hk. rewrite HR by lia. rewrite (rsum_two n (fun j => ru_spec D (2 + k) j * x j) k Hk), (rsum_two n (fun j => ru_spec D (2 + k) (n + j) * x (n + j)%nat) k Hk).
    + unfold ru_spec. destruct (Nat.ltb_spec k n); [|lia]. destruct (Nat.ltb_spec (S k) n); [|lia].
      destruct (Nat.ltb_spec (n + k) n); [lia|]. destruct (Nat.ltb_spec (n + S k) n); [lia|].
      replace (n + k - n)%nat with k by lia. replace (n + S k - n)%nat with (S k) by lia. cbv zeta.
      destruct (Nat.leb_spec (2 + k) n); [|lia]. eqs. ring.
    + intros j Hj H1 H2. unfold ru_spec. destruct (Nat.ltb_spec (n + j) n); [lia|]. replace (n + j - n)%nat with j by lia. cbv zeta.
      destruct (Nat.leb_spec (2 + k) n); [|lia]. eqs. ring.
    + intros j Hj H1 H2. unfold ru_spec. destruct (Nat.ltb_spec j n); [|lia]. cbv zeta. destruct (Nat.leb_spec (2 + k) n); [|lia]. eqs. ring.
  - intros k Hk. rewrite HR by lia. rewrite (rsum_two n (fun j => ru_spec D (n + 1 + k) j * x j) k Hk), (rsum_two n (fun j => ru_spec D (n + 1 + k) (n + j) * x (n + j)%nat) k Hk).
    + unfold ru_spec. destruct (Nat.ltb_spec k n); [|lia]. destruct (Nat.ltb_spec (S k) n); [|lia].
      destruct (Nat.ltb_spec (n + k) n); [lia|]. destruct (Nat.ltb_spec (n + S k) n); [lia|].
      replace (n + k - n)%nat with k by lia. replace (n + S k - n)%nat with (S k) by lia. cbv zeta.
      destruct (Nat.leb_spec (n + 1 + k) n); [lia|]. eqs. ring.
    + intros j Hj H1 H2. unfold ru_spec. destruct (Nat.ltb_spec (n + j) n); [lia|]. replace (n + j - n)%nat with j by lia. cbv zeta.
      destruct (Nat.leb_spec (n + 1 + k) n); [lia|]. eqs. ring.
    + intros j Hj H1 H2. unfold ru_spec. destruct (Nat.ltb_spec j n); [|lia]. cbv zeta. destruct (Nat.leb_spec (n + 1 + k) n); [lia|]. eqs. ring.
Qed.
Lemma ru_residual s : (2 <= n)%nat -> let r := res (ru_Residual n vfrac_total s) in
  r 0%nat = vfrac_total - rsum n (vfrac s) /\ r 1%nat = utot s - rsum n (u s) /\
  (forall k, (S k < n)%nat -> r (2 + k)%nat = press s (S k) - press s k) /\
  (forall k, (S k < n)%nat -> r (n + 1 + k)%nat = temp s (S k) - temp s k).
Proof.
  intros N2. unfold ru_Residual. cbn [res set_res]. rewrite !sum_neumaier_id.
  set (r0 := upd (upd (res s) 0 _) 1 _).
  assert (forall N, let r := fold_left (fun r m => upd r (2 + m) (press s (m + 1)%nat - press s m)) (seq 0 N) r0 in
    r 0%nat = r0 0%nat /\ r 1%nat = r0 1%nat /\ forall k, (k < N)%nat -> r (2 + k)%nat = press s (S k) - press s k) as HP.
  { induction N as [|N IH]; cbv zeta; [repeat split; intros; lia|]. rewrite seq_S, fold_left_app. cbn [fold_left].
    destruct IH as (I1 & I2 & I3). set (r := fold_left _ (seq 0 N) r0) in *. clearbody r. rewrite Nat.add_0_l.
    split; [rewrite upd_other by lia; exact I1|]. split; [rewrite upd_other by lia; exact I2|]. intros k Hk.
    destruct (Nat.eq_dec k N) as [->|E]; [rewrite upd_same; do 2 f_equal; lia|]. rewrite upd_other by lia. apply I3. lia. }
  destruct (HP (n - 1)%nat) as (P1 & P2 & P3). set (r1 := fold_left _ (seq 0 (n - 1)) r0) in *. clearbody r1.
  assert (forall N, let r := fold_left (fun r m => upd r m (temp s (m - n)%nat - temp s (m - n - 1)%nat)) (seq (n + 1) N) r1 in
    (forall i, (i <= n)%nat -> r i = r1 i) /\ forall k, (k < N)%nat -> r (n + 1 + k)%nat = temp s (S k) - temp s k) as HT.
  { induction N as [|N IH]; cbv zeta; [split; intros; [reflexivity|lia]|]. rewrite seq_S, fold_left_app. cbn [fold_left].
    destruct IH as (I1 & I2). set (r := fold_left _ (seq (n + 1) N) r1) in *. clearbody r.
    split; [intros i Hi; rewrite upd_other by lia; apply I1; exact Hi|]. intros k Hk.
    destruct (Nat.eq_dec k N) as [->|E]; [rewrite upd_same; f_equal; f_equal; lia|]. rewrite upd_other by lia. apply I2. lia. }
  destruct (HT (2 * n - (n + 1))%nat) as (T1 & T2). set (r2 := fold_left _ (seq (n + 1) _) r1) in *. clearbody r2. cbv zeta.
  split; [rewrite T1, P1 by lia; reflexivity|]. split; [rewrite T1, P2 by lia; reflexivity|].
  split; intros k Hk; [rewrite T1 by lia; apply P3; lia|apply T2; lia].
Qed.
(** the state after increments x, if every pressure and temperature responded linearly with the computed slopes *)
Definition ru_linear_response (D : pst) (x : nat -> R) : pst :=
  set_vfrac (fun m => vfrac D m + x m) (set_u (fun m => u D m + x (n + m)%nat)
  (set_press (fun m => press D m + (dpdv D m * x m + dpde D m * x (n + m)%nat))
  (set_temp (fun m => temp D m + (dtdv D m * x m + dtde D m * x (n + m)%nat)) D))).
Theorem C47_RhoU_matrix_is_linearisation : forall s x i, (2 <= n)%nat -> (i < 2 * n)%nat ->
  let D := ru_Jacobian n eos params s in
  matvec (2 * n) (jac D) x i = res (ru_Residual n vfrac_total D) i - res (ru_Residual n vfrac_total (ru_linear_response D x)) i.
Proof.
  intros s x i N2 Hi. cbv zeta. destruct (ru_rows s x N2) as (J0 & J1 & J2 & J3). set (D := ru_Jacobian n eos params s) in *.
  destruct (ru_residual D N2) as (A0 & A1 & A2 & A3). destruct (ru_residual (ru_linear_response D x) N2) as (B0 & B1 & B2 & B3). clearbody D.
  cbn [ru_linear_response vfrac u press temp utot set_vfrac set_u set_press set_temp] in B0, B1, B2, B3. rewrite rsum_plus in B0, B1.
  destruct (Nat.eq_dec i 0) as [->|]; [rewrite J0, A0, B0; ring|]. destruct (Nat.eq_dec i 1) as [->|]; [rewrite J1, A1, B1; ring|].
  destruct (le_dec i n).
  - replace i with (2 + (i - 2))%nat by lia. rewrite J2, A2, B2 by lia. ring.
  - replace i with (n + 1 + (i - n - 1))%nat by lia. rewrite J3, A3, B3 by lia. ring.
Qed.

(** ** the invariant of the iteration *)
Definition eos_consistent (m : nat) (r T e : R) : Prop := e = e_rt (eos m) r T \/ T = t_re (eos m) r e.
Variable rb : nat -> R.
Variable Tn us ut rt d0 : R.
Variable b ex : bool.   (* b: strictly positive volume fractions; ex: exact linear solves *)
Hypothesis N2 : (2 <= n)%nat.
Hypothesis Hrb : forall m, (m < n)%nat -> tiny <= rb m.
Hypothesis Hus : 1 / 100000000000000 <= us.
Hypothesis HTn : tiny <= Tn.
Hypothesis Ht0 : forall m r e, (m < n)%nat -> 0 <= t_re (eos m) r e.
Record ru_inv (s : pst) : Prop := {
  ui_rb : forall m, (m < n)%nat -> rhobar s m = rb m;
  ui_Tn : Tnorm s = Tn;
  ui_us : uscale s = us;
  ui_ut : utot s = ut;
  ui_rt : rhotot s = rt;
  ui_vf : forall m, (m < n)%nat -> 0 <= vfrac s m /\ (b = true -> 0 < vfrac s m);
  ui_mass : forall m, (m < n)%nat -> tiny <= vfrac s m -> rho s m * vfrac s m = rb m;
  ui_rho : forall m, (m < n)%nat -> 0 < rho s m;
  ui_T : forall m, (m < n)%nat -> 0 <= temp s m;
  ui_cons : forall m, (m < n)%nat -> eos_consistent m (rho s m) (Tn * temp s m) (sie s m);
  ui_u : forall m, (m < n)%nat -> u s m * us = rb m * sie s m;
  ui_p : forall m, (m < n)%nat -> press s m * us = GetPressureFromPreferred (eos m) (rho s m) (Tn * temp s m) (sie s m) false;
  ui_r0 : res s 0%nat = vfrac_total - rsum n (vfrac s);
  ui_r1 : res s 1%nat = ut - rsum n (u s);
  ui_r2 : forall k, (S k < n)%nat -> res s (2 + k)%nat = press s (S k) - press s k;
  ui_r3 : forall k, (S k < n)%nat -> res s (n + 1 + k)%nat = temp s (S k) - temp s k;
  ui_ex : ex = true -> rsum n (vfrac s) = vfrac_total /\ exists l, 0 <= l <= 1 /\ ut - rsum n (u s) = l * d0
}.
Definition ru_IJ (ok : bool) (s : pst) : Prop := ru_inv s /\
  (ex = true -> ok = true -> rsum n (dx s) = 0 /\ rsum n (fun m => dx s (n + m)%nat) = ut - rsum n (u s)).
Definition ru_IS (sc : R) (s : pst) : Prop := ru_inv s /\ (forall m, (m < n)%nat -> 9 / 10 * vfrac s m <= vfrac s m + dx s m) /\
  (ex = true -> rsum n (dx s) = 0 /\ exists k, 0 <= k <= 1 /\ rsum n (fun m => dx s (n + m)%nat) = k * (ut - rsum n (u s))).
Record ru_inv2 (s : pst) : Prop := {
  u2_inv : ru_inv s;
  u2_v : forall m, (m < n)%nat -> (0 <= vtmp s m /\ (b = true -> 0 < vtmp s m)) /\ 9 / 10 * vtmp s m <= vtmp s m + dx s m;
  u2_ex : ex = true -> rsum n (vtmp s) = vfrac_total /\ rsum n (dx s) = 0 /\
     (exists l, 0 <= l <= 1 /\ ut - rsum n (utmp s) = l * d0) /\ exists k, 0 <= k <= 1 /\ rsum n (fun m => dx s (n + m)%nat) = k * (ut - rsum n (utmp s))
}.
Lemma ru_us_tiny : tiny <= Rabs us.
Proof. rewrite Rabs_right by lra. pose proof tiny_e14. lra. Qed.
Lemma step_pos v d t : 0 <= v -> 9 / 10 * v <= v + d -> 0 <= t <= 1 -> 9 / 10 * v <= v + t * d.
Proof. intros. destruct (Rle_dec 0 d); nra. Qed.
Lemma ru_test_core t s : 0 < t <= 1 -> (forall m, (m < n)%nat -> rhobar s m = rb m) -> Tnorm s = Tn -> uscale s = us -> utot s = ut -> rhotot s = rt ->
  (forall m, (m < n)%nat -> (0 <= vtmp s m /\ (b = true -> 0 < vtmp s m)) /\ 9 / 10 * vtmp s m <= vtmp s m + dx s m) ->
  (ex = true -> rsum n (vtmp s) = vfrac_total /\ rsum n (dx s) = 0 /\
     (exists l, 0 <= l <= 1 /\ ut - rsum n (utmp s) = l * d0) /\ exists k, 0 <= k <= 1 /\ rsum n (fun m => dx s (n + m)%nat) = k * (ut - rsum n (utmp s))) ->
  forall s' e, ru_TestUpdate n eos vfrac_total t false s = (s', e) -> ru_inv2 s'.
Proof.
  intros Ht Erb ETn Eus Eut Ert Hv HX s' e E. unfold ru_TestUpdate in E. cbv zeta in E.
  match type of E with (?x, _) = _ => set (sR := x) in E end. inversion E; subst s'. clear E.
  pose proof ru_us_tiny as Hut. pose proof tiny_pos as TP.
  assert (tiny <= Rabs Tn) as HTn' by (rewrite Rabs_right; lra).
  assert (forall m, (m < n)%nat -> vfrac sR m = vtmp s m + t * dx s m) as Ev by (intros m Hm; cbn; rewrite mapm_lt by exact Hm; reflexivity).
  assert (forall m, (m < n)%nat -> u sR m = utmp s m + t * dx s (n + m)%nat) as Eu by (intros m Hm; cbn; rewrite mapm_lt by exact Hm; reflexivity).
  assert (forall m, (m < n)%nat -> rho sR m = ratio (rb m) (vfrac sR m)) as Er.
  { intros m Hm. cbn. rewrite !mapm_lt by exact Hm. rewrite Erb by exact Hm. reflexivity. }
  assert (forall m, (m < n)%nat -> sie sR m = us * ratio (u sR m) (rb m)) as Ee.
  { intros m Hm. cbn. rewrite !mapm_lt by exact Hm. rewrite Erb by exact Hm. rewrite Eus. reflexivity. }
  assert (forall m, (m < n)%nat -> temp sR m = ratio (t_re (eos m) (rho sR m) (sie sR m)) Tn) as ET.
  { intros m Hm. rewrite (Er m Hm), (Ee m Hm), (Ev m Hm), (Eu m Hm). cbn. rewrite !mapm_lt by exact Hm. rewrite Erb by exact Hm. rewrite Eus, ETn. reflexivity. }
  assert (forall m, (m < n)%nat -> press sR m = ratio (GetPressureFromPreferred (eos m) (rho sR m) (Tn * temp sR m) (sie sR m) false) us) as EP.
  { intros m Hm. rewrite (ET m Hm), (Er m Hm), (Ee m Hm), (Ev m Hm), (Eu m Hm). cbn. rewrite !mapm_lt by exact Hm. rewrite Erb by exact Hm. rewrite Eus, ETn. reflexivity. }
  pose proof (ru_residual (set_temp (temp sR) (set_press (press sR) (set_u (u sR) (set_vfrac (vfrac sR) s)))) N2) as HR. cbv zeta in HR.
  destruct HR as (R0 & R1 & R2 & R3).
  assert (forall i, res sR i = res (ru_Residual n vfrac_total (set_temp (temp sR) (set_press (press sR) (set_u (u sR) (set_vfrac (vfrac sR) s))))) i) as ER by reflexivity.
  cbn [vfrac u press temp utot set_vfrac set_u set_press set_temp] in R0, R1, R2, R3. rewrite <- ER in R0, R1. rewrite Eut in R1.
  assert (forall k, (S k < n)%nat -> res sR (2 + k)%nat = press sR (S k) - press sR k) as R2' by (intros k Hk; rewrite ER; apply R2; exact Hk).
  assert (forall k, (S k < n)%nat -> res sR (n + 1 + k)%nat = temp sR (S k) - temp sR k) as R3' by (intros k Hk; rewrite ER; apply R3; exact Hk).
  clear R2 R3 ER.
  assert (rhobar sR = rhobar s /\ Tnorm sR = Tnorm s /\ uscale sR = uscale s /\ utot sR = utot s /\ rhotot sR = rhotot s /\ vtmp sR = vtmp s /\ utmp sR = utmp s /\ dx sR = dx s) as (F1 & F2 & F3 & F4 & F5 & F6 & F7 & F8) by (repeat split).
  clearbody sR.
  assert (forall m, (m < n)%nat -> 0 <= vfrac sR m /\ (b = true -> 0 < vfrac sR m)) as Hvf.
  { intros m Hm. rewrite (Ev m Hm). destruct (Hv m Hm) as [[V1 V2] V3]. pose proof (step_pos _ _ t V1 V3 ltac:(lra)).
    split; [lra|]. intros B. specialize (V2 B). lra. }
  constructor.
  - constructor.
    + rewrite F1. exact Erb.
    + congruence.
    + congruence.
    + congruence.
    + congruence.
    + exact Hvf.
    + intros m Hm Htv. rewrite (Er m Hm). apply ratio_mul. rewrite Rabs_right; lra.
    + intros m Hm. rewrite (Er m Hm). pose proof (Hrb m Hm). apply ratio_pos_pos; [lra|]. apply Hvf. exact Hm.
    + intros m Hm. rewrite (ET m Hm). apply ratio_pos_nonneg; [apply Ht0; exact Hm|lra].
    + intros m Hm. right. rewrite (ET m Hm) at 1. rewrite Rmult_comm. apply ratio_mul. exact HTn'.
    + intros m Hm. rewrite (Ee m Hm). pose proof (Hrb m Hm). rewrite (ratio_abs _ (rb m)) by (rewrite Rabs_right; lra). field. lra.
    + intros m Hm. rewrite (EP m Hm) at 1. apply ratio_mul. exact Hut.
    + exact R0.
    + exact R1.
    + exact R2'.
    + exact R3'.
    + intros X. destruct (HX X) as (X1 & X2 & (l & Hl & X3) & (k & Hk & X4)).
      rewrite (rsum_ext n (vfrac sR) _ Ev), rsum_plus, rsum_scal, X1, X2. split; [ring|].
      exists ((1 - t * k) * l). split.
      * assert (0 <= 1 - t * k <= 1) by nra. nra.
      * rewrite (rsum_ext n (u sR) _ Eu), rsum_plus, rsum_scal, X4.
        replace (ut - (rsum n (utmp s) + t * (k * (ut - rsum n (utmp s))))) with ((1 - t * k) * (ut - rsum n (utmp s))) by ring.
        rewrite X3. ring.
  - rewrite F6, F8. exact Hv.
  - rewrite F6, F7, F8. exact HX.
Qed.
Lemma ru_inv_dx x s : ru_inv s -> ru_inv (set_dx x s).
Proof. intros H. constructor; apply H. Qed.
Lemma ru_inv_jac s : ru_inv s -> ru_inv (ru_Jacobian n eos params s).
Proof. intros H. constructor; apply H. Qed.
Hypothesis HEX : ex = true -> exact_solver lin /\ forall s, ru_inv s -> nonsingular (2 * n) (jac (ru_Jacobian n eos params s)).
Lemma ru_driver_inv : driver_invariant sys ru_inv ru_IJ ru_IS ru_inv2.
Proof.
  constructor; cbn [sCheckPTE sJacobian sSolve sScaleDx sTestUpdate sFixup RhoU_system].
  - intros s s2 ok H _ E. unfold Solve in E. destruct (solve_Ax_b _ _ _ _) as [x o] eqn:ES. inversion E; subst; clear E.
    split; [apply ru_inv_dx, ru_inv_jac, H|]. intros X Hok. subst ok. destruct (HEX X) as [HL HN].
    pose proof (solve_exact lin (2 * n) _ _ x HL ltac:(lia) (HN s H) ES) as HS.
    destruct (ru_rows s x N2) as (J0 & J1 & _). cbn [dx set_dx].
    assert (forall y, rsum n (dx (set_dx y s)) = rsum n y) by reflexivity.
    change (u (set_dx x (ru_Jacobian n eos params s))) with (u s).
    rewrite <- J0, <- J1. rewrite !HS by lia. rewrite !map_n_lt by lia. change (res (ru_Jacobian n eos params s)) with (res s). rewrite (ui_r0 _ H), (ui_r1 _ H).
    split; [|reflexivity]. rewrite (proj1 (ui_ex _ H X)). ring.
  - intros ok s [H _]. exact H.
  - intros s s3 sc [H HE] E.
    destruct (C36_RhoU_scaled_step_admissible s s3 sc) as (S1 & S2 & S3); [intros m Hm; split; [apply (ui_vf _ H m Hm)|apply (ui_T _ H m Hm)]|exact E|].
    assert (exists x, s3 = set_dx x s) as (x & ->) by (unfold ru_ScaleDx in E; inversion E; eauto).
    split; [apply ru_inv_dx; exact H|]. split; [intros m Hm; apply (proj1 (S3 m Hm))|].
    intros X. destruct (HE X eq_refl) as [E1 E2]. cbn [dx set_dx u] in *.
    rewrite (rsum_ext n x (fun m => dx s m * sc)) by (intros m Hm; apply S2; lia). rewrite rsum_scal_r, E1. split; [ring|].
    exists sc. split; [exact S1|]. rewrite (rsum_ext n _ (fun m => dx s (n + m)%nat * sc)) by (intros m Hm; apply S2; lia).
    rewrite rsum_scal_r, E2. ring.
  - intros sc s (H & _). exact H.
  - intros sc s s4 e (H & Hv & HX) E.
    apply (ru_test_core 1 (set_utmp (mapm n (u s) (utmp s)) (set_vtmp (mapm n (vfrac s) (vtmp s)) s))) with (e := e).
    + lra.
    + apply H.
    + apply H.
    + apply H.
    + apply H.
    + apply H.
    + intros m Hm. cbn. rewrite mapm_lt by exact Hm. split; [apply H; exact Hm|apply Hv; exact Hm].
    + intros X. destruct (HX X) as (X1 & X2). destruct (ui_ex _ H X) as (X3 & X4). cbn [vtmp utmp dx set_utmp set_vtmp].
      rewrite !rsum_mapm. auto.
    + exact E.
  - intros t s s4 e [H Hv HX] Ht E. eapply (ru_test_core t s); try apply H; try eassumption.
  - intros s [H _ _]. exact H.
  - auto.
Qed.

(** ** the initial guess *)
Definition ideal_guess_regular (sB : pst) : Prop :=
  let '(Pi, Ti) := GetIdealPTE n vfrac_total sB in tiny <= uscale sB * vfrac_total /\ tiny <= Rabs Ti /\ tiny <= Rabs (ratio Pi Ti).
Lemma ratio_nonzero a c : a <> 0 -> ratio a c <> 0.
Proof.
  intros Ha. unfold ratio. fold tiny. pose proof tiny_pos. case Rle_bool_spec; intros Hc.
  - assert (c <> 0) by (intros ->; rewrite Rabs_R0 in Hc; lra). unfold Rdiv. apply Rmult_integral_contrapositive_currified; [exact Ha|apply Rinv_neq_0_compat; assumption].
  - unfold ratio_exact, Rdiv. apply Rmult_integral_contrapositive_currified; [exact Ha|apply Rinv_neq_0_compat, ratio_denominator_nz].
Qed.
Lemma fldA a v : a <> 0 -> v <> 0 -> a * / (a / v) = v. Proof. intros. field. auto. Qed.
Lemma ru_init_core s0 sB : (forall m, (m < n)%nat -> rb m = rho s0 m * vfrac s0 m) -> Tn = Tnorm sB -> us = uscale sB -> ut = utot sB -> rt = rhotot sB ->
  init_ok n eos vfrac_total sie_total s0 sB ->
  (forall m, (m < n)%nat -> pref_p (eos m) = false \/ bad_value (press s0 m) = true) ->
  (forall m T, (m < n)%nat -> 0 <= RhoPmin (eos m) T) ->
  (b = true -> forall m, (m < n)%nat -> press sB m <> 0) -> (ex = true -> tiny <= vfrac_total /\ ideal_guess_regular sB) ->
  let s := TryIdealPTE n eos vfrac_total (2 * n) (ru_Residual n vfrac_total) (ru_Residual n vfrac_total sB) in
  (ex = true -> d0 = ut - rsum n (u s)) -> ru_inv s.
Proof.
  intros Erb ETn Eus Eut Ert HI Hpp Hpm Hst Hreg. pose proof ru_us_tiny as Hut. pose proof tiny_pos as TP. pose proof tiny_lt_1 as T1.
  pose proof (so_vf _ _ _ _ (io_shape _ _ _ _ _ _ HI)) as Hvf. pose proof (io_temp _ _ _ _ _ _ HI) as Htm.
  assert (forall m, (m < n)%nat -> rhobar sB m = rb m) as ErB.
  { intros m Hm. rewrite Erb by exact Hm. apply (so_rb _ _ _ _ (io_shape _ _ _ _ _ _ HI) m Hm). }
  pose proof (ru_residual sB N2) as HR. cbv zeta in HR. destruct HR as (R0 & R1 & R2 & R3).
  cbv zeta. intros HD0. unfold TryIdealPTE in *. change (GetIdealPTE n vfrac_total (ru_Residual n vfrac_total sB)) with (GetIdealPTE n vfrac_total sB) in *.
  assert ((ex = true -> d0 = ut - rsum n (u sB)) -> ru_inv (ru_Residual n vfrac_total sB)) as HOLD.
  { intros HD. constructor.
    - exact ErB.
    - symmetry. exact ETn.
    - symmetry. exact Eus.
    - symmetry. exact Eut.
    - symmetry. exact Ert.
    - intros m Hm. cbn. pose proof (Hvf m Hm). split; [lra|auto].
    - intros m Hm Hv. rewrite Erb by exact Hm. apply (so_mass _ _ _ _ (io_shape _ _ _ _ _ _ HI)); assumption.
    - intros m Hm. apply (so_rho _ _ _ _ (io_shape _ _ _ _ _ _ HI)); [exact Hm|]. rewrite <- Erb by exact Hm. pose proof (Hrb m Hm). lra.
    - intros m Hm. cbn. rewrite (Htm m Hm). lra.
    - intros m Hm. left. cbn. rewrite (Htm m Hm), Rmult_1_r, ETn. apply (io_sie _ _ _ _ _ _ HI m Hm).
    - intros m Hm. cbn. rewrite (io_u _ _ _ _ _ _ HI m Hm), <- Eus. rewrite Rmult_assoc, ratio_mul by exact Hut. rewrite (ErB m Hm). ring.
    - intros m Hm. cbn. rewrite (Htm m Hm), Rmult_1_r, ETn. rewrite (io_p _ _ _ _ _ _ HI m Hm).
      replace (pref_p (eos m) && negb (bad_value (press s0 m))) with false.
      + rewrite <- Eus. apply ratio_mul. exact Hut.
      + destruct (Hpp m Hm) as [->| ->]; [reflexivity|]. rewrite andb_false_r. reflexivity.
    - exact R0.
    - rewrite Eut. exact R1.
    - exact R2.
    - exact R3.
    - intros X. cbn. split; [apply (so_sum _ _ _ _ (io_shape _ _ _ _ _ _ HI))|]. exists 1. split; [lra|]. rewrite (HD X). ring. }
  unfold ideal_guess_regular in Hreg.
  destruct (GetIdealPTE n vfrac_total sB) as [Pi Ti] eqn:EG.
  set (vnew := fun m => vfrac (ru_Residual n vfrac_total sB) m * ratio (press (ru_Residual n vfrac_total sB) m) (temp (ru_Residual n vfrac_total sB) m * ratio Pi Ti)) in *.
  destruct (existsb _ _) eqn:EX; [exact (HOLD HD0)|].
  pose proof (existsb_seq_false _ _ EX) as HC. clear EX. cbv beta in HC.
  match goal with |- ru_inv (if Rlt_bool ?x ?y then _ else _) => destruct (Rlt_bool x y); [exact (HOLD HD0)|] end.
  clear HOLD. set (sR := set_sie _ _) in *.
  change (rhobar (ru_Residual n vfrac_total sB)) with (rhobar sB) in HC. change (Tnorm (ru_Residual n vfrac_total sB)) with (Tnorm sB) in HC.
  assert (forall m, (m < n)%nat -> 0 <= vnew m /\ 0 <= Tn * Ti) as Hvn.
  { intros m Hm. pose proof (HC m Hm) as H. apply orb_false_iff in H. destruct H as [H1 H2]. rewrite <- ETn in *.
    split; [|revert H1; case Rlt_bool_spec; [discriminate|auto]].
    assert (RhoPmin (eos m) (Tn * Ti) <= ratio (rhobar sB m) (vnew m)) as H3 by (revert H2; case Rlt_bool_spec; [discriminate|auto]).
    pose proof (Hpm m (Tn * Ti) Hm). pose proof (Hrb m Hm). rewrite (ErB m Hm) in H3.
    destruct (Rle_dec 0 (vnew m)) as [|Hn]; [assumption|exfalso]. destruct (ratio_den_neg (rb m) (vnew m) ltac:(lra)) as (d & Hd & Er).
    rewrite Er in H3. assert (0 < rb m * / - d) by (apply Rmult_lt_0_compat; [lra|apply Rinv_0_lt_compat; lra]).
    assert (rb m / d = - (rb m * / - d)) by (field; lra). lra. }
  assert (0 <= Ti) as HTi.
  { destruct (Hvn 0%nat ltac:(lia)) as [_ H]. destruct (Rle_dec 0 Ti); [assumption|nra]. }
  assert (b = true -> forall m, (m < n)%nat -> 0 < vnew m) as Hvs.
  { intros B m Hm. destruct (Hvn m Hm) as [H _]. assert (vnew m <> 0); [|lra]. unfold vnew.
    apply Rmult_integral_contrapositive_currified; [cbn; pose proof (Hvf m Hm); lra|]. apply ratio_nonzero. cbn. apply Hst; assumption. }
  assert (ex = true -> rsum n vnew = vfrac_total) as Hsum.
  { intros X. destruct (Hreg X) as (V1 & V2 & V3 & V4). unfold vnew. cbn [vfrac press temp ru_Residual set_res].
    rewrite (rsum_ext n _ (fun m => (vfrac sB m * press sB m) * / ratio Pi Ti)).
    2:{ intros m Hm. rewrite (Htm m Hm), Rmult_1_l, ratio_abs by exact V4. unfold Rdiv. ring. }
    rewrite rsum_scal_r. unfold GetIdealPTE in EG. cbv zeta in EG. pose proof (f_equal fst EG) as EPi. pose proof (f_equal snd EG) as ETi. cbn [fst snd] in EPi, ETi. rewrite ETi in EPi.
    assert (rsum n (fun m => vfrac sB m * ratio (press sB m) (temp sB m)) = rsum n (fun m => vfrac sB m * press sB m)) as EA.
    { apply rsum_ext. intros m Hm. rewrite (Htm m Hm), ratio_abs by (rewrite Rabs_R1; lra). field. }
    rewrite EA in EPi. set (A0 := rsum n (fun m => vfrac sB m * press sB m)) in *. clearbody A0.
    rewrite <- ETn, <- Eus in EPi. rewrite <- Eus in V2.
    assert (Ti <> 0) as T0 by (intros E; rewrite E, Rabs_R0 in V3; lra).
    rewrite (ratio_abs _ (us * vfrac_total)) in EPi by (rewrite Rabs_right; lra).
    assert (ratio Pi Ti = A0 / vfrac_total) as EQ.
    { rewrite ratio_abs by exact V3. rewrite <- EPi. field. repeat split; lra. }
    rewrite EQ in *. assert (A0 <> 0) as A1.
    { intros E. rewrite E in V4. unfold Rdiv in V4. rewrite Rmult_0_l, Rabs_R0 in V4. lra. }
    apply fldA; [exact A1|lra]. }
  assert (forall m, (m < n)%nat -> vfrac sR m = vnew m) as Ev by (intros m Hm; cbn; rewrite mapm_lt by exact Hm; reflexivity).
  assert (forall m, (m < n)%nat -> rho sR m = ratio (rb m) (vnew m)) as Er.
  { intros m Hm. cbn. rewrite !mapm_lt by exact Hm. rewrite (ErB m Hm). reflexivity. }
  assert (forall m, (m < n)%nat -> temp sR m = Ti) as ET by (intros m Hm; cbn; rewrite mapm_lt by exact Hm; reflexivity).
  assert (forall m, (m < n)%nat -> u sR m = rb m * ratio (e_rt (eos m) (rho sR m) (Tn * Ti)) us) as Eu.
  { intros m Hm. rewrite (Er m Hm). cbn. rewrite !mapm_lt by exact Hm. rewrite (ErB m Hm), <- Eus, <- ETn. reflexivity. }
  assert (forall m, (m < n)%nat -> sie sR m = us * ratio (u sR m) (rb m)) as Ee0.
  { intros m Hm. rewrite (Eu m Hm), (Er m Hm). cbn. rewrite !mapm_lt by exact Hm. rewrite (ErB m Hm), <- Eus, <- ETn. reflexivity. }
  assert (forall m, (m < n)%nat -> sie sR m = e_rt (eos m) (rho sR m) (Tn * Ti)) as Ee.
  { intros m Hm. rewrite (Ee0 m Hm), (Eu m Hm). pose proof (Hrb m Hm). rewrite (ratio_abs _ (rb m)) by (rewrite Rabs_right; lra).
    rewrite ratio_abs by exact Hut. field. lra. }
  assert (forall m, (m < n)%nat -> press sR m = ratio (GetPressureFromPreferred (eos m) (rho sR m) (Tn * Ti) (sie sR m) false) us) as EP.
  { intros m Hm. rewrite (Ee m Hm), (Er m Hm). cbn. rewrite !mapm_lt by exact Hm. rewrite (ErB m Hm), <- Eus, <- ETn. reflexivity. }
  clear R0 R1 R2 R3.
  pose proof (ru_residual (set_press (press sR) (set_u (u sR) (set_vfrac (vfrac sR) (ru_Residual n vfrac_total sB)))) N2) as HR. cbv zeta in HR. destruct HR as (R0 & R1 & R2 & R3).
  change (utot _) with (utot sB) in R1. rewrite <- Eut in R1.
  assert (res sR 0%nat = vfrac_total - rsum n (vfrac sR)) as R0' by exact R0.
  assert (res sR 1%nat = ut - rsum n (u sR)) as R1' by exact R1.
  assert (forall k, (S k < n)%nat -> res sR (2 + k)%nat = press sR (S k) - press sR k) as R2' by (intros k Hk; exact (R2 k Hk)).
  assert (forall k, (S k < n)%nat -> res sR (n + 1 + k)%nat = temp sB (S k) - temp sB k) as R3' by (intros k Hk; exact (R3 k Hk)).
  assert (rhobar sR = rhobar sB /\ Tnorm sR = Tnorm sB /\ uscale sR = uscale sB /\ utot sR = utot sB /\ rhotot sR = rhotot sB) as (F1 & F2 & F3 & F4 & F5) by (repeat split).
  clear R0 R1 R2 R3. clearbody sR.
  constructor.
  - rewrite F1. exact ErB.
  - congruence.
  - congruence.
  - congruence.
  - congruence.
  - intros m Hm. rewrite (Ev m Hm). split; [apply Hvn; exact Hm|intros B; apply Hvs; assumption].
  - intros m Hm Hv. rewrite (Er m Hm), (Ev m Hm) in *. apply ratio_mul. rewrite Rabs_right; [exact Hv|]. destruct (Hvn m Hm). lra.
  - intros m Hm. rewrite (Er m Hm). pose proof (Hrb m Hm). apply ratio_pos_pos; [lra|]. apply Hvn. exact Hm.
  - intros m Hm. rewrite (ET m Hm). exact HTi.
  - intros m Hm. left. rewrite (ET m Hm). apply Ee. exact Hm.
  - intros m Hm. rewrite (Ee m Hm), (Eu m Hm). rewrite Rmult_assoc, ratio_mul by exact Hut. reflexivity.
  - intros m Hm. rewrite (EP m Hm) at 1. rewrite (ET m Hm). apply ratio_mul. exact Hut.
  - exact R0'.
  - exact R1'.
  - exact R2'.
  - intros k Hk. rewrite R3' by exact Hk. rewrite !Htm, !ET by lia. ring.
  - intros X. rewrite (rsum_ext n (vfrac sR) vnew Ev). split; [apply Hsum; exact X|]. exists 1. split; [lra|]. rewrite (HD0 X). ring.
Qed.
End RhoU.

(** ** a class of materials for which the Newton matrix is never singular *)
Lemma chain_eq n (D x : nat -> R) : (forall k, (S k < n)%nat -> D k * x k = D (S k) * x (S k)) -> forall m, (m < n)%nat -> D m * x m = D 0%nat * x 0%nat.
Proof. intros H. induction m as [|m IH]; intros Hm; [reflexivity|]. rewrite <- IH by lia. symmetry. apply H. exact Hm. Qed.
Lemma chain_zero n (D x : nat -> R) : (forall m, (m < n)%nat -> 0 < D m) -> (forall k, (S k < n)%nat -> D k * x k = D (S k) * x (S k)) ->
  rsum n x = 0 -> forall m, (m < n)%nat -> x m = 0.
Proof.
  intros HD HC HS m Hm. pose proof (chain_eq n D x HC) as HE. set (c := D 0%nat * x 0%nat) in *. clearbody c.
  assert (forall m, (m < n)%nat -> x m = c * / D m) as HX.
  { intros k Hk. pose proof (HD k Hk). rewrite <- (HE k Hk). field. lra. }
  rewrite (rsum_ext n x (fun m => c * / D m) HX), rsum_scal in HS.
  assert (0 < / D m) as Hi by (apply Rinv_0_lt_compat, HD; exact Hm).
  assert (/ D m <= rsum n (fun k => / D k)).
  { apply (rsum_ge_term n (fun k => / D k) m Hm). intros k Hk. apply Rlt_le, Rinv_0_lt_compat, HD. exact Hk. }
  assert (c = 0) as -> by nra. rewrite (HX m Hm). ring.
Qed.

(** materials whose temperature is a non-negative, non-decreasing function of the energy only, with the two energy conversions
    inverse to each other (ideal gases, and any caloric law e(T)) *)
Record caloric (n : nat) (eos : nat -> meos) (tau : nat -> R -> R) : Prop := {
  ca_t : forall m r e, (m < n)%nat -> t_re (eos m) r e = tau m e;
  ca_inv : forall m r T, (m < n)%nat -> 0 <= T -> tau m (e_rt (eos m) r T) = T;
  ca_inc : forall m e1 e2, (m < n)%nat -> e1 <= e2 -> tau m e1 <= tau m e2;
  ca_pos : forall m e, (m < n)%nat -> 0 <= tau m e
}.
Lemma ru_caloric_slopes n eos vft (params : MixParams RArith) rb Tn us ut rt d0 b ex tau s : caloric n eos tau ->
  (forall m, (m < n)%nat -> tiny <= rb m) -> 1 / 100000000000000 <= us -> tiny <= Tn -> 0 < min_dtde params -> 0 < derivative_eps params -> pte_max_dpdv params <> 0 ->
  ru_inv n eos vft rb Tn us ut rt d0 b ex s -> let D := ru_Jacobian n eos params s in
  forall m, (m < n)%nat -> dpdv D m < 0 /\ dtdv D m = 0 /\ 0 < dtde D m.
Proof.
  intros CA Hrb Hus HTn Hmd Hde Hpd H D m Hm. pose proof tiny_pos as TP. pose proof (Hrb m Hm) as Hr.
  assert (tiny <= Rabs Tn) as HTn' by (rewrite Rabs_right; lra).
  assert (Tn * temp s m = tau m (sie s m)) as ET.
  { destruct (ui_cons _ _ _ _ _ _ _ _ _ _ _ _ H m Hm) as [E|E].
    - rewrite E. rewrite (ca_inv _ _ _ CA m (rho s m) _ Hm); [reflexivity|]. apply Rmult_le_pos; [lra|]. apply (ui_T _ _ _ _ _ _ _ _ _ _ _ _ H m Hm).
    - rewrite E. apply (ca_t _ _ _ CA). exact Hm. }
  assert (ratio (tau m (sie s m)) Tn = temp s m) as ET'.
  { rewrite <- ET. rewrite ratio_abs by exact HTn'. field. lra. }
  unfold D, ru_Jacobian. cbn [dpdv dtdv dtde set_jac set_dtde set_dpde set_dtdv set_dpdv]. rewrite !mapm_lt by exact Hm.
  split; [|split].
  - eapply Rle_lt_trans; [apply Rmin_r|]. pose proof (Rabs_pos_lt _ Hpd). lra.
  - rewrite (ca_t _ _ _ CA _ _ _ Hm). rewrite (ui_Tn _ _ _ _ _ _ _ _ _ _ _ _ H), ET'. unfold Rminus. rewrite Rplus_opp_r. unfold ratio, ratio_exact, Rdiv. destruct (Rle_bool _ _); ring.
  - cbv zeta. match goal with |- 0 < (if Rlt_bool (Rabs ?x) _ then _ else _) => assert (0 <= x) as Hx end.
    { rewrite (ca_t _ _ _ CA _ _ _ Hm). rewrite (ui_Tn _ _ _ _ _ _ _ _ _ _ _ _ H), (ui_us _ _ _ _ _ _ _ _ _ _ _ _ H), (ui_rb _ _ _ _ _ _ _ _ _ _ _ _ H m Hm).
      assert (0 <= Rabs (u s m) * derivative_eps params) as Hd by (apply Rmult_le_pos; [apply Rabs_pos|lra]).
      apply ratio_pos_nonneg; [|exact Hd]. cbn [temp set_dpde set_dtdv set_dpdv]. rewrite <- ET'.
      pose proof (ui_u _ _ _ _ _ _ _ _ _ _ _ _ H m Hm) as Hu.
      set (e2 := us * ratio (u s m + Rabs (u s m) * derivative_eps params) (rb m)).
      assert (sie s m <= e2) as Hle.
      { unfold e2. rewrite ratio_abs by (rewrite Rabs_right; lra).
        assert (sie s m = us * (u s m / rb m)) as ->.
        { apply (Rmult_eq_reg_l (rb m)); [|lra]. rewrite <- Hu. field. lra. }
        apply Rmult_le_compat_l; [lra|]. apply Rmult_le_compat_r; [apply Rlt_le, Rinv_0_lt_compat; lra|]. lra. }
      pose proof (ca_inc _ _ _ CA m _ _ Hm Hle) as Hi. rewrite !(ratio_abs _ Tn) by exact HTn'.
      assert (0 < / Tn) by (apply Rinv_0_lt_compat; lra). unfold Rdiv. nra. }
    rewrite Rabs_right by lra. case Rlt_bool_spec; intros Hc; lra.
Qed.
Theorem C46_RhoU_newton_matrix_nonsingular : forall n eos vft (params : MixParams RArith) rb Tn us ut rt d0 b ex tau s, (2 <= n)%nat -> caloric n eos tau ->
  (forall m, (m < n)%nat -> tiny <= rb m) -> 1 / 100000000000000 <= us -> tiny <= Tn -> 0 < min_dtde params -> 0 < derivative_eps params -> pte_max_dpdv params <> 0 ->
  ru_inv n eos vft rb Tn us ut rt d0 b ex s -> nonsingular (2 * n) (jac (ru_Jacobian n eos params s)).
Proof.
  intros n eos vft params rb Tn us ut rt d0 b ex tau s N2 CA Hrb Hus HTn Hmd Hde Hpd H x Hx.
  pose proof (ru_caloric_slopes n eos vft params rb Tn us ut rt d0 b ex tau s CA Hrb Hus HTn Hmd Hde Hpd H) as HS. cbv zeta in HS.
  destruct (ru_rows n eos params s x N2) as (J0 & J1 & J2 & J3). set (D := ru_Jacobian n eos params s) in *.
  rewrite (Hx 0%nat ltac:(lia)) in J0. rewrite (Hx 1%nat ltac:(lia)) in J1.
  assert (forall m, (m < n)%nat -> x (n + m)%nat = 0) as HY.
  { apply (chain_zero n (dtde D) (fun m => x (n + m)%nat)); [intros m Hm; apply HS; exact Hm| |symmetry; exact J1].
    intros k Hk. pose proof (J3 k Hk) as E. rewrite (Hx (n + 1 + k)%nat ltac:(lia)) in E.
    rewrite (proj1 (proj2 (HS k ltac:(lia)))), (proj1 (proj2 (HS (S k) Hk))) in E. lra. }
  assert (forall m, (m < n)%nat -> x m = 0) as HXX.
  { apply (chain_zero n (fun m => - dpdv D m) x); [intros m Hm; pose proof (proj1 (HS m Hm)); lra| |symmetry; exact J0].
    intros k Hk. pose proof (J2 k Hk) as E. rewrite (Hx (2 + k)%nat ltac:(lia)) in E. rewrite (HY k ltac:(lia)), (HY (S k) Hk) in E. lra. }
  intros j Hj. destruct (lt_dec j n) as [Hl|Hl]; [apply HXX; exact Hl|]. replace j with (n + (j - n))%nat by lia. apply HY. lia.
Qed.

(** ** End-to-end statements *)
Lemma tguess_lo n eos vft (params : MixParams RArith) lo : 0 < lo -> lo <= temperature_limit params ->
  forall fuel s Tg s' Tg', lo <= Tg -> tguess_loop n eos vft params fuel s Tg = (s', Tg') -> lo <= Tg'.
Proof.
  intros Hl Hl2. induction fuel as [|f IH]; intros s Tg s' Tg' HT E; cbn [tguess_loop] in E; [inversion E; subst; exact HT|].
  set (T1 := if iterate_t_guess params then _ else Tg) in E.
  assert (lo <= T1) as HT1.
  { unfold T1. destruct (iterate_t_guess params); [|exact HT]. apply Rmin_glb; [exact Hl2|].
    pose proof (Rmax_l Tg (newton_T n eos s Tg)). lra. }
  set (T2 := fold_left _ _ T1) in E.
  assert (lo <= T2) as HT2 by (pose proof (fold_max_ge' (seq 0 n) (fun m => MinimumTemperature (eos m)) T1); unfold T2; lra).
  clearbody T1 T2. destruct (SetVfracFromT _ _ _ _ _ _) as [vf bad]. destruct bad; [apply IH in E; [exact E|lra]|].
  destruct (existsb _ _); [apply IH in E; [exact E|lra]|]. inversion E; subst. exact HT2.
Qed.
Lemma InitBase_Tn_lo n eos vft sie (params : MixParams RArith) s0 : tiny <= default_tguess params -> tiny <= temperature_limit params -> (0 < Tnorm s0 -> tiny <= Tnorm s0) ->
  tiny <= Tnorm (InitBase n eos vft sie params s0).
Proof.
  intros H1 H2 H3. pose proof tiny_pos as TP. unfold InitBase. set (sA := InitRhoBarandRho n s0). cbv zeta.
  match goal with |- context [GetTguess n eos vft params ?x] => set (sB := x); destruct (GetTguess n eos vft params sB) as [s1 Tg] eqn:EG end.
  cbv beta iota. change (tiny <= Tg). unfold GetTguess in EG. eapply tguess_lo in EG; [exact EG|exact TP|exact H2|].
  change (Tnorm sB) with (Tnorm s0). destruct (Rlt_bool 0 (Tnorm s0)) eqn:ET.
  - apply H3. revert ET. case Rlt_bool_spec; [auto|discriminate].
  - pose proof (fold_max_ge (seq 0 n) (temp sB) (default_tguess params)). lra.
Qed.
Section EndToEndRhoU.
Variable n : nat.
Variable eos : nat -> meos.
Variable vfrac_total sie_total : R.
Variable params : MixParams RArith.
Variable lin : nat -> (nat -> R) -> (nat -> R) -> (nat -> R).
Notation sys := (RhoU_system n eos vfrac_total sie_total params lin).
(** the caller's data and EOS: as for the other systems, plus: temperatures and densities of minimum pressure are never
    negative, and no pressure is taken from the caller's array *)
Record good_rhou (s0 : pst) : Prop := {
  gu_in : good_input n eos vfrac_total params s0;
  gu_n : (2 <= n)%nat;
  gu_mass : forall m, (m < n)%nat -> tiny <= rho s0 m * vfrac s0 m;
  gu_t : forall m r e, (m < n)%nat -> 0 <= t_re (eos m) r e;
  gu_pm : forall m T, (m < n)%nat -> 0 <= RhoPmin (eos m) T;
  gu_pp : forall m, (m < n)%nat -> pref_p (eos m) = false \/ bad_value (press s0 m) = true;
  gu_fac : 0 < line_search_fac params <= 1;
  gu_T : tiny <= default_tguess params /\ tiny <= temperature_limit params /\ (0 < Tnorm s0 -> tiny <= Tnorm s0)
}.
Notation sBof s0 := (InitBase n eos vfrac_total sie_total params s0).
Notation inv s0 := (ru_inv n eos vfrac_total (fun m => rho s0 m * vfrac s0 m) (Tnorm (sBof s0)) (uscale (sBof s0)) (utot (sBof s0)) (rhotot (sBof s0))).
Lemma ru_init_inv s0 b ex : good_rhou s0 -> (b = true -> forall m, (m < n)%nat -> press (sBof s0) m <> 0) ->
  (ex = true -> ideal_guess_regular n vfrac_total (sBof s0)) ->
  inv s0 (utot (sBof s0) - rsum n (u (fst (sInit sys s0)))) b ex (fst (sInit sys s0)).
Proof.
  intros G Hb Hx. pose proof (InitBase_ok n eos vfrac_total sie_total params s0 (gu_in _ G)) as HI. pose proof (us_pos _ _ _ _ _ _ HI) as Hus.
  change (fst (sInit sys s0)) with (TryIdealPTE n eos vfrac_total (2 * n) (ru_Residual n vfrac_total) (ru_Residual n vfrac_total (sBof s0))).
  apply (ru_init_core n eos vfrac_total sie_total (fun m => rho s0 m * vfrac s0 m) (Tnorm (sBof s0)) (uscale (sBof s0)) (utot (sBof s0)) (rhotot (sBof s0)) _ b ex
    (gu_n _ G) (gu_mass _ G) Hus (InitBase_Tn_lo _ _ _ _ _ _ (proj1 (gu_T _ G)) (proj1 (proj2 (gu_T _ G))) (proj2 (proj2 (gu_T _ G)))) s0 (sBof s0)); auto; try reflexivity.
  - apply (gu_pp _ G).
  - apply (gu_pm _ G).
  - intros X. split; [apply (gi_vt _ _ _ _ _ (gu_in _ G))|exact (Hx X)].
Qed.

(** Returned state, converged or not (for any linear solver): volume fractions are non-negative (positive, if no initial-guess
    pressure is exactly zero), every material keeps its mass, temperatures are non-negative, the energies and
    temperatures returned belong together by the material's EOS, and the pressures are the ones the EOS assigns. *)
Theorem C34_RhoU_returned_state : forall s0 st sf, good_rhou s0 ->
  @PTESolver RArith pst ratio sys s0 = (st, sf) ->
  forall m, (m < n)%nat -> 0 <= vfrac sf m /\ ((forall k, (k < n)%nat -> press (sBof s0) k <> 0) -> 0 < vfrac sf m) /\
    0 < rho sf m /\ (tiny <= vfrac sf m -> rho sf m * vfrac sf m = rho s0 m * vfrac s0 m) /\
    0 <= temp sf m /\ (sie sf m = e_rt (eos m) (rho sf m) (temp sf m) \/ temp sf m = t_re (eos m) (rho sf m) (sie sf m)) /\
    press sf m = GetPressureFromPreferred (eos m) (rho sf m) (temp sf m) (sie sf m) false.
Proof.
  intros s0 st sf G E.
  assert (forall b, (b = true -> forall m, (m < n)%nat -> press (sBof s0) m <> 0) ->
    exists s', inv s0 (utot (sBof s0) - rsum n (u (fst (sInit sys s0)))) b false s' /\ sf = sFinalize sys s') as HH.
  { intros b Hb. pose proof (ru_init_inv s0 b false G Hb ltac:(discriminate)) as H0.
    pose proof (InitBase_ok n eos vfrac_total sie_total params s0 (gu_in _ G)) as HI. pose proof (us_pos _ _ _ _ _ _ HI) as Hus.
    pose proof (ru_driver_inv n eos vfrac_total sie_total params lin (fun m => rho s0 m * vfrac s0 m) (Tnorm (sBof s0)) (uscale (sBof s0)) (utot (sBof s0)) (rhotot (sBof s0))
       (utot (sBof s0) - rsum n (u (fst (sInit sys s0)))) b false (gu_n _ G) (gu_mass _ G) Hus
       (InitBase_Tn_lo _ _ _ _ _ _ (proj1 (gu_T _ G)) (proj1 (proj2 (gu_T _ G))) (proj2 (proj2 (gu_T _ G)))) (gu_t _ G) ltac:(discriminate)) as HD.
    destruct (C35_invariant_principle sys _ _ _ _ HD (gu_fac _ G) s0 H0) as (s' & H' & E').
    rewrite E in E'. cbn [snd] in E'. exists s'. split; [exact H'|exact E']. }
  intros m Hm. destruct (HH false ltac:(discriminate)) as (s' & H' & ->).
  assert (temp (sFinalize sys s') m = Tnorm (sBof s0) * temp s' m /\ press (sFinalize sys s') m = press s' m * uscale (sBof s0)) as [FT FP].
  { cbn. rewrite !mapm_lt by exact Hm. rewrite (ui_Tn _ _ _ _ _ _ _ _ _ _ _ _ H'), (ui_us _ _ _ _ _ _ _ _ _ _ _ _ H'). split; ring. }
  rewrite FT, FP. change (vfrac (sFinalize sys s')) with (vfrac s'). change (rho (sFinalize sys s')) with (rho s'). change (sie (sFinalize sys s')) with (sie s').
  split; [apply (ui_vf _ _ _ _ _ _ _ _ _ _ _ _ H' m Hm)|]. split.
  { intros HP. destruct (HH true (fun _ => HP)) as (s2 & H2 & E2). change (vfrac s' m) with (vfrac (sFinalize sys s') m). rewrite E2.
    apply (ui_vf _ _ _ _ _ _ _ _ _ _ _ _ H2 m Hm). reflexivity. }
  split; [apply (ui_rho _ _ _ _ _ _ _ _ _ _ _ _ H' m Hm)|]. split; [apply (ui_mass _ _ _ _ _ _ _ _ _ _ _ _ H' m Hm)|].
  pose proof (InitBase_Tn_lo n eos vfrac_total sie_total params s0 (proj1 (gu_T _ G)) (proj1 (proj2 (gu_T _ G))) (proj2 (proj2 (gu_T _ G)))) as HTn. pose proof tiny_pos.
  split; [apply Rmult_le_pos; [lra|apply (ui_T _ _ _ _ _ _ _ _ _ _ _ _ H' m Hm)]|].
  split; [apply (ui_cons _ _ _ _ _ _ _ _ _ _ _ _ H' m Hm)|apply (ui_p _ _ _ _ _ _ _ _ _ _ _ _ H' m Hm)].
Qed.

(** A convergence report without the slow-convergence flag: the returned pressures and the returned temperatures of
    neighbouring materials agree within the configured tolerances (relative to the volume-averaged pressure /
    mass-averaged temperature, or absolute in units of the total energy density / of the temperature scale). *)
Theorem C37_RhoU_converged_means_equilibrium : forall s0 st sf, good_rhou s0 ->
  @PTESolver RArith pst ratio sys s0 = (st, sf) -> converged st = true -> slow_convergence_detected st = false ->
  let mass m := rho s0 m * vfrac s0 m in
  let scale := Rmax (Rabs (rsum n mass * sie_total)) (1 / 100000000000000) in
  (exists tol, (tol = pte_rel_tolerance_p params * Rabs (rsum n (fun m => vfrac sf m * press sf m)) \/ tol = pte_abs_tolerance_p params * scale) /\
    forall k, (S k < n)%nat -> Rabs (press sf (S k) - press sf k) < tol) /\
  (exists tol, (tol = pte_rel_tolerance_t params * (rsum n (fun m => mass m * temp sf m) / rsum n mass) \/ tol = pte_abs_tolerance_t params * Tnorm (sBof s0)) /\
    forall k, (S k < n)%nat -> Rabs (temp sf (S k) - temp sf k) < tol).
Proof.
  intros s0 st sf G E HC HS. cbv zeta. set (d0 := utot (sBof s0) - rsum n (u (fst (sInit sys s0)))).
  pose proof (ru_init_inv s0 false false G ltac:(discriminate) ltac:(discriminate)) as H0. fold d0 in H0.
  pose proof (InitBase_ok n eos vfrac_total sie_total params s0 (gu_in _ G)) as HI. pose proof (us_pos _ _ _ _ _ _ HI) as Hus.
  pose proof (InitBase_Tn_lo n eos vfrac_total sie_total params s0 (proj1 (gu_T _ G)) (proj1 (proj2 (gu_T _ G))) (proj2 (proj2 (gu_T _ G)))) as HTn. pose proof tiny_pos as TP.
  pose proof (ru_driver_inv n eos vfrac_total sie_total params lin (fun m => rho s0 m * vfrac s0 m) (Tnorm (sBof s0)) (uscale (sBof s0)) (utot (sBof s0)) (rhotot (sBof s0))
       d0 false false (gu_n _ G) (gu_mass _ G) Hus HTn (gu_t _ G) ltac:(discriminate)) as HD. clearbody d0.
  pose proof (io_us _ _ _ _ _ _ HI) as Eus. rewrite <- Eus. pose proof (io_rt _ _ _ _ _ _ HI) as Ert. rewrite <- Ert.
  destruct (C35_converged_invariant sys _ _ _ _ HD (gu_fac _ G) s0 st sf H0 E HC HS) as (s' & H' & HK & E').
  cbn [sCheckPTE sFixup RhoU_system] in HK, E'.
  assert (vfrac sf = vfrac s' /\ forall m, (m < n)%nat -> temp sf m = temp s' m * Tnorm (sBof s0) /\ press sf m = press s' m * uscale (sBof s0)) as [FV FTP].
  { rewrite E'. split; [reflexivity|]. intros m Hm. cbn. rewrite !mapm_lt by exact Hm. rewrite (ui_Tn _ _ _ _ _ _ _ _ _ _ _ _ H'), (ui_us _ _ _ _ _ _ _ _ _ _ _ _ H'). split; reflexivity. }
  pose proof (gu_n _ G) as N2. pose proof (gu_mass _ G) as Hms.
  assert (tiny <= rsum n (fun m => rho s0 m * vfrac s0 m)) as Hrt.
  { pose proof (rsum_ge_term n (fun m => rho s0 m * vfrac s0 m) 0 ltac:(lia)) as HH. cbv beta in HH. pose proof (Hms 0%nat ltac:(lia)).
    eapply Rle_trans; [|apply HH]; [assumption|]. intros k Hk. pose proof (Hms k Hk). lra. }
  set (Tn := Tnorm (sBof s0)) in *. set (us := uscale (sBof s0)) in *. set (rt := rhotot (sBof s0)) in *.
  assert (0 < us) as Hup by lra. assert (0 < Tn) as HTp by lra. rewrite <- Ert in Hrt.
  unfold ru_CheckPTE in HK. cbn [fst] in HK. apply andb_true_iff in HK. destruct HK as [HKp HKt].
  set (mean := rsum n (fun m => vfrac s' m * press s' m)) in HKp. set (ep := sqrt _) in HKp. set (et := sqrt _) in HKt.
  split.
  - assert (rsum n (fun m => vfrac sf m * press sf m) = mean * us) as Em.
    { unfold mean. rewrite <- rsum_scal_r. apply rsum_ext. intros m Hm. rewrite FV, (proj2 (FTP m Hm)). ring. }
    assert (exists t0, (t0 = pte_rel_tolerance_p params * Rabs mean \/ t0 = pte_abs_tolerance_p params) /\ ep < t0) as (t0 & Ht0 & Hep).
    { apply orb_true_iff in HKp. destruct HKp as [H|H]; revert H; (case Rlt_bool_spec; [|discriminate]); eauto. }
    exists (t0 * us). split.
    { destruct Ht0 as [-> | ->]; [left|right; reflexivity]. rewrite Em, Rabs_mult, (Rabs_right us) by lra. ring. }
    intros k Hk. destruct (FTP k ltac:(lia)) as [_ ->]. destruct (FTP (S k) Hk) as [_ ->].
    rewrite <- Rmult_minus_distr_r, Rabs_mult, (Rabs_right us) by lra. apply Rmult_lt_compat_r; [exact Hup|].
    rewrite <- (ui_r2 _ _ _ _ _ _ _ _ _ _ _ _ H' k Hk).
    pose proof (sqrt_term (fun m => res s' (S m + 1)%nat) k (n - 1) t0 ltac:(lia) Hep) as HH. cbv beta in HH. replace (S k + 1)%nat with (2 + k)%nat in HH by lia. exact HH.
  - assert (rsum n (fun m => rho s0 m * vfrac s0 m * temp sf m) / rt = ratio (rsum n (fun m => rhobar s' m * temp s' m)) (rhotot s') * Tn) as Em.
    { rewrite (ui_rt _ _ _ _ _ _ _ _ _ _ _ _ H'). rewrite ratio_abs by (rewrite Rabs_right; lra).
      replace (rsum n (fun m => rhobar s' m * temp s' m) / rt * Tn) with (rsum n (fun m => rhobar s' m * temp s' m) * Tn / rt) by (unfold Rdiv; ring).
      rewrite <- rsum_scal_r. f_equal. apply rsum_ext. intros m Hm. rewrite (proj1 (FTP m Hm)), (ui_rb _ _ _ _ _ _ _ _ _ _ _ _ H' m Hm). ring. }
    set (mt := ratio _ _) in *.
    assert (exists t0, (t0 = pte_rel_tolerance_t params * mt \/ t0 = pte_abs_tolerance_t params) /\ et < t0) as (t0 & Ht0 & Hep).
    { apply orb_true_iff in HKt. destruct HKt as [H|H]; revert H; (case Rlt_bool_spec; [|discriminate]); eauto. }
    exists (t0 * Tn). split.
    { destruct Ht0 as [-> | ->]; [left|right; reflexivity]. rewrite Em. ring. }
    intros k Hk. destruct (FTP k ltac:(lia)) as [-> _]. destruct (FTP (S k) Hk) as [-> _].
    rewrite <- Rmult_minus_distr_r, Rabs_mult, (Rabs_right Tn) by lra. apply Rmult_lt_compat_r; [exact HTp|].
    rewrite <- (ui_r3 _ _ _ _ _ _ _ _ _ _ _ _ H' k Hk).
    pose proof (sqrt_term (fun m => res s' (S m + n)%nat) k (n - 1) t0 ltac:(lia) Hep) as HH. cbv beta in HH. replace (S k + n)%nat with (n + 1 + k)%nat in HH by lia. exact HH.
Qed.

(** Volumes and energies, for caloric materials, an exact linear solver and a non-degenerate ideal initial guess: the
    returned volume fractions sum to the given total exactly, converged or not, and the energy error never exceeds that of the
    initial guess and has its sign. *)
Theorem C46_RhoU_volume_exact_energy_monotone : forall s0 st sf tau, good_rhou s0 -> caloric n eos tau -> exact_solver lin ->
  0 < min_dtde params -> 0 < derivative_eps params -> pte_max_dpdv params <> 0 -> ideal_guess_regular n vfrac_total (sBof s0) ->
  @PTESolver RArith pst ratio sys s0 = (st, sf) ->
  rsum n (vfrac sf) = vfrac_total /\
  let mass m := rho s0 m * vfrac s0 m in
  let energy s := rsum n (fun m => mass m * sie s m) in
  exists l, 0 <= l <= 1 /\ rsum n mass * sie_total - energy sf = l * (rsum n mass * sie_total - energy (fst (sInit sys s0))).
Proof.
  intros s0 st sf tau G CA HL Hmd Hde Hpd Hreg E. set (s1 := fst (sInit sys s0)).
  pose proof (ru_init_inv s0 false true G ltac:(discriminate) (fun _ => Hreg)) as H0. fold s1 in H0.
  pose proof (InitBase_ok n eos vfrac_total sie_total params s0 (gu_in _ G)) as HI. pose proof (us_pos _ _ _ _ _ _ HI) as Hus.
  pose proof (InitBase_Tn_lo n eos vfrac_total sie_total params s0 (proj1 (gu_T _ G)) (proj1 (proj2 (gu_T _ G))) (proj2 (proj2 (gu_T _ G)))) as HTn. pose proof tiny_pos as TP.
  pose proof (fun s H => C46_RhoU_newton_matrix_nonsingular n eos vfrac_total params (fun m => rho s0 m * vfrac s0 m) (Tnorm (sBof s0)) (uscale (sBof s0)) (utot (sBof s0)) (rhotot (sBof s0))
       (utot (sBof s0) - rsum n (u s1)) false true tau s (gu_n _ G) CA (gu_mass _ G) Hus HTn Hmd Hde Hpd H) as HNS.
  pose proof (ru_driver_inv n eos vfrac_total sie_total params lin (fun m => rho s0 m * vfrac s0 m) (Tnorm (sBof s0)) (uscale (sBof s0)) (utot (sBof s0)) (rhotot (sBof s0))
       (utot (sBof s0) - rsum n (u s1)) false true (gu_n _ G) (gu_mass _ G) Hus HTn (gu_t _ G) (fun _ => conj HL HNS)) as HD.
  destruct (C35_invariant_principle sys _ _ _ _ HD (gu_fac _ G) s0 H0) as (s' & H' & E').
  rewrite E in E'. cbn [snd] in E'. subst sf. change (vfrac (sFinalize sys s')) with (vfrac s'). change (sie (sFinalize sys s')) with (sie s').
  destruct (ui_ex _ _ _ _ _ _ _ _ _ _ _ _ H' eq_refl) as (X1 & l & Hl & X2). split; [exact X1|]. cbv beta zeta. change (sie (sFinalize sys s')) with (sie s'). exists l. split; [exact Hl|].
  pose proof (io_ut _ _ _ _ _ _ HI) as Eut.
  assert (tiny <= Rabs (uscale (sBof s0))) as Hut by (rewrite Rabs_right by lra; pose proof tiny_e14; lra).
  assert (forall s, inv s0 (utot (sBof s0) - rsum n (u s1)) false true s ->
    rsum n (fun m => rho s0 m * vfrac s0 m) * sie_total - rsum n (fun m => rho s0 m * vfrac s0 m * sie s m) = (utot (sBof s0) - rsum n (u s)) * uscale (sBof s0)) as HE.
  { intros s H. rewrite Eut, Rmult_minus_distr_r, ratio_mul by exact Hut. f_equal. rewrite <- rsum_scal_r. apply rsum_ext. intros m Hm.
    rewrite (ui_u _ _ _ _ _ _ _ _ _ _ _ _ H m Hm). reflexivity. }
  rewrite (HE s' H'), (HE s1 H0), X2. ring.
Qed.
End EndToEndRhoU.

(** ** A concrete cell: two half-and-half materials with e = T + 50, P = 2/5 rho T, temperature guess 300, asked for a specific energy of
    150 (so the equilibrium temperature is 100) *)
Definition rgas : meos := {|
  RhoPmin := fun _ => 0; MaximumDensity := 10 ^ 100; MinimumTemperature := 0; MinimumPressure := 0;
  MaximumPressureAtTemperature := fun _ => 10 ^ 100;
  e_rt := fun _ T => T + 50; p_rt := fun r T => 2 / 5 * r * T; p_re := fun r e => 2 / 5 * r * Rmax 0 (e - 50); t_re := fun _ e => Rmax 0 (e - 50);
  cv_rt := fun _ _ => 1; cv_re := fun _ _ => 1; de_pt := fun P T _ _ => (P / (2 / 5 * T), T + 50);
  pref_e := false; pref_p := false |}.
Definition reos (m : nat) : meos := rgas.
Definition rst : pst := {|
  rho := fun m => 1; vfrac := fun _ => 1 / 2; sie := fun _ => 1; temp := fun _ => 300; press := fun _ => 0; u := fun _ => 0; rhobar := fun _ => 0; dx := fun _ => 0;
  res := fun _ => 0; jac := fun _ => 0; dpdv := fun _ => 0; dedv := fun _ => 0; dpdT := fun _ => 0; dtdv := fun _ => 0;
  dpde := fun _ => 0; dtde := fun _ => 0; vtmp := fun _ => 0; utmp := fun _ => 0; Teq := 300; Ttmp := 0; Peq := 1; Ptmp := 0;
  Tnorm := 300; uscale := 0; utot := 0; rhotot := 0; ms := 0 |}.
Lemma ratio_to_0 x : 0 < x -> 2 * x <= ratio x 0.
Proof.
  intros Hx. pose proof tiny_pos as TP. unfold ratio. rewrite Rabs_R0, Rle_bool_false by exact TP. unfold ratio_exact.
  assert (ratio_denominator 0 = SMALL) as -> by (unfold ratio_denominator, sgn; rewrite Rle_bool_true by lra; ring).
  pose proof SMALL_pos as S0. assert (SMALL < 1 / 2) as S1.
  { apply Rlt_le_trans with (1 := SMALL_lt_ulp). apply Rle_trans with (bpow radix2 (-1)); [apply bpow_le; lia|cbn; lra]. }
  unfold Rdiv. rewrite Rmult_comm. apply Rmult_le_compat_l; [lra|].
  apply Rmult_le_reg_r with SMALL; [exact S0|]. rewrite Rinv_l by lra. lra.
Qed.
Lemma tiny_small_half : tiny < 1 / 4.
Proof. unfold tiny. apply Rlt_le_trans with (bpow radix2 (-2)); [apply bpow_lt; lia|cbn; lra]. Qed.
Lemma rgas_good : good_input 2 reos 1 wpar rst.
Proof.
  pose proof tiny_small_half as T4. pose proof tiny_pos as TP. constructor; cbn [rho vfrac rst]; try lia; try (intros; lra).
  - cbn [rsum]. lra.
  - intros m T _. cbn [reos RhoPmin rgas]. pose proof (ratio_to_0 (1 * (1 / 2)) ltac:(lra)). unfold safety. lra.
  - cbn. lra.
  - cbn. lra.
Qed.
Lemma rgas_calm : calm 2 reos 1 150 wpar rst 300.
Proof.
  pose proof tiny_small_half as T4. pose proof tiny_pos as TP.
  constructor; cbn [rho vfrac rst Tnorm reos RhoPmin rgas MinimumTemperature MaximumDensity cv_rt e_rt pref_p]; try (intros; lra); try reflexivity.
  - exact rgas_good.
  - cbn. lra.
  - intros m _. unfold vfrac_max. cbn [reos RhoPmin rgas]. pose proof (ratio_to_0 (1 * (1 / 2)) ltac:(lra)). unfold safety. apply Rmin_glb; lra.
  - cbn [rsum]. lra.
Qed.
Lemma rgas_init : let s := InitBase 2 reos 1 150 wpar rst in
  Tnorm s = 300 /\ uscale s = 150 /\ utot s = 1 /\ rhotot s = 1 /\
  forall m, (m < 2)%nat -> vfrac s m = 1 / 2 /\ rho s m = 1 /\ rhobar s m = 1 / 2 /\ sie s m = 350 /\ temp s m = 1 /\ press s m = 4 / 5 /\ u s m = 7 / 6.
Proof.
  cbv zeta. pose proof (InitBase_calm _ _ _ _ _ _ _ rgas_calm) as HC. pose proof (InitBase_ok 2 reos 1 150 wpar rst rgas_good) as HI.
  cbv zeta in HC. set (s := InitBase 2 reos 1 150 wpar rst) in *. clearbody s. destruct HC as [C1 C2].
  pose proof tiny_small_half as T4. pose proof tiny_pos as TP.
  assert (uscale s = 150) as EU.
  { rewrite (io_us _ _ _ _ _ _ HI). cbn [rsum rho vfrac rst]. replace ((0 + 1 * (1 / 2) + 1 * (1 / 2)) * 150) with 150 by lra. rewrite Rabs_right by lra. apply Rmax_left. lra. }
  assert (rhotot s = 1) as ER by (rewrite (io_rt _ _ _ _ _ _ HI); cbn [rsum rho vfrac rst]; lra).
  assert (tiny <= Rabs 150) as H150 by (rewrite Rabs_right; lra).
  split; [exact C1|]. split; [exact EU|]. split.
  { rewrite (io_ut _ _ _ _ _ _ HI), EU. cbn [rsum rho vfrac rst]. rewrite ratio_abs by exact H150. field. }
  split; [exact ER|]. intros m Hm. destruct (C2 m Hm) as [V R]. cbn [rho vfrac rst] in V, R.
  split; [exact V|]. split; [exact R|].
  assert (rhobar s m = 1 / 2) as B by (rewrite (so_rb _ _ _ _ (io_shape _ _ _ _ _ _ HI) m Hm); cbn [rho vfrac rst]; lra).
  assert (sie s m = 350) as E by (rewrite (io_sie _ _ _ _ _ _ HI m Hm), C1; cbn [reos e_rt rgas]; lra).
  split; [exact B|]. split; [exact E|]. split; [apply (io_temp _ _ _ _ _ _ HI m Hm)|]. split.
  - rewrite (io_p _ _ _ _ _ _ HI m Hm), EU, C1, R. cbn [reos pref_p rgas andb]. unfold GetPressureFromPreferred. cbn [reos pref_e p_rt rgas]. rewrite ratio_abs by exact H150. field.
  - rewrite (io_u _ _ _ _ _ _ HI m Hm), E, B, EU. rewrite ratio_abs by exact H150. field.
Qed.
Lemma rgas_ideal s : Tnorm s = 300 -> uscale s = 150 ->
  (forall m, (m < 2)%nat -> vfrac s m = 1 / 2 /\ rho s m = 1 /\ rhobar s m = 1 / 2 /\ sie s m = 350 /\ temp s m = 1 /\ press s m = 4 / 5 /\ u s m = 7 / 6) ->
  GetIdealPTE 2 1 s = (12 / 35, 3 / 7).
Proof.
  intros C1 EU H. destruct (H 0%nat ltac:(lia)) as (V0 & R0 & B0 & E0 & T0 & P0 & U0). destruct (H 1%nat ltac:(lia)) as (V1 & R1 & B1 & E1 & T1 & P1 & U1).
  pose proof tiny_small_half as T4. pose proof tiny_pos as TP.
  unfold GetIdealPTE. cbn [rsum]. rewrite V0, R0, E0, T0, P0, V1, R1, E1, T1, P1, C1, EU. cbv zeta.
  rewrite !(ratio_abs _ 1) by (rewrite Rabs_R1; lra). rewrite ratio_abs by (rewrite Rabs_right; lra). f_equal; field.
Qed.
Example C34_ex_RhoU : good_rhou 2 reos 1 wpar rst /\ caloric 2 reos (fun _ e => Rmax 0 (e - 50)) /\ exact_solver gauss /\
  0 < min_dtde wpar /\ 0 < derivative_eps wpar /\ pte_max_dpdv wpar <> 0 /\ ideal_guess_regular 2 1 (InitBase 2 reos 1 150 wpar rst) /\
  (forall k, (k < 2)%nat -> press (InitBase 2 reos 1 150 wpar rst) k <> 0).
Proof.
  pose proof tiny_small_half as T4. pose proof tiny_pos as TP. pose proof rgas_init as HI. cbv zeta in HI. destruct HI as (C1 & EU & ET & ER & H).
  split.
  { constructor.
    - exact rgas_good.
    - lia.
    - intros m _. cbn [rho vfrac rst]. lra.
    - intros. apply Rmax_l.
    - intros. cbn. lra.
    - intros. left. reflexivity.
    - cbn. lra.
    - split; [cbn; lra|]. split; [cbn; lra|]. intros _. cbn. lra. }
  split.
  { constructor; cbn [reos t_re e_rt rgas].
    - reflexivity.
    - intros m r T _ HT. rewrite Rmax_right; lra.
    - intros m e1 e2 _ He. unfold Rmax. destruct (Rle_dec 0 (e1 - 50)), (Rle_dec 0 (e2 - 50)); lra.
    - intros. apply Rmax_l. }
  split; [exact gauss_exact|]. split; [cbn; lra|]. split; [cbn; lra|]. split; [cbn; lra|].
  split.
  - unfold ideal_guess_regular. rewrite (rgas_ideal _ C1 EU H), EU. split; [lra|].
    rewrite ratio_abs by (rewrite Rabs_right; lra). rewrite !Rabs_right by lra. lra.
  - intros k Hk. destruct (H k Hk) as (_ & _ & _ & _ & _ & P & _). rewrite P. lra.
Qed.

Lemma rgas_try sB : Tnorm sB = 300 -> uscale sB = 150 -> utot sB = 1 -> rhotot sB = 1 ->
  (forall m, (m < 2)%nat -> vfrac sB m = 1 / 2 /\ rho sB m = 1 /\ rhobar sB m = 1 / 2 /\ sie sB m = 350 /\ temp sB m = 1 /\ press sB m = 4 / 5 /\ u sB m = 7 / 6) ->
  let s1 := TryIdealPTE 2 reos 1 4 (ru_Residual 2 1) (ru_Residual 2 1 sB) in
  (forall m, (m < 2)%nat -> sie s1 m = 1250 / 7 /\ vfrac s1 m = 1 / 2) /\ fst (ru_CheckPTE 2 wpar s1) = true.
Proof.
  intros C1 EU ET ER H. pose proof tiny_small_half as T4. pose proof tiny_pos as TP. cbv zeta.
  unfold TryIdealPTE. change (GetIdealPTE 2 1 (ru_Residual 2 1 sB)) with (GetIdealPTE 2 1 sB). rewrite (rgas_ideal sB C1 EU H).
    assert (ratio (12 / 35) (3 / 7) = 4 / 5) as -> by (rewrite ratio_abs by (rewrite Rabs_right; lra); field).
    pose proof (ru_residual 2 1 sB ltac:(lia)) as HR. cbv zeta in HR. destruct HR as (Q0 & Q1 & Q2 & Q3).
    destruct (H 0%nat ltac:(lia)) as (V0 & R0 & B0 & E0 & T0 & P0 & U0). destruct (H 1%nat ltac:(lia)) as (V1 & R1 & B1 & E1 & T1 & P1 & U1).
    assert (forall m, (m < 2)%nat -> vfrac (ru_Residual 2 1 sB) m * ratio (press (ru_Residual 2 1 sB) m) (temp (ru_Residual 2 1 sB) m * (4 / 5)) = 1 / 2) as HV.
    { intros m Hm. destruct (H m Hm) as (V & _ & _ & _ & T & P & _). change (vfrac (ru_Residual 2 1 sB) m) with (vfrac sB m). change (press (ru_Residual 2 1 sB) m) with (press sB m).
      change (temp (ru_Residual 2 1 sB) m) with (temp sB m). rewrite V, T, P. rewrite ratio_abs by (rewrite Rabs_right; lra). field. }
    change (Tnorm (ru_Residual 2 1 sB)) with (Tnorm sB). change (rhobar (ru_Residual 2 1 sB)) with (rhobar sB). change (uscale (ru_Residual 2 1 sB)) with (uscale sB).
    cbv beta zeta. rewrite existsb_seq_false_intro.
    2:{ intros m Hm. rewrite HV by exact Hm. rewrite C1. cbn [reos RhoPmin rgas]. rewrite !Rlt_bool_false; [reflexivity| |lra].
        destruct (H m Hm) as (_ & _ & B & _). rewrite B. apply ratio_pos_nonneg; lra. }
    match goal with |- context [if Rlt_bool ?a ?b then _ else ?x] => set (ro := a); set (rn := b); set (sF := x) end.
    assert (forall m, (m < 2)%nat -> vfrac sF m = 1 / 2 /\ rho sF m = 1 /\ temp sF m = 3 / 7 /\ u sF m = 25 / 42 /\ press sF m = 12 / 35 /\ sie sF m = 1250 / 7) as HF.
    { intros m Hm. destruct (H m Hm) as (V & R & B & E & T & P & U).
      assert (vfrac sF m = 1 / 2) as V' by (unfold sF; cbn [vfrac set_sie set_temp ru_Residual set_res set_press set_u set_rho set_vfrac]; rewrite mapm_lt by exact Hm; apply HV; exact Hm).
      assert (rho sF m = 1) as R'.
      { change (rho sF m) with (mapm 2 (fun m => ratio (rhobar sB m) (vfrac sF m)) (rho sB) m). rewrite mapm_lt by exact Hm. rewrite V', B.
        rewrite ratio_abs by (rewrite Rabs_right; lra). field. }
      assert (u sF m = 25 / 42) as U'.
      { change (u sF m) with (mapm 2 (fun m => rhobar sB m * ratio (e_rt (reos m) (rho sF m) (Tnorm sB * (3 / 7))) (uscale sB)) (u sB) m). rewrite mapm_lt by exact Hm. rewrite B, C1, EU.
        cbn [reos e_rt rgas]. rewrite ratio_abs by (rewrite Rabs_right; lra). field. }
      assert (temp sF m = 3 / 7) as T' by (unfold sF; cbn [temp set_sie set_temp]; rewrite mapm_lt by exact Hm; reflexivity).
      split; [exact V'|]. split; [exact R'|]. split; [exact T'|]. split; [exact U'|]. split.
      - change (press sF m) with (mapm 2 (fun m => ratio (GetPressureFromPreferred (reos m) (rho sF m) (Tnorm sB * (3 / 7)) (e_rt (reos m) (rho sF m) (Tnorm sB * (3 / 7))) false) (uscale sB)) (press sB) m).
        rewrite mapm_lt by exact Hm. rewrite R', C1, EU. unfold GetPressureFromPreferred. cbn [reos pref_e p_rt rgas]. rewrite ratio_abs by (rewrite Rabs_right; lra). field.
      - change (sie sF m) with (mapm 2 (fun m => uscale sB * ratio (u sF m) (rhobar sB m)) (sie sB) m). rewrite mapm_lt by exact Hm. rewrite U', EU, B.
        rewrite ratio_abs by (rewrite Rabs_right; lra). field. }
    assert (rhobar sF = rhobar sB /\ rhotot sF = rhotot sB) as [FB FR] by (split; reflexivity).
    assert (forall i, (i < 4)%nat -> res sF i = match i with 1%nat => - (4 / 21) | _ => 0 end) as HRF.
    { set (sG := set_press (press sF) (set_u (u sF) (set_vfrac (vfrac sF) (ru_Residual 2 1 sB)))).
      pose proof (ru_residual 2 1 sG ltac:(lia)) as HG. cbv zeta in HG. destruct HG as (G0 & G1 & G2 & G3).
      assert (forall i, res sF i = res (ru_Residual 2 1 sG) i) as EF by (intros i; reflexivity).
      change (vfrac sG) with (vfrac sF) in G0. change (u sG) with (u sF) in G1. change (utot sG) with (utot sB) in G1. change (press sG) with (press sF) in G2. change (temp sG) with (temp sB) in G3.
      destruct (HF 0%nat ltac:(lia)) as (v0 & _ & _ & u0 & p0 & _). destruct (HF 1%nat ltac:(lia)) as (v1 & _ & _ & u1 & p1 & _).
      cbn [rsum] in G0, G1. rewrite v0, v1 in G0. rewrite u0, u1, ET in G1. pose proof (G2 0%nat ltac:(lia)) as G20. pose proof (G3 0%nat ltac:(lia)) as G30.
      rewrite p0, p1 in G20. rewrite T0, T1 in G30. cbn [Nat.add] in G20, G30.
      intros i Hi. rewrite EF. destruct i as [|[|[|[|i]]]]; [rewrite G0; lra|rewrite G1; lra|rewrite G20; lra|rewrite G30; lra|lia]. }
    assert (Rlt_bool ro rn = false) as ->.
    { apply Rlt_bool_false. unfold ro, rn. match goal with |- rsum 4 (fun m => res ?s m * res ?s m) <= _ => assert (forall i, (i < 4)%nat -> res s i = res sF i) as EQ by reflexivity end.
      rewrite (rsum_ext 4 _ (fun m => res sF m * res sF m)) by (intros m Hm; rewrite EQ by exact Hm; reflexivity). clear EQ.
      cbn [rsum]. rewrite !HRF by lia. pose proof (Q2 0%nat ltac:(lia)) as Q20. pose proof (Q3 0%nat ltac:(lia)) as Q30. cbn [Nat.add] in Q20, Q30.
      change (res (ru_Residual 2 1 sB)) with (fun i => res (ru_Residual 2 1 sB) i). cbv beta. rewrite Q0, Q1, Q20, Q30. cbn [rsum].
      rewrite V0, V1, U0, U1, ET, P0, P1, T0, T1. lra. }
    split; [intros m Hm; destruct (HF m Hm) as (? & _ & _ & _ & _ & ?); split; assumption|].
    clearbody sF. unfold ru_CheckPTE. cbn [fst]. cbn [rsum Nat.sub Nat.add]. rewrite !HRF by lia. cbn [Nat.add].
    replace (0 + 0 * 0) with 0 by ring. rewrite sqrt_0. rewrite !(Rlt_bool_true 0 (pte_abs_tolerance_p wpar)), !(Rlt_bool_true 0 (pte_abs_tolerance_t wpar)) by (cbn; lra).
    rewrite !orb_true_r. reflexivity.
Qed.
(** F23: PTESolverRhoU declares that the internal energy densities of its answer sum exactly to the total
    (ExactlySum, mixed_cell_models.hpp:1967), but its convergence test looks at pressures and temperatures only: here it
    reports convergence without taking a step, with an energy of 178.57 where 150 was asked for. *)
Theorem C61_RhoU_total_energy_refuted : exists n eos params s0 sie_total st sf,
  good_rhou n eos 1 params s0 /\ params = default_params RArith /\
  (forall lin, @PTESolver RArith pst ratio (RhoU_system n eos 1 sie_total params lin) s0 = (st, sf)) /\
  converged st = true /\ slow_convergence_detected st = false /\
  let mass m := rho s0 m * vfrac s0 m in
  rsum n (fun m => mass m * sie sf m) > (1 + 19 / 100) * (rsum n mass * sie_total).
Proof.
  pose proof rgas_init as HI. cbv zeta in HI. destruct HI as (C1 & EU & ET & ER & H).
  pose proof (rgas_try _ C1 EU ET ER H) as HT. cbv zeta in HT.
  change (TryIdealPTE 2 reos 1 4 (ru_Residual 2 1) (ru_Residual 2 1 (InitBase 2 reos 1 150 wpar rst))) with (fst (ru_Init 2 reos 1 150 wpar rst)) in HT.
  destruct (ru_Init 2 reos 1 150 wpar rst) as [s1 e1] eqn:EI. cbn [fst] in HT. destruct HT as [HE0 HC]. assert (HE : forall m, (m < 2)%nat -> sie s1 m = 1250 / 7) by (intros m Hm; apply HE0, Hm).
  exists 2%nat, reos, wpar, rst, 150, (mkStatus RArith true false 0 0 0 e1), (base_Finalize 2 s1).
  split; [apply C34_ex_RhoU|]. split; [reflexivity|]. split.
  { intros lin. apply (C35_converged_initial_guess_untouched (A := RArith) ratio (RhoU_system 2 reos 1 150 wpar lin) rst s1 e1); [exact EI|cbn; lia|exact HC]. }
  split; [reflexivity|]. split; [reflexivity|]. cbv zeta. change (sie (base_Finalize 2 s1)) with (sie s1). cbn [rsum rho vfrac rst]. rewrite !HE by lia. lra.
Qed.
Print Assumptions C36_RhoU_scaled_step_admissible.
Print Assumptions C47_RhoU_matrix_is_linearisation.
Print Assumptions C46_RhoU_newton_matrix_nonsingular.
Print Assumptions C34_RhoU_returned_state.
Print Assumptions C37_RhoU_converged_means_equilibrium.
Print Assumptions C46_RhoU_volume_exact_energy_monotone.
Print Assumptions C61_RhoU_total_energy_refuted.
