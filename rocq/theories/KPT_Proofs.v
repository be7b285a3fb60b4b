(** Loop lemmas for KPT_Model *)
From Coq Require Import ZArith Reals Bool List Lia Lra Permutation.
From Flocq Require Import Core.
From Verif Require Import Arith KPT_Model PTE_Model PTE_Tools.
Import ListNotations.
Local Open Scope R_scope.

Lemma aupd_same {V} (a : nat -> V) i x : aupd a i x i = x.
Proof. unfold aupd. rewrite Nat.eqb_refl. reflexivity. Qed.
Lemma aupd_other {V} (a : nat -> V) i x k : k <> i -> aupd a i x k = a k.
Proof. intros H. unfold aupd. rewrite (proj2 (Nat.eqb_neq k i) H). reflexivity. Qed.

(** induction principles for the two loop shapes *)
Lemma fold_seq_ind {S} (f : S -> nat -> S) (P : nat -> S -> Prop) : forall len a s,
  P a s -> (forall p s, (a <= p < a + len)%nat -> P p s -> P (Datatypes.S p) (f s p)) -> P (a + len)%nat (fold_left f (seq a len) s).
Proof.
  induction len as [|len IH]; intros a s H0 Hs; [rewrite Nat.add_0_r; exact H0|].
  cbn [seq fold_left]. replace (a + Datatypes.S len)%nat with (Datatypes.S a + len)%nat by lia.
  apply IH; [apply Hs; [lia|exact H0]|intros; apply Hs; [lia|assumption]].
Qed.
Lemma down_map n j : down n j = map (fun p => (n - 1 - p)%nat) (seq 0 (n - 1 - j)).
Proof.
  unfold down. remember (n - 1 - j)%nat as len eqn:E. 
  assert (forall len a b, (a + len = b)%nat -> rev (seq (S a) len) = map (fun p => (b - p)%nat) (seq 0 len)) as G.
  { clear. induction len as [|len IH]; intros a b Hb; [reflexivity|].
    rewrite seq_S. rewrite rev_app_distr. cbn [rev app seq map]. f_equal; [lia|].
    rewrite (IH a (b - 1)%nat) by lia. rewrite <- seq_shift, map_map. apply map_ext. intros. lia. }
  destruct (Nat.le_gt_cases n (S j)) as [Hle|Hgt].
  - assert (len = 0)%nat as -> by lia. reflexivity.
  - apply G. lia.
Qed.
Lemma fold_map {S} (f : S -> nat -> S) (g : nat -> nat) l : forall s, fold_left f (map g l) s = fold_left (fun s p => f s (g p)) l s.
Proof. induction l; intros; cbn; auto. Qed.
Lemma fold_down_ind {S} (f : S -> nat -> S) (P : nat -> S -> Prop) n j s :
  P 0%nat s -> (forall p s, (p < n - 1 - j)%nat -> P p s -> P (Datatypes.S p) (f s (n - 1 - p)%nat)) ->
  P (n - 1 - j)%nat (fold_left f (down n j) s).
Proof.
  intros H0 Hs. rewrite down_map, fold_map.
  apply (fold_seq_ind (fun s p => f s (n - 1 - p)%nat) P (n - 1 - j) 0 s H0). intros p s' Hp. apply Hs. lia.
Qed.

(** sums *)
Lemma rsum_swap n m (f : nat -> nat -> R) : rsum n (fun i => rsum m (fun k => f i k)) = rsum m (fun k => rsum n (fun i => f i k)).
Proof.
  induction n as [|n IH]; [cbn; rewrite rsum_zero; reflexivity|]. cbn [rsum]. rewrite IH, <- rsum_plus. reflexivity.
Qed.
Lemma rsum_below n i f : (i <= n)%nat -> rsum i f = rsum n (fun k => if (k <? i)%nat then f k else 0).
Proof.
  intros H. replace n with (i + (n - i))%nat by lia. rewrite rsum_app.
  rewrite (rsum_ext (n - i) _ (fun _ => 0)), rsum_zero.
  2:{ intros m _. rewrite (proj2 (Nat.ltb_ge (i + m) i)) by lia. reflexivity. }
  rewrite Rplus_0_r. apply rsum_ext. intros m Hm. rewrite (proj2 (Nat.ltb_lt m i) Hm). reflexivity.
Qed.
Lemma rsum_rev n f : rsum n (fun k => f (n - 1 - k)%nat) = rsum n f.
Proof.
  induction n as [|n IH]; [reflexivity|]. rewrite rsum_shift. cbn [rsum].
  rewrite Nat.sub_succ, !Nat.sub_0_r. rewrite <- IH.
  rewrite (rsum_ext n (fun m => f (n - S m)%nat) (fun k => f (n - 1 - k)%nat)); [lra|].
  intros. f_equal. lia.
Qed.
(** an upper-triangular table summed by columns and by rows (rows from the last column down) *)
Lemma rsum_triangle n (D : nat -> nat -> R) :
  rsum n (fun i => rsum i (fun k => D k i)) = rsum n (fun k => rsum (n - 1 - k) (fun q => D k (n - 1 - q)%nat)).
Proof.
  rewrite (rsum_ext n _ (fun i => rsum n (fun k => if (k <? i)%nat then D k i else 0))).
  2:{ intros i Hi. apply rsum_below. lia. }
  rewrite rsum_swap. apply rsum_ext. intros k Hk.
  rewrite <- (rsum_rev n).
  rewrite (rsum_below n (n - 1 - k)) by lia. apply rsum_ext. intros q Hq.
  destruct (Nat.ltb_spec k (n - 1 - q)), (Nat.ltb_spec q (n - 1 - k)); try reflexivity; lia.
Qed.
Lemma rsum_list n f : rsum n f = fold_right Rplus 0 (map f (seq 0 n)).
Proof.
  induction n as [|n IH]; [reflexivity|]. rewrite seq_S, map_app, fold_right_app. cbn [rsum map fold_right Nat.add].
  rewrite Rplus_0_r. assert (forall l x, fold_right Rplus x l = fold_right Rplus 0 l + x) as G by (induction l; intros; cbn; [lra|rewrite IHl; lra]).
  rewrite G, IH. reflexivity.
Qed.
Lemma fold_right_perm l l' : Permutation l l' -> fold_right Rplus 0 l = fold_right Rplus 0 l'.
Proof. induction 1; cbn; lra. Qed.

(** [go] lists the phases 0..n-1, each once *)
Definition phase_order (n : nat) (go : nat -> nat) : Prop := Permutation (map go (seq 0 n)) (seq 0 n).

Lemma phase_order_bound n go : phase_order n go -> forall j, (j < n)%nat -> (go j < n)%nat.
Proof.
  intros H j Hj. assert (In (go j) (seq 0 n)) as G. { apply (Permutation_in _ H). apply in_map, in_seq. lia. } apply in_seq in G. lia.
Qed.
Lemma phase_order_inj n go : phase_order n go -> forall i j, (i < n)%nat -> (j < n)%nat -> go i = go j -> i = j.
Proof.
  intros H i j Hi Hj E. assert (NoDup (map go (seq 0 n))) as N. { apply (Permutation_NoDup (Permutation_sym H)), seq_NoDup. }
  assert (forall i, (i < n)%nat -> nth i (map go (seq 0 n)) (go 0%nat) = go i) as Gn.
  { intros m Hm. rewrite map_nth, seq_nth by assumption. reflexivity. }
  apply (proj1 (NoDup_nth (map go (seq 0 n)) (go 0%nat)) N); rewrite ?map_length, ?seq_length; try assumption.
  rewrite !Gn by assumption. exact E.
Qed.
Lemma phase_order_intro n go : (forall j, (j < n)%nat -> (go j < n)%nat) ->
  (forall i j, (i < n)%nat -> (j < n)%nat -> go i = go j -> i = j) -> phase_order n go.
Proof.
  intros Hb Hi. apply NoDup_Permutation_bis.
  - assert (forall l, NoDup l -> (forall x, In x l -> (x < n)%nat) -> NoDup (map go l)) as G.
    { induction 1 as [|x l Hx Hl IH]; intros Hin; [constructor|]. cbn. constructor.
      - intros Hc. apply in_map_iff in Hc as (y & E & Hy). apply Hx.
        rewrite <- (Hi y x); [exact Hy|apply Hin; right; exact Hy|apply Hin; left; reflexivity|exact E].
      - apply IH. intros. apply Hin. right. assumption. }
    apply G; [apply seq_NoDup|]. intros x Hx. apply in_seq in Hx. lia.
  - rewrite map_length, !seq_length. lia.
  - intros x Hx. apply in_map_iff in Hx as (y & <- & Hy). apply in_seq in Hy. apply in_seq. pose proof (Hb y). lia.
Qed.
Lemma rsum_order n go f : phase_order n go -> rsum n (fun j => f (go j)) = rsum n f.
Proof.
  intros H. rewrite !rsum_list. rewrite <- (map_map go f). apply fold_right_perm, Permutation_map, H.
Qed.
Lemma phase_order_surj n go : phase_order n go -> forall i, (i < n)%nat -> exists j, (j < n)%nat /\ go j = i.
Proof.
  intros H i Hi. assert (In i (map go (seq 0 n))) as G. { apply (Permutation_in _ (Permutation_sym H)), in_seq. lia. }
  apply in_map_iff in G as (j & E & Hj). apply in_seq in Hj. exists j. split; [lia|exact E].
Qed.

(** * Slots *)
Fixpoint base (n j : nat) : nat := match j with O => O | S i => (base n i + (n - 1 - i))%nat end.
Definition slot (n j k : nat) : nat := (base n j + (n - 1 - k))%nat.

Lemma base_Z n k : (k <= n)%nat -> (2 * Z.of_nat (base n k) = Z.of_nat k * (2 * (Z.of_nat n - 1) - (Z.of_nat k - 1)))%Z.
Proof.
  induction k as [|k IH]; intros H; [reflexivity|]. cbn [base]. specialize (IH ltac:(lia)). nia.
Qed.
Lemma offset_base n k : (k < n)%nat -> (offset n k = Z.of_nat (base n k) + (Z.of_nat n - 1))%Z.
Proof.
  intros H. unfold offset. pose proof (base_Z n k ltac:(lia)) as B.
  set (K := Z.of_nat k) in *. set (N := Z.of_nat n) in *.
  assert (exists q, (K - 1) * K = 2 * q)%Z as (q & E).
  { exists (K * (N - 1) - Z.of_nat (base n k))%Z. nia. }
  rewrite E. replace (2 * q)%Z with (q * 2)%Z by lia. rewrite Z.quot_mul by lia. nia.
Qed.
Lemma offset_slot n k j : (k < j < n)%nat -> (offset n k - Z.of_nat j = Z.of_nat (slot n k j))%Z.
Proof. intros H. rewrite offset_base by lia. unfold slot. lia. Qed.
Lemma base_mono n i j : (i <= j)%nat -> (base n i <= base n j)%nat.
Proof. induction 1; [lia|]. cbn [base]. lia. Qed.
Lemma slot_lt_base n j k : (j < k < n)%nat -> (slot n j k < base n (S j))%nat.
Proof. intros H. unfold slot. cbn [base]. lia. Qed.
Lemma slot_ge_base n j k : (base n j <= slot n j k)%nat.
Proof. unfold slot. lia. Qed.
Lemma slot_lt n j k j' k' : (j < k < n)%nat -> (j' < k' < n)%nat -> (j < j')%nat -> (slot n j k < slot n j' k')%nat.
Proof.
  intros H H' L. pose proof (slot_lt_base n j k H). pose proof (slot_ge_base n j' k'). pose proof (base_mono n (S j) j' L). lia.
Qed.
Lemma slot_inj n j k j' k' : (j < k < n)%nat -> (j' < k' < n)%nat -> slot n j k = slot n j' k' -> j = j' /\ k = k'.
Proof.
  intros H H' E. destruct (Nat.lt_trichotomy j j') as [L|[->|L]].
  - pose proof (slot_lt n j k j' k' H H' L). lia.
  - split; [reflexivity|]. unfold slot in E. lia.
  - pose proof (slot_lt n j' k' j k H' H L). lia.
Qed.
Lemma base_last n : (2 * base n (n - 1) = n * (n - 1))%nat.
Proof. destruct n as [|n]; [reflexivity|]. pose proof (base_Z (S n) (S n - 1) ltac:(lia)). nia. Qed.

(** * Exp/log *)
Lemma xexp_nonneg a : 0 <= xexp a.
Proof. destruct a; cbn; [left; apply exp_pos|lra]. Qed.

(** * One row of the update *)
Section Row.
Variables (logdt : R) (n : nat) (mfs : nat -> R) (go : nat -> nat) (lr : nat -> option R).

(** requested transfer j -> k (slot jk) *)
Definition request (j jk : nat) : R := xexp (xadd (xadd (Some logdt) (lr jk)) (xlog (mfs (go j)))).

(** what a row does to the amount [a] available: [T] transferred, [out] left *)
Definition row_balance (a T out : R) : Prop :=
  (a < MIN_MF /\ T = 0 /\ out = 0) \/ (MIN_MF <= a /\ T = a /\ out = 0) \/ (MIN_MF <= a /\ T + out = a /\ MIN_MF <= out).

Record row_inv (j b : nat) (a : R) (d0 : nat -> R) (p : nat) (s : R * nat * (nat -> R)) : Prop := {
  ri_jk : snd (fst s) = (b + p)%nat;
  ri_same : forall i, (i < b \/ b + p <= i)%nat -> snd s i = d0 i;
  ri_nn : 0 <= a -> forall q, (q < p)%nat -> 0 <= snd s (b + q)%nat;
  ri_le : forall q, (q < p)%nat -> snd s (b + q)%nat <= Rmax 0 (Rmax (request j (b + q)%nat) (Rmin a (request j (b + q)%nat + MIN_MF)));
  ri_bal : (a < MIN_MF /\ rsum p (fun q => snd s (b + q)%nat) = 0 /\ fst (fst s) = a) \/
           (MIN_MF <= a /\ rsum p (fun q => snd s (b + q)%nat) = a /\ fst (fst s) < MIN_MF /\
            a < rsum p (fun q => request j (b + q)%nat) + MIN_MF) \/
           (MIN_MF <= a /\ rsum p (fun q => snd s (b + q)%nat) + fst (fst s) = a /\ MIN_MF <= fst (fst s) /\
            forall q, (q < p)%nat -> snd s (b + q)%nat = request j (b + q)%nat)
}.
Lemma MIN_pos : 0 < MIN_MF.
Proof. unfold MIN_MF. lra. Qed.

Lemma rsum_upd_last p b (d : nat -> R) x : rsum (S p) (fun q => aupd d (b + p) x (b + q)%nat) = rsum p (fun q => d (b + q)%nat) + x.
Proof.
  cbn [rsum]. rewrite aupd_same. f_equal. apply rsum_ext. intros q Hq. apply aupd_other. lia.
Qed.

Lemma row_inv_step j b a d0 p s k : row_inv j b a d0 p s -> row_inv j b a d0 (S p) (ss_step logdt mfs go lr j s k).
Proof.
  destruct s as [[nm jk] d]. intros [Hjk Hs Hn Hl Hb]. cbn [fst snd] in *. subst jk. unfold ss_step.
  pose proof MIN_pos as MP. pose proof (xexp_nonneg (xadd (xadd (Some logdt) (lr (b + p)%nat)) (xlog (mfs (go j))))) as XP.
  fold (request j (b + p)%nat) in *. set (dx := request j (b + p)%nat) in *.
  assert (forall x, 0 <= x \/ ~ 0 <= a -> x <= Rmax 0 (Rmax dx (Rmin a (dx + MIN_MF))) ->
     (0 <= a -> forall q, (q < S p)%nat -> 0 <= aupd d (b + p) x (b + q)%nat) /\
     (forall q, (q < S p)%nat -> aupd d (b + p) x (b + q)%nat <= Rmax 0 (Rmax (request j (b + q)%nat) (Rmin a (request j (b + q)%nat + MIN_MF))))) as UP.
  { intros x Hx Hxl. split.
    - intros Ha q Hq. destruct (Nat.eq_dec q p) as [->|]; [rewrite aupd_same; tauto|]. rewrite aupd_other by lia. apply Hn; [exact Ha|lia].
    - intros q Hq. destruct (Nat.eq_dec q p) as [->|]; [rewrite aupd_same; exact Hxl|]. rewrite aupd_other by lia. apply Hl. lia. }
  assert (forall x, forall i, (i < b \/ b + S p <= i)%nat -> aupd d (b + p) x i = d0 i) as SM.
  { intros x i Hi. rewrite aupd_other by lia. apply Hs. lia. }
  case Rlt_bool_spec; intros H1.
  - destruct (UP 0) as [U1 U2]; [left; lra|apply Rmax_l|].
    constructor; cbn [fst snd]; [lia|apply SM|exact U1|exact U2|].
    rewrite rsum_upd_last, Rplus_0_r. destruct Hb as [Hb|[Hb|Hb]]; [left; exact Hb|right; left|lra].
    cbn [rsum]. fold dx. lra.
  - assert (MIN_MF <= a /\ rsum p (fun q => d (b + q)%nat) + nm = a /\ (forall q, (q < p)%nat -> d (b + q)%nat = request j (b + q)%nat)) as (Ha & E & Hd).
    { destruct Hb as [Hb|[Hb|Hb]]; [lra|lra|tauto]. }
    assert (nm <= a) as Hna. { assert (0 <= rsum p (fun q => d (b + q)%nat)); [|lra]. apply rsum_nonneg. intros. apply Hn; [lra|assumption]. }
    case Rlt_bool_spec; intros H2.
    + destruct (UP nm) as [U1 U2]; [left; lra| |].
      { apply Rle_trans with (2 := Rmax_r _ _). apply Rle_trans with (2 := Rmax_r _ _). apply Rmin_glb; lra. }
      constructor; cbn [fst snd]; [lia|apply SM|exact U1|exact U2|].
      right; left. rewrite rsum_upd_last. cbn [rsum]. fold dx. rewrite (rsum_ext p _ _ Hd) in E. lra.
    + destruct (UP dx) as [U1 U2]; [left; lra| |].
      { apply Rle_trans with (2 := Rmax_r _ _). apply Rmax_l. }
      constructor; cbn [fst snd]; [lia|apply SM|exact U1|exact U2|].
      right; right. rewrite rsum_upd_last. repeat split; try lra.
      intros q Hq. destruct (Nat.eq_dec q p) as [->|]; [rewrite aupd_same; reflexivity|]. rewrite aupd_other by lia. apply Hd. lia.
Qed.
Lemma row_inv_init j b a d0 : row_inv j b a d0 0 (a, b, d0).
Proof.
  constructor; cbn [fst snd rsum]; intros; try lia; try reflexivity.
  destruct (Rlt_or_le a MIN_MF); [left; lra|right; right]. repeat split; try lra. intros; lia.
Qed.
End Row.

(** * The whole update *)
Section Update.
Variables (logdt : R) (n : nat) (mfs : nat -> R) (go : nat -> nat) (lr : nat -> option R) (d0 nw0 : nat -> R).
Hypothesis Hgo : phase_order n go.
Hypothesis Hmf : forall i, (i < n)%nat -> 0 <= mfs i.

(** amount available to phase j: what it has plus what the phases above gave it *)
Definition avail (d : nat -> R) (j : nat) : R := mfs (go j) + rsum j (fun k => d (slot n k j)).
Definition given (d : nat -> R) (j : nat) : R := rsum (n - 1 - j) (fun q => d (base n j + q)%nat).

Lemma gain_fold d j : (j < n)%nat -> fold_left (ss_gain n d j) (seq 0 j) (mfs (go j)) = avail d j.
Proof.
  intros Hj. unfold avail. 
  apply (fold_seq_ind (ss_gain n d j) (fun p x => x = mfs (go j) + rsum p (fun k => d (slot n k j))) j 0).
  - cbn. lra.
  - intros p x Hp ->. unfold ss_gain. rewrite offset_slot by lia. rewrite Nat2Z.id. cbn [rsum]. lra.
Qed.

Record upd_inv (j : nat) (s : nat * (nat -> R) * (nat -> R)) : Prop := {
  ui_jk : fst (fst s) = base n j;
  ui_bal : forall i, (i < j)%nat -> row_balance (avail (snd (fst s)) i) (given (snd (fst s)) i) (snd s (go i));
  ui_nn : forall i, (i < base n j)%nat -> 0 <= snd (fst s) i;
  ui_full : forall i, (i < j)%nat -> given (snd (fst s)) i + snd s (go i) = avail (snd (fst s)) i -> 0 < snd s (go i) ->
            forall q, (q < n - 1 - i)%nat -> snd (fst s) (base n i + q)%nat = request logdt mfs go lr i (base n i + q);
  ui_le : forall i q, (i < j)%nat -> (q < n - 1 - i)%nat ->
            snd (fst s) (base n i + q)%nat <= Rmax (request logdt mfs go lr i (base n i + q))
                                               (Rmin (avail (snd (fst s)) i) (request logdt mfs go lr i (base n i + q) + MIN_MF));
  ui_depl : forall i, (i < j)%nat -> MIN_MF <= avail (snd (fst s)) i -> snd s (go i) = 0 ->
            avail (snd (fst s)) i < rsum (n - 1 - i) (fun q => request logdt mfs go lr i (base n i + q)) + MIN_MF;
  ui_out : forall i, (forall k, (k < j)%nat -> go k <> i) -> snd s i = nw0 i;
  ui_outd : forall i, (base n j <= i)%nat -> snd (fst s) i = d0 i
}.
Lemma avail_ext d d' j : (j < n)%nat -> (forall i, (i < base n j)%nat -> d i = d' i) -> avail d j = avail d' j.
Proof.
  intros Hj H. unfold avail. f_equal. apply rsum_ext. intros k Hk. apply H.
  pose proof (slot_lt_base n k j ltac:(lia)). pose proof (base_mono n (S k) j Hk). lia.
Qed.
Lemma given_ext d d' j : (forall i, (i < base n (S j))%nat -> d i = d' i) -> given d j = given d' j.
Proof. intros H. apply rsum_ext. intros q Hq. apply H. cbn [base]. lia. Qed.
Lemma avail_nonneg d j : (j < n)%nat -> (forall i, (i < base n j)%nat -> 0 <= d i) -> 0 <= avail d j.
Proof.
  intros Hj H. unfold avail. pose proof (Hmf (go j) (phase_order_bound n go Hgo j Hj)).
  assert (0 <= rsum j (fun k => d (slot n k j))); [|lra]. apply rsum_nonneg. intros k Hk. apply H.
  pose proof (slot_lt_base n k j ltac:(lia)). pose proof (base_mono n (S k) j Hk). lia.
Qed.

Lemma upd_inv_step j s : (j < n - 1)%nat -> upd_inv j s -> upd_inv (S j) (ss_row logdt n mfs go lr s j).
Proof.
  destruct s as [[jk d] nw]. intros Hj [Hjk Hb Hn Hf Hl Hdp Ho Hd]. cbn [fst snd] in *. subst jk.
  unfold ss_row. rewrite gain_fold by lia.
  pose proof (fold_down_ind (ss_step logdt mfs go lr j) (row_inv logdt mfs go lr j (base n j) (avail d j) d) n j (avail d j, base n j, d)
     (row_inv_init logdt mfs go lr j (base n j) (avail d j) d) ltac:(intros; apply row_inv_step; assumption)) as RI.
  destruct (fold_left (ss_step logdt mfs go lr j) (down n j) (avail d j, base n j, d)) as [[nm jk'] d'].
  destruct RI as [Rjk Rs Rn Rl Rb]. cbn [fst snd] in *.
  pose proof (avail_nonneg d j ltac:(lia) Hn) as AN.
  assert (forall i, (i < base n j)%nat -> d' i = d i) as Hsame by (intros; apply Rs; lia).
  assert (forall i, (i < j)%nat -> go i <> go j) as Hneq.
  { intros i Hi E. apply (phase_order_inj n go Hgo) in E; lia. }
  assert (forall i, (i < S j)%nat -> avail d' i = avail d i) as Eav.
  { intros i Hi. apply avail_ext; [lia|]. intros m Hm. apply Hsame. pose proof (base_mono n i j ltac:(lia)). lia. }
  assert (forall i, (i < j)%nat -> given d' i = given d i) as Egv.
  { intros i Hi. apply given_ext. intros m Hm. apply Hsame. pose proof (base_mono n (S i) j ltac:(lia)). lia. }
  pose proof MIN_pos as MP.
  constructor; cbn [fst snd].
  - cbn [base]. exact Rjk.
  - intros i Hi. rewrite Eav by lia. destruct (Nat.eq_dec i j) as [->|Hne].
    + rewrite aupd_same. unfold given. case Rlt_bool_spec; intros Hc; unfold row_balance;
      destruct Rb as [Rb|[Rb|Rb]]; lra.
    + rewrite aupd_other by (apply Hneq; lia). rewrite Egv by lia. apply Hb. lia.
  - intros i Hi. destruct (Nat.lt_ge_cases i (base n j)) as [L|G]; [rewrite Hsame by exact L; apply Hn; exact L|].
    cbn [base] in Hi. replace i with (base n j + (i - base n j))%nat by lia. apply Rn; [exact AN|lia].
  - intros i Hi. rewrite Eav by lia. destruct (Nat.eq_dec i j) as [->|Hne].
    + rewrite aupd_same. unfold given. intros Hsum Hout q Hq. revert Hsum Hout. case Rlt_bool_spec; intros Hc Hsum Hout; [lra|].
      destruct Rb as [Rb|[Rb|Rb]]; [lra|lra|]. apply Rb. exact Hq.
    + rewrite aupd_other by (apply Hneq; lia). rewrite Egv by lia. intros Hsum Hout q Hq.
      rewrite Hsame. { apply Hf; [lia|assumption..]. } pose proof (base_mono n (S i) j ltac:(lia)) as BM. cbn [base] in BM. lia.
  - intros i q Hi Hq. rewrite Eav by lia. destruct (Nat.eq_dec i j) as [->|Hne].
    + eapply Rle_trans; [apply Rl; exact Hq|]. apply Rmax_lub; [|apply Rle_refl].
      apply Rle_trans with (2 := Rmax_l _ _). apply xexp_nonneg.
    + rewrite Hsame. { apply Hl; lia. } pose proof (base_mono n (S i) j ltac:(lia)) as BM. cbn [base] in BM. lia.
  - intros i Hi. rewrite Eav by lia. destruct (Nat.eq_dec i j) as [->|Hne].
    + rewrite aupd_same. intros Ha. case Rlt_bool_spec; intros Hc Hz; [|lra]. destruct Rb as [Rb|[Rb|Rb]]; [lra|apply Rb|lra].
    + rewrite aupd_other by (apply Hneq; lia). apply Hdp. lia.
  - intros i Hi. rewrite aupd_other. { apply Ho. intros k Hk. apply Hi. lia. } intros ->. apply (Hi j); [lia|reflexivity].
  - intros i Hi. rewrite Rs by (right; cbn [base] in Hi; exact Hi). apply Hd. cbn [base] in Hi. lia.
Qed.

(** everything the update does *)
Record update_facts (d nw : nat -> R) : Prop := {
  uf_bal : forall j, (j < n - 1)%nat -> row_balance (avail d j) (given d j) (nw (go j));
  uf_last : nw (go (n - 1)%nat) = avail d (n - 1);
  uf_nn : forall i, (i < base n (n - 1))%nat -> 0 <= d i;
  uf_full : forall i, (i < n - 1)%nat -> given d i + nw (go i) = avail d i -> 0 < nw (go i) ->
            forall q, (q < n - 1 - i)%nat -> d (base n i + q)%nat = request logdt mfs go lr i (base n i + q);
  uf_le : forall i q, (i < n - 1)%nat -> (q < n - 1 - i)%nat ->
            d (base n i + q)%nat <= Rmax (request logdt mfs go lr i (base n i + q)) (Rmin (avail d i) (request logdt mfs go lr i (base n i + q) + MIN_MF));
  uf_depl : forall i, (i < n - 1)%nat -> MIN_MF <= avail d i -> nw (go i) = 0 ->
            avail d i < rsum (n - 1 - i) (fun q => request logdt mfs go lr i (base n i + q)) + MIN_MF;
  uf_out : forall i, (n <= i)%nat -> nw i = nw0 i;
  uf_outd : forall i, (base n (n - 1) <= i)%nat -> d i = d0 i
}.
Hypothesis Hn : (0 < n)%nat.
Lemma update_ok : let r := SmallStepMFUpdate logdt n mfs go lr d0 nw0 in update_facts (fst r) (snd r).
Proof.
  cbv zeta. unfold SmallStepMFUpdate.
  pose proof (fold_seq_ind (ss_row logdt n mfs go lr) upd_inv (n - 1) 0 (0%nat, d0, nw0)) as FI.
  cbn [Nat.add] in FI. assert (upd_inv 0 (0%nat, d0, nw0)) as I0.
  { constructor; cbn [fst snd base]; intros; try lia; reflexivity. }
  specialize (FI I0). assert (forall p s, (0 <= p < n - 1)%nat -> upd_inv p s -> upd_inv (S p) (ss_row logdt n mfs go lr s p)) as ST.
  { intros p s Hp. apply upd_inv_step. lia. }
  specialize (FI ST).
  destruct (fold_left (ss_row logdt n mfs go lr) (seq 0 (n - 1)) (0%nat, d0, nw0)) as [[jk d] nw].
  destruct FI as [Fjk Fb Fn Ff Fl Fdp Fo Fd]. cbn [fst snd] in *.
  assert (forall j, (j < n - 1)%nat -> go j <> go (n - 1)%nat) as Hne.
  { intros j Hj E. apply (phase_order_inj n go Hgo) in E; lia. }
  constructor.
  - intros j Hj. rewrite aupd_other by (apply Hne; exact Hj). apply Fb. exact Hj.
  - rewrite aupd_same. unfold avail.
    apply (fold_seq_ind (fun nm k => nm + d (Z.to_nat (offset n k - Z.of_nat n + 1)))
             (fun p x => x = mfs (go (n - 1)%nat) + rsum p (fun k => d (slot n k (n - 1)))) (n - 1) 0).
    + cbn. lra.
    + intros p x Hp ->. replace (offset n p - Z.of_nat n + 1)%Z with (offset n p - Z.of_nat (n - 1))%Z by lia.
      rewrite offset_slot by lia. rewrite Nat2Z.id. cbn [rsum]. lra.
  - exact Fn.
  - intros i Hi. rewrite aupd_other by (apply Hne; exact Hi). intros Hs Ho q Hq. apply Ff; assumption.
  - exact Fl.
  - intros i Hi. rewrite aupd_other by (apply Hne; exact Hi). apply Fdp. exact Hi.
  - intros i Hi. rewrite aupd_other. { apply Fo. intros k Hk E. pose proof (phase_order_bound n go Hgo k ltac:(lia)). lia. }
    pose proof (phase_order_bound n go Hgo (n - 1) ltac:(lia)). lia.
  - exact Fd.
Qed.

(** amounts below the cutoff are dropped *)
Definition dropped (d : nat -> R) (j : nat) : R := if Rlt_bool (avail d j) MIN_MF then avail d j else 0.
Lemma dropped_bounds d nw j : update_facts d nw -> (j < n - 1)%nat -> 0 <= dropped d j < MIN_MF.
Proof.
  intros U Hj. pose proof MIN_pos. unfold dropped. case Rlt_bool_spec; intros; [|lra]. split; [|assumption].
  apply avail_nonneg; [lia|]. intros i Hi. apply (uf_nn d nw U). pose proof (base_mono n j (n - 1) ltac:(lia)). lia.
Qed.
Lemma out_eq d nw j : update_facts d nw -> (j < n - 1)%nat -> nw (go j) = avail d j - given d j - dropped d j.
Proof.
  intros U Hj. pose proof (uf_bal d nw U j Hj) as B. unfold dropped. case Rlt_bool_spec; intros; unfold row_balance in B; lra.
Qed.
(** weighted balance: for any weights g on phases *)
Lemma weighted_balance d nw (g : nat -> R) : update_facts d nw ->
  rsum n (fun i => g i * nw i) =
  rsum n (fun i => g i * mfs i) - rsum (n - 1) (fun j => g (go j) * dropped d j)
  - rsum n (fun k => rsum (n - 1 - k) (fun q => (g (go k) - g (go (n - 1 - q)%nat)) * d (slot n k (n - 1 - q)))).
Proof.
  intros U. rewrite <- (rsum_order n go (fun i => g i * nw i) Hgo), <- (rsum_order n go (fun i => g i * mfs i) Hgo).
  pose (gv := fun j => if (j <? n - 1)%nat then given d j + dropped d j else 0).
  rewrite (rsum_ext n (fun j => g (go j) * nw (go j))
     (fun j => (g (go j) * mfs (go j) + rsum j (fun k => g (go j) * d (slot n k j))) - g (go j) * gv j)).
  2:{ intros j Hj. unfold gv. rewrite rsum_scal. destruct (Nat.ltb_spec j (n - 1)).
      - rewrite (out_eq d nw j U) by assumption. unfold avail. ring.
      - replace j with (n - 1)%nat in * by lia. rewrite (uf_last d nw U). unfold avail. ring. }
  rewrite rsum_minus, rsum_plus. rewrite (rsum_triangle n (fun k j => g (go j) * d (slot n k j))).
  rewrite (rsum_ext n (fun k => rsum (n - 1 - k) (fun q => (g (go k) - g (go (n - 1 - q)%nat)) * d (slot n k (n - 1 - q))))
     (fun k => g (go k) * rsum (n - 1 - k) (fun q => d (slot n k (n - 1 - q))) - rsum (n - 1 - k) (fun q => g (go (n - 1 - q)%nat) * d (slot n k (n - 1 - q))))).
  2:{ intros k Hk. rewrite <- rsum_scal, <- rsum_minus. apply rsum_ext. intros. ring. }
  rewrite rsum_minus.
  assert (rsum n (fun j => g (go j) * gv j) = rsum n (fun k => g (go k) * rsum (n - 1 - k) (fun q => d (slot n k (n - 1 - q)))) + rsum (n - 1) (fun j => g (go j) * dropped d j)) as E; [|rewrite E; ring].
  rewrite (rsum_below n (n - 1) (fun j => g (go j) * dropped d j)) by lia. rewrite <- rsum_plus. apply rsum_ext. intros j Hj.
  unfold gv. destruct (Nat.ltb_spec j (n - 1)).
  - rewrite Rmult_plus_distr_l. f_equal. f_equal. unfold given. apply rsum_ext. intros q Hq. f_equal. unfold slot. lia.
  - replace (n - 1 - j)%nat with 0%nat by lia. cbn [rsum]. ring.
Qed.
End Update.
