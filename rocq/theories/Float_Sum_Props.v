(** C86: the compensated sum of the PTE solver, in double precision *)
From Coq Require Import ZArith Reals Bool Lia Lra Psatz List.
From Flocq Require Import Core IEEE754.BinarySingleNaN IEEE754.PrimFloat.
From Coq Require FloatOps.
From Verif Require Import Arith Robust_Model Robust_Proofs Float_Spec Float_Tools Float_Model Float_Props Float_Sum_Proofs.
From Verif Require PTE_Model.
Import ListNotations.
Local Open Scope R_scope.

(** over the reals this is the sum of the PTE model *)
Theorem C86_same_program : forall data n offset iskip op,
  @sum_neumaier_g RArith data n offset iskip op = PTE_Model.sum_neumaier data n offset iskip op.
Proof.
  intros data n offset iskip op. unfold sum_neumaier_g, PTE_Model.sum_neumaier.
  assert (G : forall f i s c, @neum_g RArith f i offset iskip op data s c = PTE_Model.neum_loop f i offset iskip op data s c).
  { induction f as [|f IH]; intros i s c; [reflexivity|]. cbn [neum_g PTE_Model.neum_loop].
    destruct (match iskip with Some k => (i =? k)%nat | None => false end); [apply IH|]. rewrite IH. reflexivity. }
  rewrite G. unfold lit. cbn [ofQ RArith]. replace (0 / 1) with 0 by field. reflexivity.
Qed.

Lemma sum_nrun data n offset iskip op : @sum_neumaier_g FArith data n offset iskip op = nrun (summands n offset iskip op data) PrimFloat.zero PrimFloat.zero.
Proof.
  unfold sum_neumaier_g, summands. rewrite lit0.
  assert (G : forall f i s c, @neum_g FArith f i offset iskip op data s c =
    nrun (map (fun i => op (data (i + offset)%nat)) (filter (fun i => match iskip with Some k => negb (Nat.eqb i k) | None => true end) (seq i f))) s c).
  { induction f as [|f IH]; intros i s c; [reflexivity|]. cbn [neum_g seq filter].
    destruct iskip as [k|]; [destruct (Nat.eqb i k)|]; cbn [negb map nrun].
    - apply IH.
    - rewrite IH. f_equal. unfold corr. cbn [leb absn FArith add sub]. destruct (PrimFloat.leb _ _); reflexivity.
    - rewrite IH. f_equal. unfold corr. cbn [leb absn FArith add sub]. destruct (PrimFloat.leb _ _); reflexivity. }
  apply G.
Qed.
Lemma Rsum_abs_pos (xs : list float) : 0 <= Rsum (map (fun x => Rabs (FR x)) xs).
Proof. induction xs; cbn; [lra|]. pose proof (Rabs_pos (FR a)). unfold Rsum in IHxs. lra. Qed.
Lemma Rsum_abs (xs : list float) : Rabs (Rsum (map FR xs)) <= Rsum (map (fun x => Rabs (FR x)) xs).
Proof. induction xs; cbn; [rewrite Rabs_R0; lra|]. unfold Rsum in IHxs. apply Rle_trans with (1 := Rabs_triang _ _). lra. Qed.
Lemma summands_length n offset iskip op data : (length (summands n offset iskip op data) <= n)%nat.
Proof.
  unfold summands. rewrite map_length. rewrite <- (seq_length n 0) at 2. generalize (seq 0 n). intros l. induction l; [reflexivity|]. cbn [filter].
  destruct (match iskip with Some k => _ | None => _ end); cbn [length]; lia.
Qed.

(** For any number n of summands (up to a million) of any signs and magnitudes whose absolute values add up to at most 2^1000, including
    subnormal ones: the result is finite, and its error is at most one rounding of the exact sum plus a term of second order in 2^-53,
    whatever the cancellation between the summands and whatever their order *)
Theorem C86_compensated_sum_accuracy : forall (data : nat -> float) n offset iskip op,
  let xs := summands n offset iskip op data in
  Forall fin xs -> (Z.of_nat n <= 1000000)%Z -> Rsum (map (fun x => Rabs (FR x)) xs) <= bpow radix2 1000 ->
  let r := @sum_neumaier_g FArith data n offset iskip op in
  fin r /\ Rabs (FR r - Rsum (map FR xs)) <= u * Rabs (Rsum (map FR xs)) + 2 * (INR n * u) ^ 2 * Rsum (map (fun x => Rabs (FR x)) xs).
Proof.
  intros data n offset iskip op xs HF Hn HX r. pose proof (summands_length n offset iskip op data) as L. fold xs in L.
  destruct (nrun_err xs PrimFloat.zero PrimFloat.zero 0 0 0 0 _ HF fin_zero fin_zero ltac:(lia) HX) as [F E];
    try (rewrite ?FR_zero, ?Rminus_0_r, ?Rabs_R0; cbn; lra).
  unfold r. rewrite sum_nrun. fold xs. split; [exact F|]. cbn [Nat.add] in E. rewrite !Rplus_0_l in E. apply Rle_trans with (1 := E).
  apply Rplus_le_compat_l. apply Rmult_le_compat_r; [apply Rsum_abs_pos|]. replace (2 * (INR (length xs) * INR (length xs) * (u * u))) with (2 * (INR (length xs) * u) ^ 2) by ring.
  apply Rmult_le_compat_l; [lra|]. apply pow_incr. pose proof u_pos. pose proof (pos_INR (length xs)). apply le_INR in L. split; [apply Rmult_le_pos; lra|]. apply Rmult_le_compat_r; lra.
Qed.

(** summands of one sign: two rounding errors, independently of n *)
Theorem C86_sum_of_nonnegative : forall (data : nat -> float) n offset iskip op,
  let xs := summands n offset iskip op data in
  Forall fin xs -> Forall (fun x => 0 <= FR x) xs -> (Z.of_nat n <= 1000000)%Z -> Rsum (map FR xs) <= bpow radix2 1000 ->
  close 2 (@sum_neumaier_g FArith data n offset iskip op) (Rsum (map FR xs)).
Proof.
  intros data n offset iskip op xs HF HP Hn HX.
  assert (EA : Rsum (map (fun x => Rabs (FR x)) xs) = Rsum (map FR xs)).
  { clear - HP. clearbody xs. induction xs as [|x xs IH]; [reflexivity|]. pose proof (Forall_inv HP) as Hx. cbn [map]. change (Rabs (FR x) + Rsum (map (fun x => Rabs (FR x)) xs) = FR x + Rsum (map FR xs)). rewrite IH by exact (Forall_inv_tail HP). cbn beta in Hx. rewrite Rabs_right by lra. reflexivity. }
  destruct (C86_compensated_sum_accuracy data n offset iskip op HF Hn ltac:(fold xs; rewrite EA; exact HX)) as [F E]. fold xs in E. rewrite EA in E.
  split; [exact F|]. pose proof (Rsum_abs_pos xs) as P. rewrite EA in P. rewrite (Rabs_right (Rsum (map FR xs))) in E by lra.
  set (S := Rsum (map FR xs)) in *. clearbody S. set (r := FR _) in *. clearbody r.
  pose proof u_pos as Up. assert (U40 : u <= / 1000000000000000). { unfold u. apply Rle_trans with (bpow radix2 (-50)); [apply bpow_le; lia|]. assert (bpow radix2 (-50) = / 1125899906842624) by (simpl; lra). lra. }
  assert (Hn2 : 0 <= INR n <= 1000000). { split; [apply pos_INR|]. rewrite INR_IZR_INZ. apply IZR_le. exact Hn. }
  assert (D : 2 * (INR n * u) ^ 2 <= u / 2).
  { replace (2 * (INR n * u) ^ 2) with (2 * (INR n * INR n) * u * u) by ring. assert (INR n * INR n <= 1000000 * 1000000) by (apply Rmult_le_compat; lra).
    assert (2 * (INR n * INR n) * u <= / 2) by (apply Rle_trans with (2 * (1000000 * 1000000) * / 1000000000000000); [apply Rmult_le_compat; try nra|lra]). nra. }
  assert (E2 : Rabs (r - S) <= (3 / 2 * u) * S). { apply Rle_trans with (1 := E). assert (2 * (INR n * u) ^ 2 * S <= u / 2 * S) by (apply Rmult_le_compat_r; lra). lra. }
  apply Rabs_le_inv in E2. unfold near. cbn [pow]. rewrite Rmult_1_r. split.
  - apply Rle_trans with ((1 - 3 / 2 * u) * S); [|lra]. apply Rmult_le_compat_r; [exact P|]. nra.
  - apply Rle_trans with ((1 - u) * (1 - u) * ((1 + 3 / 2 * u) * S)); [apply Rmult_le_compat_l; [apply Rmult_le_pos; lra|lra]|].
    assert ((1 - u) * (1 - u) * (1 + 3 / 2 * u) <= 1) by nra. rewrite <- (Rmult_1_l S) at 2. rewrite <- Rmult_assoc. apply Rmult_le_compat_r; assumption.
Qed.

(** NormalizeVfrac: each volume fraction is its exact share up to four rounding errors, and the new fractions add up to the total up to
    four rounding errors -- for any number of materials *)
Lemma near_Rsum k : forall (l : list nat) (a v : nat -> R), (forall m, In m l -> near k (a m) (v m)) -> near k (Rsum (map a l)) (Rsum (map v l)).
Proof.
  induction l as [|m l IH]; intros a v H; [split; cbn; lra|]. cbn [map]. change (near k (a m + Rsum (map a l)) (v m + Rsum (map v l))). apply near_add; [apply H; left; reflexivity|]. apply IH. intros j Hj. apply H. right. exact Hj.
Qed.
Theorem C86_normalized_fractions : forall n (vfrac_total : float) (vfrac : nat -> float), (Z.of_nat n <= 1000000)%Z ->
  fin vfrac_total -> 0 < FR vfrac_total -> (forall m, (m < n)%nat -> fin (vfrac m) /\ 0 <= FR (vfrac m)) ->
  let total := Rsum (map (fun m => FR (vfrac m)) (seq 0 n)) in
  bpow radix2 (-900) <= total <= bpow radix2 1000 -> ordinary (FR vfrac_total / total) ->
  (forall m, (m < n)%nat -> ordinary (FR (vfrac m) * (FR vfrac_total / total))) ->
  let vfrac' := @normalize_g FArith SMALL_f n vfrac_total vfrac in
  (forall m, (m < n)%nat -> close 4 (vfrac' m) (FR (vfrac m) * (FR vfrac_total / total))) /\
  near 4 (Rsum (map (fun m => FR (vfrac' m)) (seq 0 n))) (FR vfrac_total) /\
  (forall m, (n <= m)%nat -> vfrac' m = vfrac m).
Proof.
  intros n tot vf Hn Ft Pt Hv S HS O1 O2 vf'. pose proof (bpow_gt_0 radix2 (-900)) as P900.
  assert (ES : summands n 0 None (fun x => x) vf = map vf (seq 0 n)).
  { unfold summands. replace (filter _ (seq 0 n)) with (seq 0 n); [apply map_ext; intros; f_equal; lia|]. generalize (seq 0 n). intros l. induction l; cbn; congruence. }
  assert (C2 : close 2 (@sum_neumaier_g FArith vf n 0 None (fun x => x)) S).
  { pose proof (C86_sum_of_nonnegative vf n 0 None (fun x => x)) as K. cbv zeta in K. rewrite ES, map_map in K. fold S in K. apply K; try assumption; try lra.
    - apply Forall_forall. intros x Hx. apply in_map_iff in Hx. destruct Hx as (m & <- & Hm). apply in_seq in Hm. apply Hv. lia.
    - apply Forall_forall. intros x Hx. apply in_map_iff in Hx. destruct Hx as (m & <- & Hm). apply in_seq in Hm. apply Hv. lia. }
  set (s := @sum_neumaier_g FArith vf n 0 None (fun x => x)) in *.
  assert (Ss : bpow radix2 (-960) <= Rabs (FR s)).
  { destruct C2 as [_ [A _]]. destruct (q_range 2 ltac:(lia)) as [q _]. assert (/ 2 * bpow radix2 (-900) <= FR s) by (apply Rle_trans with (2 := A); apply Rmult_le_compat; lra).
    rewrite half_bpow in H. rewrite Rabs_right. - apply Rle_trans with (2 := H). apply bpow_le. lia. - pose proof (bpow_gt_0 radix2 (-900 - 1)). lra. }
  assert (ER : ratio_f tot s = PrimFloat.div tot s) by (apply C84_ratio_binary64; [exact Ft|exact (proj1 C2)|exact Ss]).
  assert (C3 : close 3 (ratio_f tot s) (FR tot / S)). { rewrite ER. apply (op_div 0 2); [apply close_self; exact Ft|exact C2|lra|lra|exact O1|lia]. }
  assert (Q : 0 < FR tot / S) by (apply Rdiv_lt_0_compat; lra).
  assert (V : forall m, (m < n)%nat -> close 4 (vf' m) (FR (vf m) * (FR tot / S))).
  { intros m Hm. unfold vf', normalize_g. apply Nat.ltb_lt in Hm. rewrite Hm. apply Nat.ltb_lt in Hm. cbn [mul FArith]. fold s. change (@ratio_g FArith SMALL_f tot s) with (ratio_f tot s).
    destruct (Hv m Hm). apply (op_mul 0 3); [apply close_self; assumption|exact C3|assumption|lra|apply O2; exact Hm|lia]. }
  refine (conj V (conj _ _)).
  - pose proof (near_Rsum 4 (seq 0 n) (fun m => FR (vf' m)) (fun m => FR (vf m) * (FR tot / S))) as K.
    assert (E : Rsum (map (fun m => FR (vf m) * (FR tot / S)) (seq 0 n)) = FR tot).
    { assert (E1 : forall l c, Rsum (map (fun m => FR (vf m) * c) l) = Rsum (map (fun m => FR (vf m)) l) * c).
      { intros l c. unfold Rsum. induction l as [|m l IH]; cbn [map fold_right]; [ring|]. rewrite IH. ring. }
      rewrite E1. fold S. field. lra. }
    rewrite E in K. apply K. intros m Hm. apply in_seq in Hm. apply V. lia.
  - intros m Hm. unfold vf', normalize_g. destruct (Nat.ltb_spec m n); [lia|reflexivity].
Qed.

(** not vacuous, and not true of the plain sum: 1 + 2^60 + 1 - 2^60 *)
Definition ex_data (i : nat) : float := match i with 0%nat => flit 1 1 | 1%nat => flit (2 ^ 60) 1 | 2%nat => flit 1 1 | _ => flit (- 2 ^ 60) 1 end.
Example C86_cancellation : PrimFloat.eqb (@sum_neumaier_g FArith ex_data 4 0 None (fun x => x)) (flit 2 1) = true /\
  PrimFloat.eqb (PrimFloat.add (PrimFloat.add (PrimFloat.add (flit 1 1) (flit (2 ^ 60) 1)) (flit 1 1)) (flit (- 2 ^ 60) 1)) (flit 0 1) = true.
Proof. vm_compute. split; reflexivity. Qed.
Lemma v_one : FR (flit 1 1) = 1. Proof. fval. Qed.
Lemma v_big : FR (flit (2 ^ 60) 1) = 1152921504606846976. Proof. fval. Qed.
Lemma v_mbig : FR (flit (- 2 ^ 60) 1) = - 1152921504606846976. Proof. fval. Qed.
Lemma v_half : FR (flit 1 2) = / 2. Proof. fval. Qed.
Lemma v_quarter : FR (flit 1 4) = / 4. Proof. fval. Qed.
Example C86_sum_applies : let r := @sum_neumaier_g FArith ex_data 4 0 None (fun x => x) in
  fin r /\ Rabs (FR r - 2) <= u * 2 + 2 * (4 * u) ^ 2 * (2 + 2 * 1152921504606846976).
Proof.
  pose proof (C86_compensated_sum_accuracy ex_data 4 0 None (fun x => x)) as K. cbv zeta in K. cbn [summands map filter seq Nat.add ex_data Rsum fold_right] in K.
  rewrite v_one, v_big, v_mbig in K. rewrite (Rabs_right 1), (Rabs_right 1152921504606846976), (Rabs_left (- 1152921504606846976)) in K by lra.
  replace (1 + (1152921504606846976 + (1 + (- 1152921504606846976 + 0)))) with 2 in K by ring. rewrite (Rabs_right 2) in K by lra.
  replace (INR 4) with 4 in K by (simpl; ring). match type of K with context [2 * (4 * u) ^ 2 * ?z] => replace z with (2 + 2 * 1152921504606846976) in K by lra end.
  apply K; [repeat constructor|lia|]. apply Rle_trans with (bpow radix2 70); [|apply bpow_le; lia]. replace (bpow radix2 70) with 1180591620717411303424 by (simpl; lra). lra.
Qed.
(** vfrac = {1/4, 1/2}, total 1 *)
Definition ex_vf (m : nat) : float := match m with 0%nat => flit 1 4 | _ => flit 1 2 end.
Example C86_normalize_applies : let v := @normalize_g FArith SMALL_f 2 (flit 1 1) ex_vf in
  close 4 (v 0%nat) (/ 3) /\ close 4 (v 1%nat) (2 / 3) /\ near 4 (FR (v 0%nat) + (FR (v 1%nat) + 0)) 1.
Proof.
  pose proof (C86_normalized_fractions 2 (flit 1 1) ex_vf ltac:(lia) ltac:(reflexivity)) as K. cbv zeta in K. cbn [seq map Rsum fold_right ex_vf] in K. rewrite v_one, v_half, v_quarter in K.
  replace (/ 4 + (/ 2 + 0)) with (3 / 4) in K by lra. destruct K as (A & B & _).
  - lra.
  - intros [|m] _; cbn [ex_vf]; rewrite ?v_half, ?v_quarter; (split; [reflexivity|lra]).
  - assert (ordinary (3 / 4)) as [E|E] by (apply ord_small; lra); [lra|]. split; [|lra].
    apply Rle_trans with (bpow radix2 (-10)); [apply bpow_le; lia|]. replace (bpow radix2 (-10)) with (/ 1024) by (simpl; lra). lra.
  - apply ord_small. lra.
  - intros [|m] _; cbn [ex_vf]; rewrite ?v_half, ?v_quarter; apply ord_small; lra.
  - refine (conj _ (conj _ B)).
    + apply (close_eq _ _ _ _ (A 0%nat ltac:(lia))). cbn [ex_vf]. rewrite v_quarter. lra.
    + apply (close_eq _ _ _ _ (A 1%nat ltac:(lia))). cbn [ex_vf]. rewrite v_half. lra.
Qed.
Print Assumptions C86_same_program.
Print Assumptions C86_compensated_sum_accuracy.
Print Assumptions C86_sum_of_nonnegative.
Print Assumptions C86_normalized_fractions.
