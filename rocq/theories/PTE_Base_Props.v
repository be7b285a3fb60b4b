(** C34 (part 1): volume/mass/energy bookkeeping shared by the PTE solvers *)
From Coq Require Import ZArith Reals Bool List Lia Lra.
From Flocq Require Import Core.
From Verif Require Import Arith Robust_Model Robust_Proofs Thermo_Spec Thermo_Tools PTE_Driver_Model PTE_Model PTE_Tools.
Import ListNotations.
Local Open Scope R_scope.

(** *** MixUtils::EnforceMassVolumesSum *)
(** After the call the volume fractions sum to tot_vol, only the material with the (first) largest volume fraction has
    changed, and no material's mass (density times volume fraction) has changed. *)
Theorem C34_enforce_mass_volumes : forall n tot_vol rho vf rho' vf', (0 < n)%nat ->
  (forall m, (m < n)%nat -> 0 < vf m) ->
  EnforceMassVolumesSum n tot_vol rho vf = (rho', vf') ->
  rsum n vf' = tot_vol /\
  exists k, (k < n)%nat /\ (forall m, (m < n)%nat -> vf m <= vf k) /\
    (forall m, m <> k -> rho' m = rho m /\ vf' m = vf m) /\
    (tiny <= Rabs (vf' k) -> forall m, (m < n)%nat -> rho' m * vf' m = rho m * vf m).
Proof.
  intros n tv rho vf rho' vf' Hn Hpos E. unfold EnforceMassVolumesSum in E.
  pose proof (argmax_spec n vf (- (1))) as HA. destruct (argmax n vf (- (1))) as [k fm] eqn:EA. cbn [fst] in E.
  assert (k < n)%nat as Hk by (destruct HA as ([H|H] & _); lia).
  rewrite fold_sub_skip in E. set (vn := tv - _) in E. inversion E; subst rho' vf'; clear E.
  assert (fm = vf k) as EF.
  { destruct HA as (_ & H2 & _ & [[H4 H5]|[_ H4]] & _); [|exact H4]. exfalso.
    pose proof (H2 0%nat ltac:(lia)). pose proof (Hpos 0%nat ltac:(lia)). lra. }
  split.
  - rewrite (rsum_split n _ k Hk). rewrite upd_same.
    rewrite (rsum_ext n (fun m => if (m =? k)%nat then 0 else upd vf k vn m) (fun m => if (m =? k)%nat then 0 else vf m)).
    + unfold vn. lra.
    + intros m _. destruct (Nat.eqb_spec m k); [reflexivity|apply upd_other; assumption].
  - exists k. split; [exact Hk|]. split; [intros m Hm; rewrite <- EF; apply HA; exact Hm|].
    split; [intros m Hm; rewrite !upd_other by exact Hm; auto|].
    intros Ht m Hm. destruct (Nat.eq_dec m k) as [->|Hne].
    + rewrite !upd_same in *. rewrite Rmult_assoc. rewrite ratio_mul by exact Ht. reflexivity.
    + rewrite !upd_other by exact Hne. reflexivity.
Qed.

(** *** MixUtils::EnforceEnergiesSum *)
Theorem C34_enforce_energies : forall n tot_rho tot_sie rho vf sie, (0 < n)%nat ->
  let sie' := EnforceEnergiesSum n tot_rho tot_sie rho vf sie in
  exists k, (k < n)%nat /\
    (forall m, (m < n)%nat -> Rabs (rho m * vf m * sie m) <= Rabs (rho k * vf k * sie k)) /\
    (forall m, m <> k -> sie' m = sie m) /\
    (tiny <= Rabs (rho k * vf k) -> rsum n (fun m => rho m * vf m * sie' m) = tot_rho * tot_sie).
Proof.
  intros n tr ts rho vf sie Hn sie'. unfold sie', EnforceEnergiesSum.
  set (f := fun m => Rabs (rho m * vf m * sie m)).
  pose proof (argmax_spec n f 0) as HA. destruct (argmax n f 0) as [k fm] eqn:EA. cbn [fst].
  assert (k < n)%nat as Hk by (destruct HA as ([H|H] & _); lia).
  exists k. split; [exact Hk|]. split.
  { intros m Hm. destruct HA as (_ & H2 & _ & [[H4 H5]|[_ H4]] & _).
    - subst fm k. pose proof (H2 m Hm). unfold f in *. pose proof (Rabs_pos (rho m * vf m * sie m)). pose proof (Rabs_pos (rho 0%nat * vf 0%nat * sie 0%nat)). lra.
    - rewrite H4 in H2. apply H2. exact Hm. }
  split; [intros m Hm; apply upd_other; exact Hm|].
  intros Ht. rewrite fold_sub_skip. set (un := ts * tr - _).
  rewrite (rsum_split n _ k Hk). rewrite upd_same.
  rewrite (rsum_ext n (fun m => if (m =? k)%nat then 0 else rho m * vf m * upd sie k (ratio un (rho k * vf k)) m)
                      (fun m => if (m =? k)%nat then 0 else rho m * vf m * sie m)).
  - rewrite (Rmult_comm (rho k * vf k)). rewrite ratio_mul by exact Ht. unfold un. lra.
  - intros m _. destruct (Nat.eqb_spec m k); [reflexivity|]. rewrite upd_other by assumption. reflexivity.
Qed.

Section Base.
Variable n : nat.
Variable eos : nat -> meos.
Variable vfrac_total sie_total : R.
Variable params : MixParams RArith.

(** *** NormalizeVfrac *)
Theorem C34_normalize_vfrac : forall vf, tiny <= Rabs (rsum n vf) ->
  rsum n (NormalizeVfrac n vfrac_total vf) = vfrac_total /\
  (forall m, (m < n)%nat -> NormalizeVfrac n vfrac_total vf m * rsum n vf = vfrac_total * vf m).
Proof.
  intros vf H. unfold NormalizeVfrac. rewrite sum_neumaier_id. split.
  - rewrite rsum_mapm, rsum_scal_r. rewrite Rmult_comm. apply ratio_mul. exact H.
  - intros m Hm. rewrite mapm_lt by exact Hm. rewrite Rmult_assoc, ratio_mul by exact H. ring.
Qed.
Lemma normalize_pos vf : 0 < vfrac_total -> (forall m, (m < n)%nat -> 0 < vf m) ->
  forall m, (m < n)%nat -> 0 < NormalizeVfrac n vfrac_total vf m.
Proof.
  intros Ht Hp m Hm. unfold NormalizeVfrac. rewrite sum_neumaier_id, mapm_lt by exact Hm.
  apply Rmult_lt_0_compat; [apply Hp; exact Hm|]. apply ratio_pos_pos; [exact Ht|].
  apply rsum_nonneg. intros k Hk. left. apply Hp. exact Hk.
Qed.

(** *** SetVfracFromT *)
(** positive lower bounds survive the water-filling sweeps *)
Lemma sweeps_lower vmax : forall fuel vf b, (forall m, (m < n)%nat -> b m <= vmax m /\ b m <= vf m) ->
  forall m, (m < n)%nat -> b m <= sweeps n fuel vmax vf m.
Proof.
  induction fuel as [|f IH]; intros vf b Hb m Hm; [apply Hb; exact Hm|].
  cbn [sweeps]. set (vf1 := mapm n (fun m => vf m - sweep_dv vmax vf m) vf).
  assert (forall k, (k < n)%nat -> vf1 k = Rmin (vmax k) (vf k)) as E1 by (intros k Hk; unfold vf1; rewrite mapm_lt by exact Hk; unfold sweep_dv; lra).
  assert (forall k, (k < n)%nat -> 0 <= sweep_dv vmax vf k) as Hdv.
  { intros k Hk. unfold sweep_dv. pose proof (Rmin_r (vmax k) (vf k)). lra. }
  assert (forall k, (k < n)%nat -> b k <= vf1 k) as Hb1 by (intros k Hk; rewrite E1 by exact Hk; apply Rmin_glb; apply Hb; exact Hk).
  destruct (Rlt_bool _ _).
  - apply Hb1. exact Hm.
  - apply IH; [|exact Hm]. intros k Hk. split; [apply Hb; exact Hk|].
    rewrite mapm_lt by exact Hk. destruct (Rlt_bool _ _); [|apply Hb1; exact Hk].
    pose proof (Hb1 k Hk). assert (0 <= ratio (rsum n (sweep_dv vmax vf)) (INR (n - n_capped n vmax vf))); [|lra].
    apply ratio_pos_nonneg; [apply rsum_nonneg; exact Hdv|apply pos_INR].
Qed.

(** the result of a successful call: volume fractions positive and summing to the total. [Hcap]: every material's
    admissible maximum is at least 2^-960. *)
Theorem C34_SetVfracFromT_sums : forall T rb vf, (0 < n)%nat -> tiny <= vfrac_total ->
  (forall m, (m < n)%nat -> 0 < vf m) -> tiny <= rsum n vf ->
  (forall m, (m < n)%nat -> tiny <= vfrac_max eos T rb m) ->
  let '(vf', fail) := SetVfracFromT n eos vfrac_total T rb vf in
  if fail then forall m, (m < n)%nat -> vf' m = vf m
  else rsum n vf' = vfrac_total /\ forall m, (m < n)%nat -> 0 < vf' m.
Proof.
  intros T rb vf Hn Ht Hp Hs Hcap. unfold SetVfracFromT.
  set (vf0 := mapm n (fun m => if Rle_bool (vf m) 0 then vfrac_max eos T rb m else vf m) vf).
  assert (forall m, (m < n)%nat -> vf0 m = vf m) as E0.
  { intros m Hm. unfold vf0. rewrite mapm_lt by exact Hm. rewrite Rle_bool_false; [reflexivity|apply Hp; exact Hm]. }
  destruct (Rlt_bool _ _); [exact E0|].
  pose proof tiny_pos as HT.
  assert (rsum n vf0 = rsum n vf) as ES by (apply rsum_ext; exact E0).
  set (vn := NormalizeVfrac n vfrac_total vf0).
  assert (rsum n vn = vfrac_total) as EN by (apply C34_normalize_vfrac; rewrite ES, Rabs_right; lra).
  assert (forall m, (m < n)%nat -> 0 < vn m) as Pn by (apply normalize_pos; [lra|intros m Hm; rewrite E0 by exact Hm; apply Hp; exact Hm]).
  set (vmax := vfrac_max eos T rb) in *.
  set (b := fun m => Rmin (vmax m) (vn m)).
  pose proof (sweeps_lower vmax n vn b) as HL.
  assert (forall m, (m < n)%nat -> b m <= sweeps n n vmax vn m) as HL' by (apply HL; intros m _; split; [apply Rmin_l|apply Rmin_r]).
  assert (forall m, (m < n)%nat -> 0 < b m) as Pb by (intros m Hm; apply Rmin_glb_lt; [pose proof (Hcap m Hm); lra|apply Pn; exact Hm]).
  assert (tiny <= rsum n b) as HB.
  { destruct (forallb (fun m => Rle_bool (vn m) (vmax m)) (seq 0 n)) eqn:EF.
    - assert (rsum n b = rsum n vn) as ->; [|lra]. apply rsum_ext. intros m Hm. unfold b. apply Rmin_right.
      rewrite forallb_forall in EF. specialize (EF m ltac:(apply in_seq; lia)). cbv beta in EF. revert EF. case Rle_bool_spec; [auto|discriminate].
    - assert (forall l, forallb (fun m => Rle_bool (vn m) (vmax m)) l = false -> exists m, In m l /\ vmax m < vn m) as HH.
      { clear. induction l as [|a l IH]; [discriminate|]. cbn [forallb]. case Rle_bool_spec; intros H E.
        - destruct (IH E) as (m & H1 & H2). exists m. split; [right; exact H1|exact H2].
        - exists a. split; [left; reflexivity|exact H]. }
      destruct (HH _ EF) as (m & H1 & Hlt). assert (m < n)%nat as Hm by (apply in_seq in H1; lia).
      assert (b m = vmax m) as Eb by (apply Rmin_left; lra).
      assert (b m <= rsum n b) by (apply rsum_ge_term; [exact Hm|intros k Hk; left; apply Pb; exact Hk]).
      pose proof (Hcap m Hm). lra. }
  assert (rsum n b <= rsum n (sweeps n n vmax vn)) by (apply rsum_le; exact HL').
  split.
  - apply C34_normalize_vfrac. rewrite Rabs_right; lra.
  - apply normalize_pos; [lra|]. intros m Hm. pose proof (HL' m Hm). pose proof (Pb m Hm). lra.
Qed.
End Base.
Print Assumptions C34_enforce_mass_volumes.
Print Assumptions C34_enforce_energies.
Print Assumptions C34_normalize_vfrac.
Print Assumptions C34_SetVfracFromT_sums.
