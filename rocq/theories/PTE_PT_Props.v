(** C34/C36/C37 for PTESolverPT, end to end through the driver *)
From Coq Require Import ZArith Reals Bool List Lia Lra.
From Flocq Require Import Core.
From Verif Require Import Arith Robust_Model Robust_Proofs Thermo_Spec Thermo_Tools PTE_Driver_Model PTE_Driver_Props PTE_Model PTE_Tools PTE_Base_Props PTE_Init PTE_Tools2 PTE_Witness.
Import ListNotations.
Local Open Scope R_scope.

Section PT.
Variable n : nat.
Variable eos : nat -> meos.
Variable vfrac_total sie_total : R.
Variable params : MixParams RArith.
Variable lin : nat -> (nat -> R) -> (nat -> R) -> (nat -> R).
Notation sys := (PT_system n eos vfrac_total sie_total params lin).

(** ** ScaleDx *)
Lemma pmin_fold (g : R -> nat -> R) : forall l sc, 0 <= sc -> 0 <= fold_left (fun sc m => Rmin (Rabs sc) (Rabs (g sc m))) l sc <= sc.
Proof.
  induction l as [|a l IH]; intros sc Hs; cbn [fold_left]; [lra|].
  assert (0 <= Rmin (Rabs sc) (Rabs (g sc a)) <= sc) as H.
  { split; [apply Rmin_glb; apply Rabs_pos|]. eapply Rle_trans; [apply Rmin_l|]. rewrite Rabs_right; lra. }
  pose proof (IH _ (proj1 H)). lra.
Qed.
Theorem C36_PT_scaled_step_admissible : forall s s' sc, 0 < Teq s -> tiny <= Rabs (uscale s) -> pt_ScaleDx n eos s = (s', sc) ->
  0 <= sc <= 1 /\ (forall i, (i < 2)%nat -> dx s' i = dx s i * sc) /\ 0 < Teq s + dx s' 0%nat /\
  (* a scaled pressure above every material's minimum pressure stays above it *)
  (forall m t, (m < n)%nat -> 0 <= t <= 1 -> ratio (MinimumPressure (eos m)) (uscale s) < Peq s ->
     ratio (MinimumPressure (eos m)) (uscale s) < Peq s + t * dx s' 1%nat).
Proof.
  intros s s' sc HT Hut E. unfold pt_ScaleDx in E.
  set (sc1 := if Rlt_bool _ _ then _ else 1) in E.
  assert (0 <= sc1 <= 1 /\ - (95 / 100) * Teq s <= sc1 * dx s 0%nat) as [A1 A2].
  { unfold sc1. case Rlt_bool_spec; intros Hc; [|split; lra].
    exact (clip_low (95 / 100) (Teq s) (dx s 0%nat) 1 ltac:(lra) HT ltac:(lra) Hc). }
  clearbody sc1.
  set (sc2 := fold_left _ (seq 0 n) sc1) in E.
  assert (0 <= sc2 <= sc1 /\ forall m, (m < n)%nat -> Rabs (sc2 * dx s 1%nat) <= 95 / 100 * Rabs (ratio (MinimumPressure (eos m)) (uscale s) - Peq s)) as [B1 B2].
  { unfold sc2. apply (fold_scale (fun m sc => Rabs (sc * dx s 1%nat) <= 95 / 100 * Rabs (ratio (MinimumPressure (eos m)) (uscale s) - Peq s))); [| |lra].
    - intros m sc0 Hm Hs. unfold pt_bounded. set (a := ratio (MinimumPressure (eos m)) (uscale s) - Peq s). set (d := dx s 1%nat).
      split; [split; [apply Rmin_glb; apply Rabs_pos|eapply Rle_trans; [apply Rmin_l|rewrite Rabs_right; lra]]|].
      set (r := Rmin _ _). assert (0 <= r) by (apply Rmin_glb; apply Rabs_pos).
      assert (r <= Rabs (95 / 100 * ratio a d)) as Hr by apply Rmin_r. rewrite Rabs_mult in Hr. rewrite (Rabs_right (95 / 100)) in Hr by lra.
      rewrite Rabs_mult, (Rabs_right r) by lra.
      assert (Rabs (ratio a d) * Rabs d <= Rabs a) as HH.
      { rewrite <- Rabs_mult. destruct (Rtotal_order d 0) as [Hd|[Hd|Hd]].
        - destruct (ratio_den_neg a d Hd) as (e & He & ->). unfold Rdiv. rewrite Rmult_assoc, Rabs_mult.
          assert (Rabs (/ e * d) <= 1) as H1.
          { replace (/ e * d) with ((- d) * / (- e)) by (field; lra). assert (0 < / - e) by (apply Rinv_0_lt_compat; lra).
            rewrite Rabs_right by (apply Rle_ge, Rmult_le_pos; lra).
            apply Rmult_le_reg_r with (- e); [lra|]. rewrite Rmult_assoc, Rinv_l by lra. lra. }
          pose proof (Rabs_pos a). nra.
        - rewrite Hd, Rmult_0_r, Rabs_R0. apply Rabs_pos.
        - destruct (ratio_den_pos a d ltac:(lra)) as (e & He & Hp & ->). unfold Rdiv. rewrite Rmult_assoc, Rabs_mult.
          assert (Rabs (/ e * d) <= 1) as H1.
          { assert (0 < / e) by (apply Rinv_0_lt_compat; lra). rewrite Rabs_right by (apply Rle_ge, Rmult_le_pos; lra).
            apply Rmult_le_reg_l with e; [lra|]. rewrite <- Rmult_assoc, Rinv_r by lra. lra. }
          pose proof (Rabs_pos a). nra. }
      pose proof (Rabs_pos d). pose proof (Rabs_pos (ratio a d)). nra.
    - intros m a b Hm HP Hab. rewrite Rabs_mult, (Rabs_right b) by lra. rewrite Rabs_mult, (Rabs_right a) in HP by lra.
      pose proof (Rabs_pos (dx s 1%nat)). nra. }
  clearbody sc2.
  set (sc3 := fold_left _ (seq 0 n) sc2) in E.
  assert (0 <= sc3 <= sc2) as C1.
  { unfold sc3. apply (pmin_fold (fun sc m => 95 / 100 * pt_bounded s (MaximumPressureAtTemperature (eos m) ((Teq s + sc * dx s 0%nat) * Tnorm s)) (dx s 0%nat))). lra. }
  clearbody sc3. inversion E; subst s' sc; clear E.
  assert (forall i, (i < 2)%nat -> dx (set_dx (map_n 2 (fun i => dx s i * sc3) (dx s)) s) i = dx s i * sc3) as HD by (intros i Hi; cbn; apply map_n_lt; exact Hi).
  split; [lra|]. split; [exact HD|]. split.
  - rewrite HD by lia. destruct (Rle_lt_dec 0 (dx s 0%nat)); nra.
  - intros m t Hm Ht Hp. rewrite HD by lia. pose proof (B2 m Hm) as HB. set (q := ratio (MinimumPressure (eos m)) (uscale s)) in *.
    assert (Rabs (sc3 * dx s 1%nat) <= Rabs (sc2 * dx s 1%nat)) as H3.
    { rewrite !Rabs_mult. rewrite (Rabs_right sc3), (Rabs_right sc2) by lra. apply Rmult_le_compat_r; [apply Rabs_pos|lra]. }
    assert (Rabs (q - Peq s) = Peq s - q) as Eq by (rewrite Rabs_left; lra). rewrite Eq in HB.
    assert (- (Peq s - q) < dx s 1%nat * sc3) as H4 by (rewrite (Rmult_comm (dx s 1%nat)); pose proof (Rle_abs (- (sc3 * dx s 1%nat))) as HA; rewrite Rabs_Ropp in HA; lra).
    destruct (Rle_lt_dec 0 (dx s 1%nat * sc3)); nra.
Qed.

(** ** the invariant *)
Variable rb : nat -> R.
Variable Tn us ut : R.
Variable Q : nat -> R -> R -> R -> R -> Prop.   (* any relation between m, P, T, rho, sie *)
Hypothesis Hus : 1 / 100000000000000 <= us.
Hypothesis HQ : forall m P T r0 e0, (m < n)%nat -> Q m P T (fst (de_pt (eos m) P T r0 e0)) (snd (de_pt (eos m) P T r0 e0)).
Record pt_inv (s : pst) : Prop := {
  ti_rb : forall m, (m < n)%nat -> rhobar s m = rb m;
  ti_Tn : Tnorm s = Tn;
  ti_us : uscale s = us;
  ti_ut : utot s = ut;
  ti_T : 0 < Teq s;
  ti_vf : forall m, (m < n)%nat -> vfrac s m = ratio (rb m) (rho s m);
  ti_eos : forall m, (m < n)%nat -> Q m (Peq s * us) (Teq s * Tn) (rho s m) (sie s m);
  ti_u : forall m, (m < n)%nat -> u s m * us = rb m * sie s m;
  ti_r0 : res s 0%nat = vfrac_total - rsum n (vfrac s);
  ti_r1 : res s 1%nat = ut - rsum n (u s)
}.
Record pt_inv2 (s : pst) : Prop := { t2_inv : pt_inv s; t2_T : 0 < Ttmp s /\ 0 < Ttmp s + dx s 0%nat }.
Lemma pt_us_tiny : tiny <= Rabs us.
Proof. rewrite Rabs_right by lra. pose proof tiny_e14. lra. Qed.
(** setting the state from (Peq, Teq) and recomputing the residual establishes it *)
Lemma pt_set s f : (forall m, (m < n)%nat -> rhobar s m = rb m) -> Tnorm s = Tn -> uscale s = us -> utot s = ut -> 0 < Teq s ->
  pt_inv (pt_Residual n vfrac_total (set_press f (pt_setstate n eos s))).
Proof.
  intros Erb ETn Eus Eut HT. pose proof pt_us_tiny as Hut. constructor.
  - exact Erb.
  - exact ETn.
  - exact Eus.
  - exact Eut.
  - exact HT.
  - intros m Hm. cbn. rewrite !mapm_lt by exact Hm. rewrite Erb by exact Hm. reflexivity.
  - intros m Hm. cbn. rewrite !mapm_lt by exact Hm. unfold pt_lookup. rewrite Eus, ETn. apply HQ. exact Hm.
  - intros m Hm. cbn. rewrite !mapm_lt by exact Hm. rewrite Erb by exact Hm. rewrite Eus, ratio_mul by exact Hut. ring.
  - cbn. rewrite sum_neumaier_id. reflexivity.
  - cbn. rewrite sum_neumaier_id, Eut. reflexivity.
Qed.
Lemma pt_inv_dx x s : pt_inv s -> pt_inv (set_dx x s).
Proof. intros H. constructor; apply H. Qed.
Lemma pt_inv_jac s : pt_inv s -> pt_inv (pt_Jacobian n eos params s).
Proof. intros H. constructor; apply H. Qed.
Definition pt_IS (sc : R) (s : pst) : Prop := pt_inv s /\ 0 < Teq s + dx s 0%nat.
Lemma pt_driver_inv : driver_invariant sys pt_inv (fun _ => pt_inv) pt_IS pt_inv2.
Proof.
  constructor; cbn [sCheckPTE sJacobian sSolve sScaleDx sTestUpdate sFixup PT_system].
  - intros s s2 ok H _ E. unfold Solve in E. destruct (solve_Ax_b _ _ _ _) as [x o]. inversion E; subst. apply pt_inv_dx, pt_inv_jac, H.
  - auto.
  - intros s s3 sc H E. pose proof pt_us_tiny as Hut.
    destruct (C36_PT_scaled_step_admissible s s3 sc (ti_T _ H) ltac:(rewrite (ti_us _ H); exact Hut) E) as (_ & _ & H1 & _).
    assert (exists x, s3 = set_dx x s) as (x & ->) by (unfold pt_ScaleDx in E; inversion E; eauto).
    split; [apply pt_inv_dx; exact H|exact H1].
  - intros sc s [H _]. exact H.
  - intros sc s s4 e [H HT] E. unfold pt_TestUpdate in E. inversion E; subst s4; clear E. pose proof (ti_T _ H). constructor.
    + apply pt_set; try apply H. cbn. lra.
    + cbn. split; [lra|exact HT].
  - intros t s s4 e [H [HT1 HT2]] Ht E. unfold pt_TestUpdate in E. inversion E; subst s4; clear E. constructor.
    + apply pt_set; try apply H. cbn. exact (convex_pos _ _ t HT1 HT2 ltac:(lra)).
    + split; [exact HT1|exact HT2].
  - intros s [H _]. exact H.
  - auto.
Qed.
End PT.

Section EndToEndPT.
Variable n : nat.
Variable eos : nat -> meos.
Variable vfrac_total sie_total : R.
Variable params : MixParams RArith.
Variable lin : nat -> (nat -> R) -> (nat -> R) -> (nat -> R).
Notation sys := (PT_system n eos vfrac_total sie_total params lin).
Variable Q : nat -> R -> R -> R -> R -> Prop.
(** Q holds of whatever DensityEnergyFromPressureTemperature returns (e.g. "the EOS pressure at (rho,T) is P", or
    "rho > 0") *)
Hypothesis HQ : forall m P T r0 e0, (m < n)%nat -> Q m P T (fst (de_pt (eos m) P T r0 e0)) (snd (de_pt (eos m) P T r0 e0)).

Lemma pt_init_core s0 sB : init_ok n eos vfrac_total sie_total s0 sB ->
  let s := pt_Residual n vfrac_total sB in
  let P := rsum n (fun m => Rabs (press s m) * vfrac s m) in
  let vsum := sum_neumaier (vfrac s) n 0 None idop in
  let s := set_Teq 1 (set_Peq (P / vsum) s) in
  pt_inv n vfrac_total (fun m => rho s0 m * vfrac s0 m) (Tnorm sB) (uscale sB) (utot sB) Q
    (pt_Residual n vfrac_total (pt_setstate n eos s)).
Proof.
  intros HI. cbv zeta. pose proof (us_pos _ _ _ _ _ _ HI) as Hus.
  match goal with |- pt_inv _ _ _ _ _ _ _ (pt_Residual _ _ (pt_setstate _ _ ?x)) => set (s1 := x) end.
  change (pt_setstate n eos s1) with (set_press (press sB) (pt_setstate n eos s1)).
  apply (pt_set n eos vfrac_total (fun m => rho s0 m * vfrac s0 m) (Tnorm sB) (uscale sB) (utot sB) Q Hus HQ s1 (press sB));
    try reflexivity; [|cbn; lra].
  intros m Hm. apply (so_rb _ _ _ _ (io_shape _ _ _ _ _ _ HI) m Hm).
Qed.
Lemma pt_init_inv s0 : good_input n eos vfrac_total params s0 ->
  let sB := InitBase n eos vfrac_total sie_total params s0 in
  pt_inv n vfrac_total (fun m => rho s0 m * vfrac s0 m) (Tnorm sB) (uscale sB) (utot sB) Q (fst (pt_Init n eos vfrac_total sie_total params s0)).
Proof. intros G. exact (pt_init_core s0 _ (InitBase_ok n eos vfrac_total sie_total params s0 G)). Qed.

(** Returned state, converged or not: one common pressure and one common positive temperature; every material's density
    and energy are what its EOS gave for that pressure and temperature; masses are conserved. *)
Theorem C34_PT_returned_state : forall s0 st sf, good_input n eos vfrac_total params s0 -> 0 < line_search_fac params <= 1 ->
  @PTESolver RArith pst ratio sys s0 = (st, sf) ->
  exists P T, 0 < T /\ forall m, (m < n)%nat -> press sf m = P /\ temp sf m = T /\ Q m P T (rho sf m) (sie sf m) /\
    (tiny <= Rabs (rho sf m) -> rho sf m * vfrac sf m = rho s0 m * vfrac s0 m).
Proof.
  intros s0 st sf G P2 E. set (sB := InitBase n eos vfrac_total sie_total params s0).
  pose proof (InitBase_ok n eos vfrac_total sie_total params s0 G) as HI. fold sB in HI. pose proof (us_pos _ _ _ _ _ _ HI) as Hus.
  pose proof (pt_init_inv s0 G) as H0. cbv zeta in H0. fold sB in H0.
  pose proof (pt_driver_inv n eos vfrac_total sie_total params lin (fun m => rho s0 m * vfrac s0 m) (Tnorm sB) (uscale sB) (utot sB) Q Hus HQ) as HD.
  destruct (C35_invariant_principle sys _ _ _ _ HD P2 s0 H0) as (s' & H' & E').
  rewrite E in E'. cbn [snd sFinalize PT_system] in E'. subst sf.
  exists (Peq s' * uscale sB), (Teq s' * Tnorm sB).
  split; [apply Rmult_lt_0_compat; [apply (ti_T _ _ _ _ _ _ _ _ H')|apply (io_Tn _ _ _ _ _ _ HI)]|].
  intros m Hm. cbn. rewrite !mapm_lt by exact Hm. rewrite (ti_us _ _ _ _ _ _ _ _ H'), (ti_Tn _ _ _ _ _ _ _ _ H').
  split; [reflexivity|]. split; [reflexivity|]. split; [apply (ti_eos _ _ _ _ _ _ _ _ H' m Hm)|].
  intros Hr. rewrite (ti_vf _ _ _ _ _ _ _ _ H' m Hm), Rmult_comm. apply ratio_mul. exact Hr.
Qed.

(** converged, not slow: volume and energy constraints hold within the tolerances *)
Theorem C37_PT_converged_means_conservation : forall s0 st sf, good_input n eos vfrac_total params s0 -> 0 < line_search_fac params <= 1 ->
  @PTESolver RArith pst ratio sys s0 = (st, sf) -> converged st = true -> slow_convergence_detected st = false ->
  let mass m := rho s0 m * vfrac s0 m in
  let etot := rsum n mass * sie_total in
  Rabs (vfrac_total - rsum n (vfrac sf)) < pte_rel_tolerance_v params /\
  Rabs (etot - rsum n (fun m => mass m * sie sf m)) < pte_rel_tolerance_e params * Rmax (Rabs etot) (1 / 100000000000000).
Proof.
  intros s0 st sf G P2 E HC HS. cbv zeta. set (sB := InitBase n eos vfrac_total sie_total params s0).
  pose proof (InitBase_ok n eos vfrac_total sie_total params s0 G) as HI. fold sB in HI. pose proof (us_pos _ _ _ _ _ _ HI) as Hus.
  pose proof (io_us _ _ _ _ _ _ HI) as Eus. pose proof (io_ut _ _ _ _ _ _ HI) as Eut.
  pose proof (pt_init_inv s0 G) as H0. cbv zeta in H0. fold sB in H0.
  pose proof (pt_driver_inv n eos vfrac_total sie_total params lin (fun m => rho s0 m * vfrac s0 m) (Tnorm sB) (uscale sB) (utot sB) Q Hus HQ) as HD.
  destruct (C35_converged_invariant sys _ _ _ _ HD P2 s0 st sf H0 E HC HS) as (s' & H' & HK & E').
  cbn [sCheckPTE sFinalize sFixup PT_system] in HK, E'. rewrite <- Eus.
  pose proof (pt_us_tiny _ Hus) as Hut. assert (0 < uscale sB) as Hup by lra.
  unfold pt_CheckPTE in HK. cbn [fst] in HK. apply andb_true_iff in HK. destruct HK as [HKv HKe]. subst sf. cbn.
  rewrite <- (ti_r0 _ _ _ _ _ _ _ _ H').
  split; [revert HKv; case Rlt_bool_spec; [auto|discriminate]|].
  assert (Rabs (res s' 1%nat) < pte_rel_tolerance_e params) as He by (revert HKe; case Rlt_bool_spec; [auto|discriminate]).
  rewrite (ti_r1 _ _ _ _ _ _ _ _ H'), Eut in He.
  match goal with |- Rabs (?a - ?b) < _ => replace (a - b) with ((ratio a (uscale sB) - rsum n (u s')) * uscale sB) end.
  - rewrite Rabs_mult, (Rabs_right (uscale sB)) by lra. apply Rmult_lt_compat_r; [exact Hup|exact He].
  - rewrite Rmult_minus_distr_r, ratio_mul by exact Hut. f_equal. rewrite <- rsum_scal_r. apply rsum_ext. intros m Hm.
    rewrite (ti_u _ _ _ _ _ _ _ _ H' m Hm). reflexivity.
Qed.
End EndToEndPT.

(** ** The hypotheses are met: with ideal gases, Q can be "the EOS pressure at the returned density and P, T is P and the
    energy is the EOS energy" at every positive temperature *)
Definition ideal_Q (m : nat) (P T r e : R) : Prop := 0 < T -> p_rt (weos m) r T = P /\ e = e_rt (weos m) r T.
Example C34_ex_PT : forall n, (0 < n)%nat -> INR n <= 2 ^ 900 ->
  good_input n weos 1 wpar (wst n) /\ 0 < line_search_fac wpar <= 1 /\
  (forall m P T r0 e0, (m < n)%nat -> ideal_Q m P T (fst (de_pt (weos m) P T r0 e0)) (snd (de_pt (weos m) P T r0 e0))).
Proof.
  intros n Hn HB. split; [exact (good_input_witness n Hn HB)|]. split; [exact wfac|].
  intros m P T r0 e0 _ HT. destruct (weos_form m) as (g & c & -> & Hg & Hc). cbn. split; [field; lra|reflexivity].
Qed.
Print Assumptions C36_PT_scaled_step_admissible.
Print Assumptions C34_PT_returned_state.
Print Assumptions C37_PT_converged_means_conservation.
