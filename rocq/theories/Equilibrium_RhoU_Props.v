(** C91 for the density-energy solver, in which every material has its own temperature until it converges *)
From Coq Require Import ZArith Reals Bool List Lra Lia Psatz.
From Flocq Require Import Core.
From Coquelicot Require Import Coquelicot.
From Verif Require Import Arith Robust_Model Robust_Proofs Thermo_Spec Thermo_Tools Stability_Spec Equilibrium_Spec Equilibrium_Proofs Equilibrium_Props.
From Verif Require Import PTE_Driver_Model PTE_Driver_Props PTE_Model PTE_Tools PTE_Base_Props PTE_Init PTE_Tools2 PTE_Calm PTE_Witness PTE_RhoU_Props.
Local Open Scope R_scope.

(** two approximate equilibria with a temperature per material: as close as the tolerances are small *)
Theorem C91_near_equilibria_each_agree : forall n P E mass V U db dq dv du rho T b q db' dq' dv' du' rho' T' b' q',
  (forall m, (m < n)%nat -> 0 < mass m /\ 0 < rho m /\ 0 < rho' m) -> 0 <= dq -> 0 <= dq' ->
  near_equilibrium_each n P E mass V U db dq dv du rho T b q -> near_equilibrium_each n P E mass V U db' dq' dv' du' rho' T' b' q' ->
  total n (fun m => mass m * gap (P m) (E m) (rho m) (T m) (rho' m) (T' m)) <=
    Rabs (b - b') * (du + du') + Rabs (q - q') * (dv + dv') + (dq + dq') * (2 * V + dv + dv') +
    (db + db') * total n (fun m => mass m * Rabs (E m (rho' m) (T' m) - E m (rho m) (T m))).
Proof.
  intros n P E mass V U db dq dv du rho T b q db' dq' dv' du' rho' T' b' q' HM Hq Hq' (H1 & H2 & H3) (H1' & H2' & H3').
  set (EU := total n (fun m => mass m * E m (rho m) (T m))) in *. set (EU' := total n (fun m => mass m * E m (rho' m) (T' m))) in *.
  set (VV := total n (fun m => mass m / rho m)) in *. set (VV' := total n (fun m => mass m / rho' m)) in *.
  assert (EQ : total n (fun m => mass m * gap (P m) (E m) (rho m) (T m) (rho' m) (T' m)) =
    (b - b') * (EU' - EU) + (q - q') * (VV' - VV) +
    total n (fun m => ((P m (rho m) (T m) / T m - q) - (P m (rho' m) (T' m) / T' m - q')) * (mass m * (1 / rho' m - 1 / rho m))) +
    total n (fun m => ((1 / T m - b) - (1 / T' m - b')) * (mass m * (E m (rho' m) (T' m) - E m (rho m) (T m))))).
  { unfold EU, EU', VV, VV'. rewrite <- !total_minus, <- !total_scal, <- !total_plus. apply total_ext. intros m Hm. unfold gap, Rdiv. ring. }
  rewrite EQ.
  assert (A1 : (b - b') * (EU' - EU) <= Rabs (b - b') * (du + du')).
  { eapply Rle_trans; [apply Rle_abs|]. rewrite Rabs_mult. apply Rmult_le_compat_l; [apply Rabs_pos|].
    replace (EU' - EU) with ((EU' - U) - (EU - U)) by ring. eapply Rle_trans; [apply Rabs_triang|]. rewrite Rabs_Ropp. lra. }
  assert (A2 : (q - q') * (VV' - VV) <= Rabs (q - q') * (dv + dv')).
  { eapply Rle_trans; [apply Rle_abs|]. rewrite Rabs_mult. apply Rmult_le_compat_l; [apply Rabs_pos|].
    replace (VV' - VV) with ((VV' - V) - (VV - V)) by ring. eapply Rle_trans; [apply Rabs_triang|]. rewrite Rabs_Ropp. lra. }
  assert (A3 : total n (fun m => ((P m (rho m) (T m) / T m - q) - (P m (rho' m) (T' m) / T' m - q')) * (mass m * (1 / rho' m - 1 / rho m))) <= (dq + dq') * (VV' + VV)).
  { unfold VV, VV'. rewrite <- total_plus, <- total_scal. apply total_le. intros m Hm. destruct (HM m Hm) as (M1 & M2 & M3).
    assert (I1 : 0 < / rho m) by (apply Rinv_0_lt_compat; lra). assert (I2 : 0 < / rho' m) by (apply Rinv_0_lt_compat; lra).
    eapply Rle_trans; [apply Rle_abs|]. rewrite Rabs_mult. apply Rmult_le_compat; [apply Rabs_pos|apply Rabs_pos| |].
    - unfold Rminus at 1. eapply Rle_trans; [apply Rabs_triang|]. rewrite Rabs_Ropp. pose proof (proj2 (H1 m Hm)). pose proof (proj2 (H1' m Hm)). lra.
    - rewrite Rabs_mult, (Rabs_right (mass m)) by lra. unfold Rdiv. rewrite !Rmult_1_l, <- Rmult_plus_distr_l. apply Rmult_le_compat_l; [lra|].
      unfold Rabs. destruct (Rcase_abs _); lra. }
  assert (A4 : (dq + dq') * (VV' + VV) <= (dq + dq') * (2 * V + dv + dv')).
  { apply Rmult_le_compat_l; [lra|]. apply Rabs_le_between in H2. apply Rabs_le_between in H2'. lra. }
  assert (A5 : total n (fun m => ((1 / T m - b) - (1 / T' m - b')) * (mass m * (E m (rho' m) (T' m) - E m (rho m) (T m)))) <=
     (db + db') * total n (fun m => mass m * Rabs (E m (rho' m) (T' m) - E m (rho m) (T m)))).
  { rewrite <- total_scal. apply total_le. intros m Hm. destruct (HM m Hm) as (M1 & M2 & M3).
    eapply Rle_trans; [apply Rle_abs|]. rewrite !Rabs_mult, (Rabs_right (mass m)) by lra. apply Rmult_le_compat_r; [apply Rmult_le_pos; [lra|apply Rabs_pos]|].
    unfold Rminus at 1. eapply Rle_trans; [apply Rabs_triang|]. rewrite Rabs_Ropp. pose proof (proj1 (H1 m Hm)). pose proof (proj1 (H1' m Hm)). lra. }
  lra.
Qed.

Lemma chain n (f : nat -> R) tol : (forall k, (S k < n)%nat -> Rabs (f (S k) - f k) < tol) -> forall m, (m < n)%nat -> Rabs (f m - f 0%nat) <= INR m * tol.
Proof.
  intros H. induction m as [|m IH]; intros Hm; [rewrite Rminus_diag_eq, Rabs_R0 by reflexivity; cbn; lra|].
  specialize (IH ltac:(lia)). pose proof (H m Hm). rewrite S_INR. replace (f (S m) - f 0%nat) with ((f (S m) - f m) + (f m - f 0%nat)) by ring.
  eapply Rle_trans; [apply Rabs_triang|]. lra.
Qed.

(** A converged density-energy run is a near equilibrium for the volume and the energy it returns (the energy need not be the one asked
    for, C61): the inverse temperatures and the ratios of pressure to temperature agree as the tolerances say. *)
Theorem C91_RhoU_converged_is_near_equilibrium : forall n eos vfrac_total sie_total (params : MixParams RArith) lin s0 st sf Tmin,
  good_rhou n eos vfrac_total params s0 -> same_pressures n eos ->
  @PTESolver RArith pst ratio (RhoU_system n eos vfrac_total sie_total params lin) s0 = (st, sf) -> converged st = true -> slow_convergence_detected st = false ->
  0 < Tmin -> (forall m, (m < n)%nat -> Tmin <= temp sf m /\ tiny <= vfrac sf m /\ e_rt (eos m) (rho sf m) (t_re (eos m) (rho sf m) (sie sf m)) = sie sf m) ->
  let mass m := rho s0 m * vfrac s0 m in
  exists tol_p tol_t, 0 <= tol_p /\ 0 <= tol_t /\
    (tol_p = pte_rel_tolerance_p params * Rabs (total n (fun m => vfrac sf m * press sf m)) \/
     tol_p = pte_abs_tolerance_p params * Rmax (Rabs (total n mass * sie_total)) (1 / 100000000000000)) /\
    (tol_t = pte_rel_tolerance_t params * (total n (fun m => mass m * temp sf m) / total n mass) \/
     tol_t = pte_abs_tolerance_t params * Tnorm (InitBase n eos vfrac_total sie_total params s0)) /\
    let db := INR n * tol_t / (Tmin * Tmin) in let dq := INR n * tol_p / Tmin + Rabs (press sf 0%nat) * db in
    (forall m, (m < n)%nat -> 0 < mass m /\ 0 < rho sf m /\ 0 < temp sf m) /\
    near_equilibrium_each n (P_ eos) (E_ eos) mass (total n (vfrac sf)) (total n (fun m => mass m * sie sf m)) db dq 0 0
      (rho sf) (temp sf) (1 / temp sf 0%nat) (press sf 0%nat / temp sf 0%nat).
Proof.
  intros n eos vt sie_total params lin s0 st sf Tmin G SP E HC HS HT HX. cbv zeta.
  pose proof (C34_RhoU_returned_state n eos vt sie_total params lin s0 st sf G E) as R0.
  destruct (C37_RhoU_converged_means_equilibrium n eos vt sie_total params lin s0 st sf G E HC HS) as ((tp & TP & HP) & (tt & TT & HTT)). cbv zeta in TP, TT.
  repeat rewrite rsum_total in TP. repeat rewrite rsum_total in TT. pose proof (gu_n _ _ _ _ _ G) as N2. pose proof tiny_pos as TI.
  assert (P0 : 0 <= tp) by (pose proof (HP 0%nat ltac:(lia)); pose proof (Rabs_pos (press sf 1%nat - press sf 0%nat)); lra).
  assert (T0 : 0 <= tt) by (pose proof (HTT 0%nat ltac:(lia)); pose proof (Rabs_pos (temp sf 1%nat - temp sf 0%nat)); lra).
  exists tp, tt. split; [exact P0|]. split; [exact T0|]. split; [exact TP|]. split; [exact TT|].
  assert (ST : forall m, (m < n)%nat -> 0 < temp sf m /\ 0 < rho sf m /\ rho sf m * vfrac sf m = rho s0 m * vfrac s0 m /\
    sie sf m = e_rt (eos m) (rho sf m) (temp sf m) /\ press sf m = p_rt (eos m) (rho sf m) (temp sf m)).
  { intros m Hm. destruct (HX m Hm) as (X1 & X2 & X3). destruct (R0 m Hm) as (Q1 & _ & Q3 & Q4 & Q5 & Q6 & Q7). specialize (Q4 X2).
    assert (E1 : sie sf m = e_rt (eos m) (rho sf m) (temp sf m)) by (destruct Q6 as [->|Q6]; [reflexivity|rewrite Q6, X3; reflexivity]).
    assert (0 < temp sf m) by lra. repeat (split; [assumption|]). rewrite Q7, E1. apply (preferred n); assumption. }
  assert (Ti : 0 < / Tmin) by (apply Rinv_0_lt_compat; lra).
  assert (TI1 : forall m, (m < n)%nat -> 0 < / temp sf m <= / Tmin).
  { intros m Hm. destruct (HX m Hm) as (X1 & _). split; [apply Rinv_0_lt_compat; lra|apply Rinv_le_contravar; lra]. }
  assert (IN : forall m, (m < n)%nat -> 0 <= INR m <= INR n) by (intros m Hm; split; [apply pos_INR|apply le_INR; lia]).
  assert (DB : forall m, (m < n)%nat -> Rabs (1 / temp sf m - 1 / temp sf 0%nat) <= INR n * tt / (Tmin * Tmin)).
  { intros m Hm. destruct (ST m Hm) as (X1 & _). destruct (ST 0%nat ltac:(lia)) as (Y1 & _).
    replace (1 / temp sf m - 1 / temp sf 0%nat) with (- (temp sf m - temp sf 0%nat) * (/ temp sf m * / temp sf 0%nat)) by (field; lra).
    destruct (TI1 m Hm) as (Z1 & Z2). destruct (TI1 0%nat ltac:(lia)) as (Z3 & Z4).
    rewrite Rabs_mult, Rabs_Ropp. replace (INR n * tt / (Tmin * Tmin)) with (INR n * tt * (/ Tmin * / Tmin)) by (field; lra).
    apply Rmult_le_compat; try apply Rabs_pos.
    - eapply Rle_trans; [apply (chain n (temp sf) tt HTT m Hm)|]. apply Rmult_le_compat_r; [exact T0|apply IN, Hm].
    - rewrite Rabs_right by (apply Rle_ge, Rmult_le_pos; lra). apply Rmult_le_compat; lra. }
  split; [|split; [|split]].
  - intros m Hm. destruct (ST m Hm) as (X1 & X2 & X3 & _). split; [pose proof (gu_mass _ _ _ _ _ G m Hm); lra|]. auto.
  - intros m Hm. split; [apply DB, Hm|]. destruct (ST m Hm) as (X1 & _ & _ & _ & X5). unfold P_. rewrite <- X5. destruct (ST 0%nat ltac:(lia)) as (Y1 & _).
    replace (press sf m / temp sf m - press sf 0%nat / temp sf 0%nat) with ((press sf m - press sf 0%nat) * / temp sf m + press sf 0%nat * (1 / temp sf m - 1 / temp sf 0%nat)) by (field; lra).
    eapply Rle_trans; [apply Rabs_triang|]. apply Rplus_le_compat; rewrite Rabs_mult.
    + destruct (TI1 m Hm) as (Z1 & Z2). unfold Rdiv. rewrite (Rabs_right (/ temp sf m)) by lra. apply Rmult_le_compat; [apply Rabs_pos|lra| |exact Z2].
      eapply Rle_trans; [apply (chain n (press sf) tp HP m Hm)|]. apply Rmult_le_compat_r; [exact P0|apply IN, Hm].
    + apply Rmult_le_compat_l; [apply Rabs_pos|apply DB, Hm].
  - rewrite (total_ext n _ (vfrac sf)); [rewrite Rminus_diag_eq, Rabs_R0 by reflexivity; lra|]. intros m Hm. destruct (ST m Hm) as (X1 & X2 & X3 & _). rewrite <- X3. field. lra.
  - rewrite (total_ext n _ (fun m => rho s0 m * vfrac s0 m * sie sf m)); [rewrite Rminus_diag_eq, Rabs_R0 by reflexivity; lra|].
    intros m Hm. destruct (ST m Hm) as (_ & _ & _ & X4 & _). unfold E_. rewrite <- X4. reflexivity.
Qed.

(** two converged runs on the same masses, whatever their volumes, energies, starting values, tolerances and linear solvers: the states are
    as close as the volumes and energies they return and their tolerances *)
Theorem C91_RhoU_runs_agree : forall n eos vt vt' sie_total sie_total' (params params' : MixParams RArith) lin lin' s0 s0' st st' sf sf' Tmin,
  good_rhou n eos vt params s0 -> good_rhou n eos vt' params' s0' -> (forall m, (m < n)%nat -> rho s0' m * vfrac s0' m = rho s0 m * vfrac s0 m) -> same_pressures n eos ->
  @PTESolver RArith pst ratio (RhoU_system n eos vt sie_total params lin) s0 = (st, sf) -> converged st = true -> slow_convergence_detected st = false ->
  @PTESolver RArith pst ratio (RhoU_system n eos vt' sie_total' params' lin') s0' = (st', sf') -> converged st' = true -> slow_convergence_detected st' = false ->
  0 < Tmin ->
  (forall m, (m < n)%nat -> Tmin <= temp sf m /\ tiny <= vfrac sf m /\ e_rt (eos m) (rho sf m) (t_re (eos m) (rho sf m) (sie sf m)) = sie sf m) ->
  (forall m, (m < n)%nat -> Tmin <= temp sf' m /\ tiny <= vfrac sf' m /\ e_rt (eos m) (rho sf' m) (t_re (eos m) (rho sf' m) (sie sf' m)) = sie sf' m) ->
  let mass m := rho s0 m * vfrac s0 m in
  let energy s := total n (fun m => mass m * sie s m) in let volume s := total n (vfrac s) in
  exists tol_p tol_t tol_p' tol_t',
    (tol_p = pte_rel_tolerance_p params * Rabs (total n (fun m => vfrac sf m * press sf m)) \/
     tol_p = pte_abs_tolerance_p params * Rmax (Rabs (total n mass * sie_total)) (1 / 100000000000000)) /\
    (tol_t = pte_rel_tolerance_t params * (total n (fun m => mass m * temp sf m) / total n mass) \/
     tol_t = pte_abs_tolerance_t params * Tnorm (InitBase n eos vt sie_total params s0)) /\
    (tol_p' = pte_rel_tolerance_p params' * Rabs (total n (fun m => vfrac sf' m * press sf' m)) \/
     tol_p' = pte_abs_tolerance_p params' * Rmax (Rabs (total n mass * sie_total')) (1 / 100000000000000)) /\
    (tol_t' = pte_rel_tolerance_t params' * (total n (fun m => mass m * temp sf' m) / total n mass) \/
     tol_t' = pte_abs_tolerance_t params' * Tnorm (InitBase n eos vt' sie_total' params' s0')) /\
    let db := INR n * tol_t / (Tmin * Tmin) in let dq := INR n * tol_p / Tmin + Rabs (press sf 0%nat) * db in
    let db' := INR n * tol_t' / (Tmin * Tmin) in let dq' := INR n * tol_p' / Tmin + Rabs (press sf' 0%nat) * db' in
    total n (fun m => mass m * gap (P_ eos m) (E_ eos m) (rho sf m) (temp sf m) (rho sf' m) (temp sf' m)) <=
      Rabs (1 / temp sf 0%nat - 1 / temp sf' 0%nat) * Rabs (energy sf' - energy sf) +
      Rabs (press sf 0%nat / temp sf 0%nat - press sf' 0%nat / temp sf' 0%nat) * Rabs (volume sf' - volume sf) +
      (dq + dq') * (2 * volume sf + Rabs (volume sf' - volume sf)) + (db + db') * total n (fun m => mass m * Rabs (sie sf' m - sie sf m)).
Proof.
  intros n eos vt vt' sie_total sie_total' params params' lin lin' s0 s0' st st' sf sf' Tmin G G' EM SP E HC HS E' HC' HS' HT HX HX'. cbv zeta.
  destruct (C91_RhoU_converged_is_near_equilibrium n eos vt sie_total params lin s0 st sf Tmin G SP E HC HS HT HX) as (tp & tt & P0 & T0 & TP & TT & HM & N).
  destruct (C91_RhoU_converged_is_near_equilibrium n eos vt' sie_total' params' lin' s0' st' sf' Tmin G' SP E' HC' HS' HT HX') as (tp' & tt' & P0' & T0' & TP' & TT' & HM' & N').
  cbv zeta in N, N', TP, TP', TT, TT'.
  rewrite (total_ext n (fun m => rho s0' m * vfrac s0' m) (fun m => rho s0 m * vfrac s0 m) EM) in TP', TT'.
  rewrite (total_ext n (fun m => rho s0' m * vfrac s0' m * temp sf' m) (fun m => rho s0 m * vfrac s0 m * temp sf' m)) in TT' by (intros m Hm; rewrite EM by exact Hm; reflexivity).
  exists tp, tt, tp', tt'. repeat (split; [assumption|]).
  set (mass := fun m => rho s0 m * vfrac s0 m) in *.
  assert (SI : forall m, (m < n)%nat -> sie sf m = E_ eos m (rho sf m) (temp sf m) /\ sie sf' m = E_ eos m (rho sf' m) (temp sf' m)).
  { intros m Hm. destruct (C34_RhoU_returned_state n eos vt sie_total params lin s0 st sf G E m Hm) as (_ & _ & _ & _ & _ & Q & _).
    destruct (C34_RhoU_returned_state n eos vt' sie_total' params' lin' s0' st' sf' G' E' m Hm) as (_ & _ & _ & _ & _ & Q' & _).
    destruct (HX m Hm) as (_ & _ & X). destruct (HX' m Hm) as (_ & _ & X'). unfold E_. split; [destruct Q as [->|Q]|destruct Q' as [->|Q']]; try reflexivity; [rewrite Q, X|rewrite Q', X']; reflexivity. }
  assert (EE : total n (fun m => rho s0 m * vfrac s0 m * Rabs (sie sf' m - sie sf m)) = total n (fun m => mass m * Rabs (E_ eos m (rho sf' m) (temp sf' m) - E_ eos m (rho sf m) (temp sf m))))
    by (apply total_ext; intros m Hm; destruct (SI m Hm) as [-> ->]; reflexivity).
  rewrite EE.
  set (db := INR n * tt / (Tmin * Tmin)) in *. set (dq := INR n * tp / Tmin + Rabs (press sf 0%nat) * db) in *.
  set (db' := INR n * tt' / (Tmin * Tmin)) in *. set (dq' := INR n * tp' / Tmin + Rabs (press sf' 0%nat) * db') in *.
  set (V := total n (vfrac sf)) in *. set (V' := total n (vfrac sf')) in *. set (U := total n (fun m => mass m * sie sf m)) in *. set (U' := total n (fun m => mass m * sie sf' m)) in *.
  assert (IN : 0 <= INR n) by apply pos_INR.
  assert (QD : 0 <= db /\ 0 <= db').
  { unfold db, db'. assert (0 < / (Tmin * Tmin)) by (apply Rinv_0_lt_compat; nra). split; apply Rmult_le_pos; try lra; apply Rmult_le_pos; assumption. }
  assert (Qp : 0 <= dq /\ 0 <= dq').
  { unfold dq, dq'. assert (0 < / Tmin) by (apply Rinv_0_lt_compat; lra). split; apply Rplus_le_le_0_compat; try (apply Rmult_le_pos; [apply Rabs_pos|apply QD]);
    (apply Rmult_le_pos; [apply Rmult_le_pos; assumption|lra]). }
  assert (N2 : near_equilibrium_each n (P_ eos) (E_ eos) mass V U db' dq' (Rabs (V' - V)) (Rabs (U' - U)) (rho sf') (temp sf') (1 / temp sf' 0%nat) (press sf' 0%nat / temp sf' 0%nat)).
  { destruct N' as (N1 & N2 & N3).
    assert (N2x : Rabs (total n (fun m => mass m / rho sf' m) - V') <= 0).
    { eapply Rle_trans; [right|exact N2]. f_equal. f_equal. apply total_ext. intros m Hm. unfold mass. cbv beta. rewrite EM by exact Hm. reflexivity. }
    assert (N3x : Rabs (total n (fun m => mass m * E_ eos m (rho sf' m) (temp sf' m)) - U') <= 0).
    { eapply Rle_trans; [right|exact N3]. f_equal. f_equal; apply total_ext; intros m Hm; unfold mass; cbv beta; rewrite EM by exact Hm; reflexivity. }
    clear N2 N3. split; [exact N1|].
    assert (Z : forall x, Rabs x <= 0 -> x = 0) by (intros x Hx; apply Rabs_le_between in Hx; lra).
    apply Z in N2x. apply Z in N3x. split; right; f_equal; lra. }
  pose proof (C91_near_equilibria_each_agree n (P_ eos) (E_ eos) mass V U db dq 0 0 (rho sf) (temp sf) _ _ db' dq' _ _ (rho sf') (temp sf') _ _
    ltac:(intros m Hm; destruct (HM m Hm) as (? & ? & _); destruct (HM' m Hm) as (_ & ? & _); auto) (proj1 Qp) (proj2 Qp) N N2) as C.
  rewrite !Rplus_0_l, !Rplus_0_r in C. exact C.
Qed.

(** non-vacuity: a run of two gases that converges; its state meets the hypotheses of C91_RhoU_converged_is_near_equilibrium *)
Example C91_RhoU_nonvacuous : exists st sf, (forall lin, @PTESolver RArith pst ratio (RhoU_system 2 reos 1 150 wpar lin) rst = (st, sf)) /\
  good_rhou 2 reos 1 wpar rst /\ same_pressures 2 reos /\ converged st = true /\ slow_convergence_detected st = false /\
  forall m, (m < 2)%nat -> 100 <= temp sf m /\ tiny <= vfrac sf m /\ e_rt (reos m) (rho sf m) (t_re (reos m) (rho sf m) (sie sf m)) = sie sf m.
Proof.
  pose proof rgas_init as HI. cbv zeta in HI. destruct HI as (C1 & EU & ET & ER & H).
  pose proof (rgas_try _ C1 EU ET ER H) as HT. cbv zeta in HT.
  change (TryIdealPTE 2 reos 1 4 (ru_Residual 2 1) (ru_Residual 2 1 (InitBase 2 reos 1 150 wpar rst))) with (fst (ru_Init 2 reos 1 150 wpar rst)) in HT.
  destruct (ru_Init 2 reos 1 150 wpar rst) as [s1 e1] eqn:EI. cbn [fst] in HT. destruct HT as [HE HC].
  assert (RUN : forall lin, @PTESolver RArith pst ratio (RhoU_system 2 reos 1 150 wpar lin) rst = (mkStatus RArith true false 0 0 0 e1, base_Finalize 2 s1)).
  { intros lin. apply (C35_converged_initial_guess_untouched (A := RArith) ratio (RhoU_system 2 reos 1 150 wpar lin) rst s1 e1); [exact EI|cbn; lia|exact HC]. }
  assert (G : good_rhou 2 reos 1 wpar rst) by apply C34_ex_RhoU.
  do 2 eexists. split; [exact RUN|]. split; [exact G|]. split.
  { intros m r T _ Hr HT. cbn. rewrite Rmax_right by lra. ring. }
  split; [reflexivity|]. split; [reflexivity|].
  intros m Hm. destruct (HE m Hm) as [E1 E2]. change (sie (base_Finalize 2 s1)) with (sie s1). change (vfrac (base_Finalize 2 s1)) with (vfrac s1).
  pose proof (C34_RhoU_returned_state 2 reos 1 150 wpar (fun _ _ _ => fun _ => 0) rst _ _ G (RUN _) m Hm) as (_ & _ & _ & _ & T0 & Q & _).
  change (sie (base_Finalize 2 s1)) with (sie s1) in Q. rewrite E1 in Q |- *. rewrite E2. cbn [reos rgas e_rt t_re] in Q |- *.
  pose proof tiny_lt_1. assert (tiny <= 1 / 2) by (pose proof tiny_small_half; lra).
  rewrite Rmax_right in * by lra. split; [lra|]. split; [assumption|lra].
Qed.
Print Assumptions C91_near_equilibria_each_agree.
Print Assumptions C91_RhoU_converged_is_near_equilibrium.
Print Assumptions C91_RhoU_runs_agree.
