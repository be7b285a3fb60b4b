(** C15: default inversions of the EOS base class *)
From Coq Require Import Reals ZArith Bool Lra Lia Floats.
From Flocq Require Import Core.
From Coquelicot Require Import Coquelicot.
From Verif Require Import Arith RootFinding_Model RootFinding_Proofs Robust_Model Robust_Proofs BaseDefaults_Model.
Local Open Scope R_scope.

Lemma EPS_lt : EPS < /1000.
Proof.
  unfold EPS. assert (bpow radix2 (-52) <= bpow radix2 (-20)) by (apply bpow_le; lia).
  assert (bpow radix2 (-20) = / 1048576) by (simpl; lra). lra.
Qed.

(** *** DensityEnergyFromPressureTemperature *)
Definition rho_lo {L} (e : @eos RArith L) (temp : R) : R := Rmax (RhoPmin e temp) (MinDensity e).
Lemma amax_Rmax a b : @amax RArith a b = Rmax a b.
Proof.
  unfold amax. cbn [ltb RArith]. destruct (Rlt_bool_spec a b); [rewrite Rmax_right; lra|rewrite Rmax_left; lra].
Qed.

(** the value used to start the search is strictly inside the bounds, and a valid caller guess is used unchanged *)
Theorem C15_density_guess_inside_bounds : forall rhomin rhomax rho : R, rhomin < rhomax ->
  rhomin < @rho_guess RArith rhomin rhomax rho < rhomax /\
  (rhomin < rho < rhomax -> @rho_guess RArith rhomin rhomax rho = rho).
Proof.
  intros lo hi rho H. unfold rho_guess, lit. cbn [num leb ltb mul add ofQ RArith].
  destruct (Rle_bool_spec rho lo); destruct (Rle_bool_spec hi rho); cbn [orb];
    try (destruct (Rlt_bool_spec lo (12/1)); destruct (Rlt_bool_spec (12/1) hi); cbn [andb]); split; try lra; intros; lra.
Qed.

(** On SUCCESS: the density is within the bounds, the energy is the forward energy at that density, and the requested
    pressure is reproduced within the relative tolerance, or an exact solution lies within EPS of the density
    (pressure continuous in density; the bounds are not closer than 2 EPS and the upper one at least 3 EPS). *)
Theorem C15_DensityEnergyFromPT_success :
  forall (L : Type) (e : @eos RArith L) (press temp : R) (lam : L) (rho0 rho sie : R),
    2 * EPS <= MaxDensity e - rho_lo e temp -> 3 * EPS <= MaxDensity e ->
    (forall r, rho_lo e temp <= r <= MaxDensity e -> continuity_pt (fun r => PofT e r temp lam) r) ->
    @DensityEnergyFromPT RArith _ EPS e press temp lam rho0 = Some (SUCCESS, rho, sie) ->
    rho_lo e temp <= rho <= MaxDensity e /\
    sie = EofT e rho temp lam /\
    (Rabs (PofT e rho temp lam - press) <= EPS * (Rabs (PofT e rho temp lam) + EPS) \/
     exists r, rho_lo e temp <= r <= MaxDensity e /\ Rabs (rho - r) < EPS /\ PofT e r temp lam = press).
Proof.
  intros L e press temp lam rho0 rho sie H1 H2 HC H. unfold DensityEnergyFromPT in H. rewrite amax_Rmax in H.
  fold (rho_lo e temp) in H. cbn [ltb num RArith] in H.
  destruct (Rlt_bool_spec (rho_lo e temp) (MaxDensity e)) as [HL|HL]; [|discriminate].
  destruct (findRoot _ _ _ _ _ _ _ _) as [st r] eqn:E in H. injection H as -> -> <-.
  assert (HE := EPS_pos). assert (H3 : rho_lo e temp + 2 * EPS <= MaxDensity e) by lra.
  destruct (findRoot_success _ _ _ _ _ _ _ _ _ HE H2 H3 HE E) as [B1 B2].
  split; [exact B1|]. split; [reflexivity|]. destruct B2 as [B2|(u & v & U1 & U2 & U3 & U4 & U5)]; [left; exact B2|].
  right. destruct (sign_change_root (fun z => PofT e z temp lam - press) u v ltac:(lra)) as (r & Hr & Hr0); [|exact U5|].
  { intros z Hz. apply continuity_pt_minus; [apply (HC z); lra|]. apply continuity_pt_const. intros p q; reflexivity. }
  exists r. split; [lra|]. split; [apply Rabs_def1; lra|lra].
Qed.

(** even when the search reports failure, the density is within the bounds in exact arithmetic and the energy is the
    forward energy at the returned density (so the pair is always a state of the EOS) *)
Theorem C15_DensityEnergyFromPT_any_status :
  forall (L : Type) (e : @eos RArith L) (press temp : R) (lam : L) (rho0 rho sie : R) st,
    2 * EPS <= MaxDensity e - rho_lo e temp -> 3 * EPS <= MaxDensity e ->
    @DensityEnergyFromPT RArith _ EPS e press temp lam rho0 = Some (st, rho, sie) ->
    rho_lo e temp <= rho <= MaxDensity e /\ sie = EofT e rho temp lam.
Proof.
  intros L e press temp lam rho0 rho sie st H1 H2 H. unfold DensityEnergyFromPT in H. rewrite amax_Rmax in H.
  fold (rho_lo e temp) in H. cbn [ltb num RArith] in H. assert (HE := EPS_pos). assert (H3 : rho_lo e temp + 2 * EPS <= MaxDensity e) by lra.
  destruct (Rlt_bool_spec (rho_lo e temp) (MaxDensity e)) as [HL|HL]; [|discriminate].
  destruct (findRoot _ _ _ _ _ _ _ _) as [st' r] eqn:E in H. injection H as -> -> <-. split; [|reflexivity].
  destruct st; [exact (proj1 (findRoot_success _ _ _ _ _ _ _ _ _ HE H2 H3 HE E))|].
  exact (findRoot_fail_bounds _ _ _ _ _ _ _ _ _ HE H2 H3 E).
Qed.

(** ... but not in binary64: the comment "density will at least be within bounds" is false.  P = (rho-12)^2 + 1, target 1:
    the default guess 12 is the exact root, the secant slope is 0/0, and the caller's density -5 comes back. *)
Definition parab_eos : @eos FArith unit :=
  mkEos (A := FArith) (fun r _ _ => ((r - 12) * (r - 12) + 1)%float) (fun r _ _ => r) (fun r _ _ => r) (fun _ => 0%float) 0%float 100%float 0%float.
Theorem C57_DensityEnergyFromPT_bounds_refuted :
  match @DensityEnergyFromPT FArith _ 1e-12%float parab_eos 1%float 300%float tt (-5)%float with
  | Some (FAIL, r, _) => PrimFloat.eqb r (-5) | _ => false end = true.
Proof. vm_compute. reflexivity. Qed.

(** non-vacuity: an EOS meeting the hypotheses on which the inversion succeeds *)
Example C15_DensityEnergyFromPT_nonvacuous :
  let e := mkEos (A := RArith) (fun r t (_ : unit) => r) (fun r s _ => r) (fun r t _ => t) (fun _ => 0) 0 2 0 in
  2 * EPS <= MaxDensity e - rho_lo e 1 /\ 3 * EPS <= MaxDensity e /\
  @DensityEnergyFromPT RArith _ EPS e 2 1 tt 1 = Some (SUCCESS, 2, 1).
Proof.
  cbv zeta. assert (H := EPS_lt). assert (HE := EPS_pos). unfold rho_lo. cbn [RhoPmin MinDensity MaxDensity]. rewrite Rmax_left by lra.
  split; [lra|]. split; [lra|]. unfold DensityEnergyFromPT. rewrite amax_Rmax. cbn [RhoPmin MinDensity MaxDensity PofT EofT].
  rewrite Rmax_left by lra. cbn [ltb num RArith]. rewrite Rlt_bool_true by lra.
  unfold findRoot. cbn [absn sub add div ltb num RArith].
  rewrite (Rlt_bool_true (Rabs (2 - 2) / (Rabs 2 + EPS)) EPS); [reflexivity|].
  replace (2 - 2) with 0 by lra. rewrite Rabs_R0. unfold Rdiv. rewrite Rmult_0_l. exact HE.
Qed.

(** *** InternalEnergyFromDensityPressure *)
Definition sie_lo {L} (null : L) (e : @eos RArith L) (rho : R) : R := EofT e rho (MinTemperature e) null.
Definition sie_hi {L} (null : L) (e : @eos RArith L) (rho : R) : R := EofT e rho 1e20 null.
Lemma lit1e20 : IZR 100000000000000000000 / 1 = 1e20.
Proof. lra. Qed.

(** On SUCCESS, when the caller's energy is inside (sie_lo, sie_hi) and the target pressure lies between the pressures
    at the ends: the result is in [sie_lo, sie_hi], an exact solution r lies in the final bracket [u,v] around the result,
    and the result is within EPS of r or the pressure at an end of that bracket is within EPS of P. *)
Theorem C15_IEFromDensityPressure_success :
  forall (L : Type) (null : L) (e : @eos RArith L) (rho P sie0 : R) (lam : L) (sie : R),
    let f := fun s => PofE e rho s lam in
    sie_lo null e rho < sie0 < sie_hi null e rho ->
    (f (sie_lo null e rho) <= P <= f (sie_hi null e rho) \/ f (sie_hi null e rho) <= P <= f (sie_lo null e rho)) ->
    (forall s, sie_lo null e rho <= s <= sie_hi null e rho -> continuity_pt f s) ->
    @IEFromDensityPressure RArith _ null EPS e rho P sie0 lam = Some (SUCCESS, sie) ->
    sie_lo null e rho <= sie <= sie_hi null e rho /\
    exists u v r, sie_lo null e rho <= u /\ u <= r <= v /\ v <= sie_hi null e rho /\ u <= sie <= v /\ f r = P /\
      (Rabs (sie - r) <= EPS \/
       Rmin (Rabs (f u - P)) (Rabs (f v - P)) <= EPS).
Proof.
  intros L null e rho P sie0 lam sie f H1 H2 HC H. unfold IEFromDensityPressure in H.
  cbn [num ltb mul add ofQ RArith] in H. rewrite lit1e20 in H. fold (sie_lo null e rho) (sie_hi null e rho) in H.
  rewrite !Rlt_bool_true in H by lra. cbn [andb] in H.
  destruct (regula_falsi _ _ _ _ _ _ _) as [|st [x|] n] eqn:E in H; try discriminate H.
  2: { exfalso. injection H as -> ->.
       unfold regula_falsi, regula_falsi_fuel in E. destruct (rf_bracket _ _ _ _) as [[[[? ?] ?] ?]|] eqn:EB; [|discriminate E].
       destruct (rf_loop _ _ _ _ _ _); discriminate E. }
  injection H as -> ->. assert (HE := EPS_pos).
  apply (rf_root_near (fun s => PofE e rho s lam) P (1 / 2 * (sie_lo null e rho + sie_hi null e rho)) _ _ EPS EPS sie n);
    [lra|lra|lra|exact HC| |exact E].
  set (m := 1 / 2 * _). change (((f (sie_lo null e rho) - P) * (f m - P) <= 0) \/ ((f m - P) * (f (sie_hi null e rho) - P) <= 0)).
  clearbody m f. destruct (Rle_dec (f m) P) as [Hm|Hm]; destruct H2 as [[A B]|[A B]].
  - right. assert (0 <= (P - f m) * (f (sie_hi null e rho) - P)) by (apply Rmult_le_pos; lra). lra.
  - left. assert (0 <= (f (sie_lo null e rho) - P) * (P - f m)) by (apply Rmult_le_pos; lra). lra.
  - left. assert (0 <= (P - f (sie_lo null e rho)) * (f m - P)) by (apply Rmult_le_pos; lra). lra.
  - right. assert (0 <= (f m - P) * (P - f (sie_hi null e rho))) by (apply Rmult_le_pos; lra). lra.
Qed.

(** always terminates: never diverges in exact arithmetic, for any EOS and any input *)
Theorem C15_IEFromDensityPressure_terminates :
  forall (L : Type) (null : L) (e : @eos RArith L) (rho P sie0 : R) (lam : L),
    exists st sie, @IEFromDensityPressure RArith _ null EPS e rho P sie0 lam = Some (st, sie).
Proof.
  intros. unfold IEFromDensityPressure.
  destruct (regula_falsi _ _ _ _ _ _ _) as [|st [x|] n] eqn:E; eauto.
  exfalso. revert E. apply (regula_falsi_terminates (A := RArith)). apply eq_width_stops_R. apply Rlt_le, EPS_pos.
Qed.

(** Refuted ("allow for initial guesses"): every valid guess is ignored; the test is inverted. *)
Theorem C57_valid_guess_is_ignored_refuted :
  forall (L : Type) (null : L) (e : @eos RArith L) (rho P s1 s2 : R) (lam : L) sie st,
    sie_lo null e rho < s1 < sie_hi null e rho -> sie_lo null e rho < s2 < sie_hi null e rho ->
    @IEFromDensityPressure RArith _ null EPS e rho P s1 lam = Some (st, sie) -> 
    @IEFromDensityPressure RArith _ null EPS e rho P s2 lam = Some (st, sie) \/
    (st = FAIL /\ @IEFromDensityPressure RArith _ null EPS e rho P s2 lam = Some (st, s2)).
Proof.
  intros L null e rho P s1 s2 lam sie st H1 H2. unfold IEFromDensityPressure.
  cbn [num ltb mul add ofQ RArith]. rewrite lit1e20. fold (sie_lo null e rho) (sie_hi null e rho).
  rewrite !Rlt_bool_true by lra. cbn [andb].
  destruct (regula_falsi _ _ _ _ _ _ _) as [|st' [x|] n] eqn:E; intros H; try discriminate.
  - left. exact H.
  - injection H as -> ->. right. split; [|reflexivity].
    unfold regula_falsi, regula_falsi_fuel in E. destruct (rf_bracket _ _ _ _) as [[[[? ?] ?] ?]|] eqn:EB.
    + destruct (rf_loop _ _ _ _ _ _); discriminate E.
    + injection E as <-. reflexivity.
Qed.
(** ... and an out-of-range value is used as is: with binary64 and the guess 4 an exact solution inside the range exists
    at 0.25, but the routine reports SUCCESS with an energy outside [sie_min, sie_max] = [0, 1]. *)
Definition branch_eos : @eos FArith unit :=
  mkEos (A := FArith) (fun r _ _ => r) (fun _ s _ => (if PrimFloat.ltb s 0.75 then s - 0.25 else s - 3)%float)
        (fun _ t _ => if PrimFloat.ltb 1 t then 1%float else 0%float) (fun _ => 0%float) 0%float 100%float 0%float.
Theorem C57_bad_guess_leaves_range_refuted :
  match @IEFromDensityPressure FArith _ tt 1e-12%float branch_eos 1%float 0%float 4%float tt with
  | Some (SUCCESS, x) => PrimFloat.ltb 1 x | _ => false end = true.
Proof. vm_compute. reflexivity. Qed.

(** the no-guess overload is the guess overload started from the midpoint *)
Theorem C15_noguess_overload : forall (L : Type) (null : L) (e : @eos RArith L) rho P lam s,
  sie_lo null e rho < s < sie_hi null e rho ->
  forall sie, @IEFromDensityPressure_noguess RArith _ null EPS e rho P lam = Some (SUCCESS, sie) ->
  @IEFromDensityPressure RArith _ null EPS e rho P s lam = Some (SUCCESS, sie).
Proof.
  intros L null e rho P lam s Hs sie H.
  unfold IEFromDensityPressure_noguess in H. cbn [num mul add ofQ RArith] in H. rewrite lit1e20 in H.
  fold (sie_lo null e rho) (sie_hi null e rho) in H.
  assert (Hm : sie_lo null e rho < 1 / 2 * (sie_lo null e rho + sie_hi null e rho) < sie_hi null e rho) by lra.
  destruct (C57_valid_guess_is_ignored_refuted L null e rho P _ s lam _ _ Hm Hs H) as [H'|[H' _]]; [exact H'|discriminate].
Qed.

(** MinInternalEnergyFromDensity default = cold energy, but lambda is dropped *)
Theorem C15_default_minimum_energy : forall (L : Type) (null : L) (e : @eos RArith L) rho lam,
  @MinInternalEnergy RArith _ null e rho lam = EofT e rho 0 null.
Proof. intros. unfold MinInternalEnergy, lit. cbn [ofQ RArith]. f_equal. lra. Qed.
Theorem C57_default_minimum_energy_lambda_refuted :
  exists (e : @eos RArith R) rho lam, @MinInternalEnergy RArith _ 0 e rho lam <> EofT e rho 0 lam.
Proof.
  exists (mkEos (A := RArith) (fun r _ _ => r) (fun r _ _ => r) (fun _ _ l => l) (fun _ => 0) 0 1 0), 1, 5.
  unfold MinInternalEnergy. cbn. lra.
Qed.

(** *** finite-difference PT derivatives *)
(** The pressure step is never zero, moves towards zero pressure; the temperature step is positive. *)
Theorem C15_fd_steps : forall eps P T, 0 < eps ->
  Rabs (fd_dP eps P) >= EPS /\ (0 <= P -> fd_dP eps P < 0) /\ (P < 0 -> 0 < fd_dP eps P) /\ EPS <= fd_dT eps T /\
  (EPS / eps <= Rabs P -> Rabs (fd_dP eps P) = eps * Rabs P) /\ (EPS / eps <= Rabs T -> fd_dT eps T = eps * Rabs T).
Proof.
  intros eps P T He. assert (HE := EPS_pos).
  assert (HQ : 0 < EPS / eps) by (apply Rdiv_lt_0_compat; lra).
  assert (HX : forall x, EPS <= Rmax (Rabs x) (EPS / eps) * eps).
  { intros x. pose proof (Rmax_r (Rabs x) (EPS / eps)) as M.
    replace EPS with (EPS / eps * eps) at 1 by (field; lra). apply Rmult_le_compat_r; lra. }
  pose proof (HX P) as HP. pose proof (HX T) as HT. unfold fd_dP, fd_dT, fd_absP.
  assert (ES : Rabs (- sgn P * Rmax (Rabs P) (EPS / eps) * eps) = Rmax (Rabs P) (EPS / eps) * eps).
  { destruct (sgn_cases P) as [[_ ->]|[_ ->]].
    - replace (- (1) * Rmax (Rabs P) (EPS / eps) * eps) with (- (Rmax (Rabs P) (EPS / eps) * eps)) by ring. rewrite Rabs_Ropp. apply Rabs_right. lra.
    - replace (- (-1) * Rmax (Rabs P) (EPS / eps) * eps) with (Rmax (Rabs P) (EPS / eps) * eps) by ring. apply Rabs_right. lra. }
  rewrite ES. repeat split; try lra.
  - intros H. destruct (sgn_cases P) as [[_ ->]|[H' ->]]; lra.
  - intros H. destruct (sgn_cases P) as [[H' ->]|[_ ->]]; lra.
  - intros H. rewrite Rmax_left by lra. ring.
  - intros H. rewrite Rmax_left by lra. ring.
Qed.

Lemma not_tiny_EPS x : EPS <= Rabs x -> not_tiny x.
Proof.
  intros H. apply (not_tiny_ge _ EPS); [|exact H]. unfold EPS.
  assert (bpow radix2 (-960) <= bpow radix2 (-52)) by (apply bpow_le; lia). pose proof (bpow_gt_0 radix2 (-52)). lra.
Qed.

(** Accuracy: if the inversion is exact, i.e. returns rho(P,T), e(P,T) differentiable along the step, each reported
    derivative is the true partial derivative at a point of the step. *)
Theorem C15_fd_mean_value : forall (rhoPT ePT : R -> R -> R) (drP deP drT deT : R -> R -> R) eps P T garbage,
  0 < eps ->
  (forall p t, is_derive (fun p => rhoPT p t) p (drP p t)) -> (forall p t, is_derive (fun p => ePT p t) p (deP p t)) ->
  (forall p t, is_derive (fun t => rhoPT p t) t (drT p t)) -> (forall p t, is_derive (fun t => ePT p t) t (deT p t)) ->
  let d := PTDerivativesByFiniteDifferences (fun p t _ => (rhoPT p t, ePT p t)) (rhoPT P T) (ePT P T) P T eps garbage in
  exists p1 p2 t1 t2,
    Rabs (p1 - P) <= Rabs (fd_dP eps P) /\ Rabs (p2 - P) <= Rabs (fd_dP eps P) /\
    Rabs (t1 - T) <= fd_dT eps T /\ Rabs (t2 - T) <= fd_dT eps T /\
    drdP_T d = drP p1 T /\ dedP_T d = deP p2 T /\ drdT_P d = drT P t1 /\ dedT_P d = deT P t2.
Proof.
  intros rhoPT ePT drP deP drT deT eps P T garbage He H1 H2 H3 H4 d.
  destruct (C15_fd_steps eps P T He) as (S1 & _ & _ & S2 & _). assert (HE := EPS_pos).
  assert (HM : forall (f df : R -> R) x h, (forall x, is_derive f x (df x)) -> EPS <= Rabs h ->
     exists y, Rabs (y - x) <= Rabs h /\ ratio (f (x + h) - f x) h = df y).
  { intros f df x h Hd Hh. destruct (MVT_gen f x (x + h) df) as [y [Hy Ey]].
    - intros z _. apply Hd.
    - intros z _. apply derivable_continuous_pt. exists (df z). apply is_derive_Reals, Hd.
    - exists y. split.
      + unfold Rmin, Rmax in Hy. destruct (Rle_dec x (x + h)); unfold Rabs; destruct (Rcase_abs (y - x)); destruct (Rcase_abs h); lra.
      + assert (Hn : h <> 0) by (intros ->; rewrite Rabs_R0 in Hh; lra).
        rewrite ratio_eq by (apply not_tiny_EPS; exact Hh). rewrite Ey. field. exact Hn. }
  destruct (HM (fun p => rhoPT p T) (fun p => drP p T) P (fd_dP eps P) (fun p => H1 p T) ltac:(lra)) as [p1 [A1 B1]].
  destruct (HM (fun p => ePT p T) (fun p => deP p T) P (fd_dP eps P) (fun p => H2 p T) ltac:(lra)) as [p2 [A2 B2]].
  assert (HT : Rabs (fd_dT eps T) = fd_dT eps T) by (apply Rabs_right; lra).
  destruct (HM (fun t => rhoPT P t) (fun t => drT P t) T (fd_dT eps T) (fun t => H3 P t) ltac:(lra)) as [t1 [A3 B3]].
  destruct (HM (fun t => ePT P t) (fun t => deT P t) T (fd_dT eps T) (fun t => H4 P t) ltac:(lra)) as [t2 [A4 B4]].
  rewrite HT in A3, A4. exists p1, p2, t1, t2. unfold d, PTDerivativesByFiniteDifferences. cbv zeta.
  cbn [drdP_T dedP_T drdT_P dedT_P]. auto 10.
Qed.
Example C15_fd_instance :
  let d := PTDerivativesByFiniteDifferences (fun p t _ => (2 * p + 3 * t, t - p)) 8 1 1 2 derivative_eps 0 in
  drdP_T d = 2 /\ dedP_T d = -1 /\ drdT_P d = 3 /\ dedT_P d = 1.
Proof.
  cbv zeta. unfold derivative_eps. destruct (C15_fd_steps (3/1000000) 1 2 ltac:(lra)) as (S1 & S3 & _ & S2 & _). assert (HE := EPS_pos).
  specialize (S3 ltac:(lra)).
  unfold PTDerivativesByFiniteDifferences. cbv zeta. cbn [drdP_T dedP_T drdT_P dedT_P].
  rewrite !ratio_eq by (apply not_tiny_EPS; try rewrite (Rabs_right (fd_dT _ _)); lra).
  repeat split; field; lra.
Qed.

(** Refuted: the derivatives are a function of the state.  r_pert is read uninitialised as the density guess; with an
    inversion that honours its guess (two density branches) the reported derivative depends on it. *)
Theorem C57_fd_uninitialised_guess_refuted :
  exists (inv : R -> R -> R -> R * R) rho sie P T g1 g2,
    (forall p t g, fst (inv p t g) * fst (inv p t g) = 1) /\ rho * rho = 1 /\
    drdP_T (PTDerivativesByFiniteDifferences inv rho sie P T derivative_eps g1) <>
    drdP_T (PTDerivativesByFiniteDifferences inv rho sie P T derivative_eps g2).
Proof.
  exists (fun p t g => (sgn g, t)), 1, 1, 1, 1, 1, (-1). unfold derivative_eps. split; [|split; [lra|]].
  { intros p t g. cbn [fst]. destruct (sgn_cases g) as [[_ ->]|[_ ->]]; ring. }
  destruct (C15_fd_steps (3/1000000) 1 1 ltac:(lra)) as (S1 & S3 & _). assert (HE := EPS_pos). specialize (S3 ltac:(lra)).
  unfold PTDerivativesByFiniteDifferences. cbv zeta. cbn [drdP_T].
  rewrite !ratio_eq by (apply not_tiny_EPS; lra).
  replace (sgn 1) with 1 by (destruct (sgn_cases 1) as [[_ ->]|[H _]]; lra).
  replace (sgn (-1)) with (-1) by (destruct (sgn_cases (-1)) as [[H _]|[_ ->]]; lra).
  intros H. replace ((1 - 1) / fd_dP (3 / 1000000) 1) with 0 in H by (field; lra).
  assert (H' : (-1 - 1) / fd_dP (3 / 1000000) 1 * fd_dP (3 / 1000000) 1 = -2) by (field; lra).
  rewrite <- H, Rmult_0_l in H'. lra.
Qed.

Print Assumptions C15_density_guess_inside_bounds.
Print Assumptions C15_DensityEnergyFromPT_success.
Print Assumptions C15_DensityEnergyFromPT_any_status.
Print Assumptions C57_DensityEnergyFromPT_bounds_refuted.
Print Assumptions C15_IEFromDensityPressure_success.
Print Assumptions C15_IEFromDensityPressure_terminates.
Print Assumptions C57_valid_guess_is_ignored_refuted.
Print Assumptions C57_bad_guess_leaves_range_refuted.
Print Assumptions C15_noguess_overload.
Print Assumptions C15_default_minimum_energy.
Print Assumptions C57_default_minimum_energy_lambda_refuted.
Print Assumptions C15_fd_steps.
Print Assumptions C15_fd_mean_value.
Print Assumptions C57_fd_uninitialised_guess_refuted.
