(** C24: Davis reactants *)
From Coq Require Import Reals Bool Lra Lia List Psatz.
From Flocq Require Import Core.
From Coquelicot Require Import Coquelicot.
From Verif Require Import Arith RootFinding_Model RootFinding_Proofs Robust_Model Robust_Proofs Thermo_Spec Thermo_Tools DavisReactants_Model.
Local Open Scope R_scope.

Definition admissible (g : reactants) : Prop :=
  (exists r0 e0 p0 t0 a b c g0 z al cv A Z, g = ctor r0 e0 p0 t0 a b c g0 z al cv A Z) /\
  tiny < rho0 g /\ tiny <= 4 * B g /\ 0 <= alpha g /\ 0 < Cv0 g /\ 0 < T0 g.
(** densities at which none of the computed denominators is denormal-like *)
Definition ok_rho (g : reactants) (rho : R) : Prop :=
  tiny < rho /\ tiny < (rho0 g / rho) ^ 4 /\ tiny < (rho0 g / rho) ^ 5 /\ tiny < Ts g rho /\ tiny < Ts g rho * Cv0 g.

Section D.
Variable g : reactants.
Hypothesis Hr0 : tiny < rho0 g.
Hypothesis HB : tiny <= 4 * B g.
Hypothesis Hal : 0 <= alpha g.
Hypothesis HCv : 0 < Cv0 g.
Hypothesis HT0 : 0 < T0 g.
Hypothesis Hsp : spvol0 g = 1 / rho0 g.
Hypothesis Hip : i1pa g = 1 / (1 + alpha g).
Notation phat := (1 / 4 * A2oB g * rho0 g).
Notation y r := (1 - rho0 g / r).
Notation u r := (4 * B g * (1 - rho0 g / r)).
Notation P_e := (PressureFromDensityInternalEnergy g).
Notation P_T := (PressureFromDensityTemperature g).
Notation E_T := (InternalEnergyFromDensityTemperature g).
Notation T_e := (TemperatureFromDensityInternalEnergy g).
Notation B_e := (BulkModulusFromDensityInternalEnergy g).
Notation C_e := (SpecificHeatFromDensityInternalEnergy g).

Definition PsH r := phat * (u r + u r ^ 2 / 2 + u r ^ 3 / 6 + C g * u r ^ 4 / 24 + y r ^ 2 / (rho0 g / r) ^ 4).
Definition PsL r := phat * (exp (u r) - 1).
Definition EsH r := e0 g + P0 g * (1 / rho0 g - 1 / r) +
  phat / rho0 g * (1 / (4 * B g) * (u r ^ 2 / 2 + u r ^ 3 / 6 + u r ^ 4 / 24 + C g * u r ^ 5 / 120) + (r / rho0 g - 1) ^ 3 / 3).
Definition EsL r := e0 g + P0 g * (1 / rho0 g - 1 / r) + phat / rho0 g * (- y r - (1 - exp (u r)) / (4 * B g)).
Lemma Bpos : 0 < B g. Proof. pose proof tiny_pos. lra. Qed.
Lemma r0pos : 0 < rho0 g. Proof. pose proof tiny_pos. lra. Qed.
Lemma y_sign r : 0 < r -> (0 < y r <-> rho0 g < r).
Proof.
  intros H. pose proof r0pos. split; intros K.
  - apply Rmult_lt_reg_r with (/ r); [pos|]. rewrite Rinv_r by lra. unfold Rdiv in K. lra.
  - apply Rmult_lt_compat_r with (r := / r) in K; [|pos]. rewrite Rinv_r in K by lra. unfold Rdiv. lra.
Qed.
Lemma Ps_eq r : tiny < r -> tiny < (rho0 g / r) ^ 4 -> Ps g r = if Rle_bool (rho0 g) r then PsH r else PsL r.
Proof.
  intros H H4. pose proof tiny_pos. unfold Ps. rewrite (Rle_bool_false r 0) by lra. rewrite Rmax_left by lra. rewrite (ratio_pos (rho0 g)) by lra. cbv zeta.
  destruct (Rle_bool (rho0 g) r); [|reflexivity].
  replace (1 - (1 - rho0 g / r)) with (rho0 g / r) by ring. rewrite ratio_pos by lra. unfold PsH, onethird. field. pose proof r0pos. lra.
Qed.
Lemma Es_eq r : tiny < r -> Es g r = if Rle_bool r (rho0 g) then EsL r else EsH r.
Proof.
  intros H. pose proof tiny_pos. pose proof r0pos. pose proof Bpos. unfold Es. rewrite (Rle_bool_false r 0) by lra. rewrite Rmax_left by lra.
  rewrite (ratio_pos (rho0 g)), (ratio_pos 1) by lra. cbv zeta. rewrite Hsp.
  destruct (Rle_bool_spec r (rho0 g)) as [L|L].
  - rewrite Rlt_bool_false by (apply Rnot_lt_le; intros K; apply (proj1 (y_sign r ltac:(lra))) in K; lra). rewrite ratio_pos by lra. unfold EsL. field. lra.
  - rewrite Rlt_bool_true by (apply (proj2 (y_sign r ltac:(lra))); lra). unfold EsH, onethird. field. lra.
Qed.
Definition Tc r := T0 g * exp (- Z g * y r) * Rpower (rho0 g / r) (- G0 g - Z g).
Lemma Ts_eq r : tiny < r -> Ts g r = Tc r.
Proof.
  intros H. pose proof tiny_pos. unfold Ts. rewrite (Rle_bool_false r 0) by lra. rewrite Rmax_left by lra. rewrite ratio_pos by lra. cbv zeta.
  unfold cpow. rewrite Rlt_bool_true; [reflexivity|]. apply Rdiv_lt_0_compat; [apply r0pos|lra].
Qed.
Lemma Tc_pos r : 0 < Tc r.
Proof. unfold Tc, Rpower. pos. Qed.
Lemma Gamma_eq r : tiny < r -> Gamma g r = if Rle_bool (rho0 g) r then G0 g + Z g * y r else G0 g.
Proof. intros H. pose proof tiny_pos. unfold Gamma. rewrite Rmax_left by lra. rewrite ratio_pos by lra. reflexivity. Qed.
(** *** round trips *)
Lemma E_T_eq r T : tiny < r -> tiny < Ts g r -> E_T r T = Es g r + Cv0 g * Ts g r / (1 + alpha g) * (cpow (T / Ts g r) (1 + alpha g) - 1).
Proof. intros H H2. unfold InternalEnergyFromDensityTemperature. cbv zeta. rewrite ratio_pos by lra. rewrite Hip. field. lra. Qed.
Lemma cpow_0 z : cpow 0 z = 0.
Proof. unfold cpow. rewrite Rlt_bool_false by lra. reflexivity. Qed.
Lemma cpow_pos x z : 0 < x -> cpow x z = Rpower x z.
Proof. intros H. unfold cpow. rewrite Rlt_bool_true by exact H. reflexivity. Qed.
Lemma DE_eq r T : ok_rho g r -> DimlessEdiff g r (E_T r T) = cpow (T / Ts g r) (1 + alpha g).
Proof.
  intros (H1 & _ & _ & H2 & H3). pose proof tiny_pos. rewrite E_T_eq by assumption. unfold DimlessEdiff. rewrite ratio_pos by lra. field. lra.
Qed.
Lemma round_T r T : ok_rho g r -> 0 <= T -> T_e r (E_T r T) = T.
Proof.
  intros H HT. assert (H' := H). destruct H' as (H1 & _ & _ & H2 & _). pose proof tiny_pos. unfold TemperatureFromDensityInternalEnergy. cbv zeta. rewrite DE_eq by exact H.
  destruct HT as [HT| <-].
  - assert (Hq : 0 < T / Ts g r) by (apply Rdiv_lt_0_compat; lra). rewrite cpow_pos by exact Hq. rewrite Rle_bool_false by apply exp_pos.
    rewrite cpow_pos by apply exp_pos. rewrite Rpower_mult. rewrite Hip. replace ((1 + alpha g) * (1 / (1 + alpha g))) with 1 by (field; lra).
    rewrite Rpower_1 by exact Hq. field. lra.
  - replace (0 / Ts g r) with 0 by (unfold Rdiv; ring). rewrite cpow_0. rewrite Rle_bool_true by lra. reflexivity.
Qed.
Lemma round_e r e : ok_rho g r -> MinInternalEnergyFromDensity g r <= e -> E_T r (T_e r e) = e.
Proof.
  intros H He. assert (H' := H). destruct H' as (H1 & _ & _ & H2 & H3). pose proof tiny_pos.
  assert (ED : DimlessEdiff g r e = (1 + alpha g) / (Ts g r * Cv0 g) * (e - Es g r) + 1) by (unfold DimlessEdiff; rewrite ratio_pos by lra; reflexivity).
  assert (EE : e = Es g r + Cv0 g * Ts g r / (1 + alpha g) * (DimlessEdiff g r e - 1)) by (rewrite ED; field; lra).
  unfold MinInternalEnergyFromDensity in He. rewrite Hip in He.
  assert (D0 : 0 <= DimlessEdiff g r e).
  { rewrite ED. assert (HH : 0 <= (1 + alpha g) / (Ts g r * Cv0 g) * (e - (Es g r - Cv0 g * Ts g r * (1 / (1 + alpha g))))).
    { apply Rmult_le_pos; [|lra]. apply Rlt_le, Rdiv_lt_0_compat; lra. }
    replace ((1 + alpha g) / (Ts g r * Cv0 g) * (e - (Es g r - Cv0 g * Ts g r * (1 / (1 + alpha g))))) with ((1 + alpha g) / (Ts g r * Cv0 g) * (e - Es g r) + 1) in HH by (field; lra).
    exact HH. }
  rewrite E_T_eq by assumption. rewrite EE at 2. f_equal. f_equal. f_equal. unfold TemperatureFromDensityInternalEnergy. cbv zeta.
  destruct D0 as [D0|D0].
  - rewrite Rle_bool_false by exact D0. rewrite (cpow_pos (DimlessEdiff g r e)) by exact D0.
    replace (Ts g r * Rpower (DimlessEdiff g r e) (i1pa g) / Ts g r) with (Rpower (DimlessEdiff g r e) (i1pa g)) by (field; lra).
    rewrite cpow_pos by apply exp_pos. rewrite Rpower_mult, Hip. replace (1 / (1 + alpha g) * (1 + alpha g)) with 1 by (field; lra). apply Rpower_1. exact D0.
  - rewrite <- D0. rewrite Rle_bool_true by lra. replace (0 / Ts g r) with 0 by (unfold Rdiv; ring). apply cpow_0.
Qed.
Lemma min_is_cold r : ok_rho g r -> MinInternalEnergyFromDensity g r = E_T r 0.
Proof.
  intros (H1 & _ & _ & H2 & _). pose proof tiny_pos. rewrite E_T_eq by assumption. replace (0 / Ts g r) with 0 by (unfold Rdiv; ring). rewrite cpow_0.
  unfold MinInternalEnergyFromDensity. rewrite Hip. field. lra.
Qed.
(** *** derivatives *)
Lemma Rpower_derive_id x z : 0 < x -> is_derive (fun t => Rpower t z) x (z * Rpower x (z - 1)).
Proof.
  intros H. unfold Rpower. auto_derive; [exact H|].
  replace (exp ((z - 1) * ln x)) with (exp (z * ln x) * / x); [ring|].
  replace ((z - 1) * ln x) with (z * ln x + - ln x) by ring. rewrite exp_plus, exp_Ropp, exp_ln by exact H. reflexivity.
Qed.
Lemma aff (f : R -> R) x d a c : is_derive f x d -> is_derive (fun t => a + c * (f t - 1)) x (c * d).
Proof.
  intros D. pose proof (is_derive_unique _ _ _ D) as U. change (fun x => f x) with f in U. auto_derive; [eexists; exact D|].
  change (fun x => f x) with f. rewrite U. ring.
Qed.
Lemma aff3 (f h k : R -> R) x df dh dk c : is_derive f x df -> is_derive h x dh -> is_derive k x dk ->
  is_derive (fun t => f t + c * h t / (1 + alpha g) * (k t - 1)) x (df + c * dh / (1 + alpha g) * (k x - 1) + c * h x / (1 + alpha g) * dk).
Proof.
  intros D1 D2 D3. pose proof (is_derive_unique _ _ _ D1) as U1. pose proof (is_derive_unique _ _ _ D2) as U2. pose proof (is_derive_unique _ _ _ D3) as U3.
  change (fun x => f x) with f in U1. change (fun x => h x) with h in U2. change (fun x => k x) with k in U3.
  auto_derive; [repeat split; eexists; eassumption|]. change (fun x => f x) with f. change (fun x => h x) with h. change (fun x => k x) with k. rewrite U1, U2, U3. field. lra.
Qed.
Lemma cv_derive r T : ok_rho g r -> 0 < T -> tiny <= Rpower (Rpower (T / Ts g r) (1 + alpha g)) (- alpha g * i1pa g) ->
  is_derive (fun t => E_T r t) T (C_e r (E_T r T)).
Proof.
  intros H HT Hd. assert (H' := H). destruct H' as (H1 & _ & _ & H2 & _). pose proof tiny_pos. assert (Hq : 0 < T / Ts g r) by (apply Rdiv_lt_0_compat; lra).
  unfold SpecificHeatFromDensityInternalEnergy. cbv zeta. rewrite DE_eq by exact H. rewrite cpow_pos by exact Hq. rewrite Rle_bool_false by apply exp_pos.
  rewrite cpow_pos by apply exp_pos. rewrite ratio_pos by exact Hd. rewrite Rpower_mult.
  replace ((1 + alpha g) * (- alpha g * i1pa g)) with (- alpha g) by (rewrite Hip; field; lra). rewrite Rpower_Ropp.
  assert (NZ : Rpower (T / Ts g r) (alpha g) <> 0) by (apply Rgt_not_eq, exp_pos).
  apply (derive_loc _ (fun t => Es g r + Cv0 g * Ts g r / (1 + alpha g) * (Rpower (t / Ts g r) (1 + alpha g) - 1))).
  - apply (loc_imp _ (fun t => 0 < t)); [|apply loc_gt, HT]. intros t Ht. rewrite E_T_eq by assumption. rewrite cpow_pos by (apply Rdiv_lt_0_compat; lra). reflexivity.
  - pose proof (Rpower_derive_id (T / Ts g r) (1 + alpha g) Hq) as D. replace (1 + alpha g - 1) with (alpha g) in D by ring.
    assert (D2 : is_derive (fun t => Rpower (t / Ts g r) (1 + alpha g)) T (/ Ts g r * ((1 + alpha g) * Rpower (T / Ts g r) (alpha g)))).
    { apply (is_derive_comp (fun z => Rpower z (1 + alpha g)) (fun t => t / Ts g r) T); [exact D|]. auto_derive; [exact I|]. field. lra. }
    apply (is_derive_eq _ _ _ _ (aff _ _ _ (Es g r) (Cv0 g * Ts g r / (1 + alpha g)) D2)). field. lra.
Qed.
Lemma Tc_derive r : 0 < r -> is_derive Tc r (Tc r * (G0 g + Z g * y r) / r).
Proof.
  intros H. pose proof r0pos. unfold Tc, Rpower. auto_derive.
  - repeat split; try lra. apply Rdiv_lt_0_compat; lra.
  - unfold Rdiv, Rminus. field. lra.
Qed.
Definition dPsH r := phat * (rho0 g / r ^ 2) * (4 * B g * (1 + u r + u r ^ 2 / 2 + C g * u r ^ 3 / 6) + 2 * y r / (rho0 g / r) ^ 4 + 4 * y r ^ 2 / (rho0 g / r) ^ 5).
Definition dPsL r := phat * (rho0 g / r ^ 2) * (4 * B g * exp (u r)).
Lemma PsH_derive r : 0 < r -> is_derive PsH r (dPsH r).
Proof.
  intros H. pose proof r0pos. unfold PsH, dPsH. auto_derive.
  - repeat split; try lra. rewrite Rmult_1_r. repeat (apply Rmult_integral_contrapositive; split); apply Rgt_not_eq; unfold Rdiv; pos.
  - field. lra.
Qed.
Lemma PsL_derive r : 0 < r -> is_derive PsL r (dPsL r).
Proof. intros H. unfold PsL, dPsL. auto_derive; [repeat split; lra|]. unfold Rdiv, Rminus. field. lra. Qed.
Lemma EsH_derive r : 0 < r -> is_derive EsH r ((PsH r + P0 g) / r ^ 2).
Proof.
  intros H. pose proof r0pos. pose proof Bpos. unfold EsH, PsH. auto_derive.
  - repeat split; lra.
  - field. lra.
Qed.
Lemma EsL_derive r : 0 < r -> is_derive EsL r ((PsL r + P0 g) / r ^ 2).
Proof. intros H. pose proof r0pos. pose proof Bpos. unfold EsL, PsL. auto_derive; [repeat split; lra|]. unfold Rdiv, Rminus. field. lra. Qed.
Lemma ok_loc r : ok_rho g r -> locally r (fun z => ok_rho g z).
Proof.
  intros (H1 & H2 & H3 & H4 & H5). pose proof tiny_pos. pose proof r0pos. unfold ok_rho.
  assert (L : locally r (fun z => tiny < z)) by (apply loc_gt, H1).
  assert (LT : locally r (fun z => Ts g z = Tc z)) by (apply (loc_imp _ (fun z => tiny < z)); [intros; apply Ts_eq; assumption|exact L]).
  assert (CT : continuous Tc r) by (eapply derive_cont; apply Tc_derive; lra).
  rewrite Ts_eq in H4, H5 by exact H1.
  apply loc_and; [exact L|]. apply loc_and; [apply (loc_gt_f (fun z => (rho0 g / z) ^ 4)); [eapply derive_cont; auto_derive; [lra|reflexivity]|exact H2]|].
  apply loc_and; [apply (loc_gt_f (fun z => (rho0 g / z) ^ 5)); [eapply derive_cont; auto_derive; [lra|reflexivity]|exact H3]|].
  pose proof (loc_gt_f Tc tiny r CT H4) as K1.
  pose proof (loc_gt_f (fun z => Tc z * Cv0 g) tiny r) as K2.
  apply loc_and.
  - generalize (loc_and r _ _ LT K1). apply loc_imp. intros z (-> & Z2). exact Z2.
  - assert (K3 : continuous (fun z => Tc z * Cv0 g) r). { eapply derive_cont. apply (is_derive_ext (fun z => Cv0 g * Tc z)); [intros; apply Rmult_comm|]. apply is_derive_scal. apply Tc_derive. lra. }
    generalize (loc_and r _ _ LT (K2 K3 H5)). apply loc_imp. intros z (-> & Z2). exact Z2.
Qed.
Lemma Ps_derive r : ok_rho g r -> r <> rho0 g -> is_derive (Ps g) r (if Rle_bool (rho0 g) r then dPsH r else dPsL r).
Proof.
  intros H Hn. pose proof (ok_loc r H) as L. destruct H as (H1 & H2 & _). pose proof tiny_pos.
  destruct (Rle_bool_spec (rho0 g) r) as [K|K].
  - apply (derive_loc _ PsH); [|apply PsH_derive; lra]. generalize (loc_and r _ _ L (loc_gt (rho0 g) r ltac:(lra))). apply loc_imp.
    intros z ((Z1 & Z2 & _) & Z3). rewrite Ps_eq by assumption. rewrite Rle_bool_true by lra. reflexivity.
  - apply (derive_loc _ PsL); [|apply PsL_derive; lra]. generalize (loc_and r _ _ L (loc_lt (rho0 g) r K)). apply loc_imp.
    intros z ((Z1 & Z2 & _) & Z3). rewrite Ps_eq by assumption. rewrite Rle_bool_false by lra. reflexivity.
Qed.
Lemma Es_derive r : ok_rho g r -> r <> rho0 g -> is_derive (Es g) r ((Ps g r + P0 g) / r ^ 2).
Proof.
  intros H Hn. pose proof (ok_loc r H) as L. assert (H' := H). destruct H' as (H1 & H2 & _). pose proof tiny_pos. rewrite Ps_eq by assumption.
  destruct (Rle_bool_spec (rho0 g) r) as [K|K].
  - apply (derive_loc _ EsH); [|apply EsH_derive; lra]. generalize (loc_and r _ _ L (loc_gt (rho0 g) r ltac:(lra))). apply loc_imp.
    intros z ((Z1 & Z2 & _) & Z3). rewrite Es_eq by assumption. rewrite Rle_bool_false by lra. reflexivity.
  - apply (derive_loc _ EsL); [|apply EsL_derive; lra]. generalize (loc_and r _ _ L (loc_lt (rho0 g) r K)). apply loc_imp.
    intros z ((Z1 & Z2 & _) & Z3). rewrite Es_eq by assumption. rewrite Rle_bool_true by lra. reflexivity.
Qed.
Lemma Gamma_derive r : ok_rho g r -> r <> rho0 g -> is_derive (Gamma g) r (if Rle_bool (rho0 g) r then Z g * (rho0 g / r ^ 2) else 0).
Proof.
  intros H Hn. pose proof (ok_loc r H) as L. assert (H' := H). destruct H' as (H1 & _). pose proof tiny_pos.
  destruct (Rle_bool_spec (rho0 g) r) as [K|K].
  - apply (derive_loc _ (fun z => G0 g + Z g * y z)).
    + generalize (loc_and r _ _ L (loc_gt (rho0 g) r ltac:(lra))). apply loc_imp. intros z ((Z1 & _) & Z3). rewrite Gamma_eq by assumption. rewrite Rle_bool_true by lra. reflexivity.
    + auto_derive; [lra|]. field. lra.
  - apply (derive_loc _ (fun z => G0 g)).
    + generalize (loc_and r _ _ L (loc_lt (rho0 g) r K)). apply loc_imp. intros z ((Z1 & _) & Z3). rewrite Gamma_eq by assumption. rewrite Rle_bool_false by lra. reflexivity.
    + auto_derive; [exact I|reflexivity].
Qed.
Lemma dP_de r e : is_derive (fun s => P_e r s) e (Gamma g r * r).
Proof. unfold PressureFromDensityInternalEnergy. auto_derive; [exact I|ring]. Qed.
Definition gprime r := if Rle_bool (rho0 g) r then Z g * (rho0 g / r ^ 2) else 0.
Definition psprime r := if Rle_bool (rho0 g) r then dPsH r else dPsL r.
Lemma dP_dr r e : ok_rho g r -> r <> rho0 g ->
  is_derive (fun z => P_e z e) r (psprime r + (gprime r * r + Gamma g r) * (e - Es g r) - Gamma g r * r * ((Ps g r + P0 g) / r ^ 2)).
Proof.
  intros H Hn. assert (D1 : is_derive (Ps g) r (psprime r)) by exact (Ps_derive r H Hn). pose proof (Es_derive r H Hn) as D2. assert (D3 : is_derive (Gamma g) r (gprime r)) by exact (Gamma_derive r H Hn).
  set (de := (Ps g r + P0 g) / r ^ 2) in *.
  pose proof (is_derive_unique _ _ _ D1) as U1. pose proof (is_derive_unique _ _ _ D2) as U2. pose proof (is_derive_unique _ _ _ D3) as U3.
  unfold PressureFromDensityInternalEnergy. auto_derive.
  - repeat split; eexists; eassumption.
  - change (Derive (fun x => Ps g x) r) with (Derive (Ps g) r). change (Derive (fun x => Es g x) r) with (Derive (Es g) r). change (Derive (fun x => Gamma g x) r) with (Derive (Gamma g) r).
    rewrite U1, U2, U3. ring.
Qed.
(** what the computed bulk modulus exceeds the isentropic one by *)
Definition excess r : R := Gamma g r * P0 g + (if Rle_bool (rho0 g) r then phat * (rho0 g / r) * (y r / (rho0 g / r) ^ 4) else 0).
Lemma bmod_excess r e : ok_rho g r -> r <> rho0 g -> is_bulk_modulus P_e r e (B_e r e - excess r).
Proof.
  intros H Hn. eexists _, _. refine (conj (dP_dr r e H Hn) (conj (dP_de r e) _)).
  destruct H as (H1 & H2 & H3 & _). pose proof tiny_pos. pose proof r0pos.
  unfold BulkModulusFromDensityInternalEnergy, excess, psprime, gprime, PressureFromDensityInternalEnergy, dPsH, dPsL. rewrite Rmax_left by lra.
  rewrite (ratio_pos _ r) by lra. rewrite (ratio_pos _ r) by lra. cbv zeta. replace (1 - (1 - rho0 g / r)) with (rho0 g / r) by ring. unfold onethird.
  rewrite (ratio_pos _ ((rho0 g / r) ^ 4)), (ratio_pos _ ((rho0 g / r) ^ 5)) by lra.
  destruct (Rle_bool_spec (rho0 g) r) as [K|K]; unfold Rdiv; field; lra.
Qed.
(** *** pressure as a function of (rho,T) *)
Lemma PofRatT_eq T r : P_T r T = PofRatT g T r.
Proof. unfold PressureFromDensityTemperature, PressureFromDensityInternalEnergy, InternalEnergyFromDensityTemperature, PofRatT. cbv zeta. ring. Qed.
Lemma PofRatT_cont T r : ok_rho g r -> 0 < T -> continuous (PofRatT g T) r.
Proof.
  intros H HT. pose proof (ok_loc r H) as L. assert (H' := H). destruct H' as (H1 & H2 & H3 & H4 & H5). pose proof tiny_pos as Ht. pose proof r0pos as Hr.
  assert (C1 : continuous (fun z => if Rle_bool (rho0 g) z then PsH z else PsL z) r).
  { apply cont_glue; [eapply derive_cont; apply PsH_derive; lra|eapply derive_cont; apply PsL_derive; lra|].
    unfold PsH, PsL. replace (1 - rho0 g / rho0 g) with 0 by (field; lra). rewrite Rmult_0_r, exp_0. unfold Rdiv. ring. }
  assert (C2 : continuous (fun z => if Rle_bool (rho0 g) z then G0 g + Z g * y z else G0 g) r).
  { apply cont_glue; [eapply derive_cont; auto_derive; [lra|reflexivity]|apply continuous_const|]. field. lra. }
  assert (C3 : continuous Tc r) by (eapply derive_cont; apply Tc_derive; lra).
  assert (C4 : continuous (fun z => Rpower (T / Tc z) (1 + alpha g)) r).
  { eapply derive_cont. unfold Rpower. pose proof (Tc_derive r ltac:(lra)) as D. pose proof (Tc_pos r). auto_derive; [|reflexivity].
    refine (conj _ (conj _ (conj _ I))); [eexists; exact D|lra|apply Rdiv_lt_0_compat; lra]. }
  apply (cont_loc _ (fun z => (if Rle_bool (rho0 g) z then PsH z else PsL z) + (if Rle_bool (rho0 g) z then G0 g + Z g * y z else G0 g) * z * Cv0 g * Tc z * i1pa g * (Rpower (T / Tc z) (1 + alpha g) - 1))).
  - revert L. apply loc_imp. intros z (Z1 & Z2 & Z3 & Z4 & _). unfold PofRatT. rewrite Ps_eq, Gamma_eq by assumption. rewrite ratio_pos by lra.
    rewrite Ts_eq by assumption. rewrite cpow_pos by (apply Rdiv_lt_0_compat; [lra|apply Tc_pos]). reflexivity.
  - apply (continuous_plus (V := R_NormedModule)); [exact C1|].
    apply (continuous_mult (K := R_AbsRing)); [|apply (continuous_minus (V := R_NormedModule)); [exact C4|apply continuous_const]].
    apply (continuous_mult (K := R_AbsRing)); [|apply continuous_const]. apply (continuous_mult (K := R_AbsRing)); [|exact C3].
    apply (continuous_mult (K := R_AbsRing)); [|apply continuous_const]. apply (continuous_mult (K := R_AbsRing)); [exact C2|apply continuous_id].
Qed.
End D.
Ltac adm H := let X := fresh in assert (X := H); destruct X as ((? & ? & ? & ? & ? & ? & ? & ? & ? & ? & ? & ? & ? & ->) & ? & ? & ? & ? & ?).

(** ** C24 (reactants) *)
Theorem C24_reactants_round_trip : forall g rho, admissible g -> ok_rho g rho ->
  (forall T, 0 <= T -> TemperatureFromDensityInternalEnergy g rho (InternalEnergyFromDensityTemperature g rho T) = T) /\
  (forall e, MinInternalEnergyFromDensity g rho <= e -> InternalEnergyFromDensityTemperature g rho (TemperatureFromDensityInternalEnergy g rho e) = e) /\
  MinInternalEnergyFromDensity g rho = InternalEnergyFromDensityTemperature g rho 0 /\
  (forall e, e <= MinInternalEnergyFromDensity g rho -> TemperatureFromDensityInternalEnergy g rho e = 0).
Proof.
  intros g rho HA Hr. adm HA. refine (conj _ (conj _ (conj _ _))).
  - intros T HT. apply round_T; auto.
  - intros e He. apply round_e; auto.
  - apply min_is_cold; auto.
  - intros e He. destruct Hr as (R1 & _ & _ & R2 & R3). pose proof tiny_pos. unfold TemperatureFromDensityInternalEnergy. cbv zeta. rewrite Rle_bool_true; [reflexivity|].
    unfold DimlessEdiff. rewrite ratio_pos by lra. unfold MinInternalEnergyFromDensity in He.
    match goal with He : e <= Es ?gg _ - _ |- _ => set (g := gg) in * end.
    assert (Hal : 0 <= alpha g) by assumption. assert (Hcv : 0 < Cv0 g) by assumption.
    change (i1pa g) with (1 / (1 + alpha g)) in He.
    apply Rmult_le_compat_l with (r := (1 + alpha g) / (Ts g rho * Cv0 g)) in He; [|apply Rlt_le, Rdiv_lt_0_compat; lra].
    replace ((1 + alpha g) / (Ts g rho * Cv0 g) * (Es g rho - Cv0 g * Ts g rho * (1 / (1 + alpha g)))) with ((1 + alpha g) / (Ts g rho * Cv0 g) * Es g rho - 1) in He by (field; lra). lra.
Qed.
Theorem C24_reactants_entry_points_agree : forall g rho T,
  PressureFromDensityTemperature g rho T = PressureFromDensityInternalEnergy g rho (InternalEnergyFromDensityTemperature g rho T) /\
  BulkModulusFromDensityTemperature g rho T = BulkModulusFromDensityInternalEnergy g rho (InternalEnergyFromDensityTemperature g rho T) /\
  SpecificHeatFromDensityTemperature g rho T = SpecificHeatFromDensityInternalEnergy g rho (InternalEnergyFromDensityTemperature g rho T) /\
  forall e, GruneisenParamFromDensityTemperature g rho T = GruneisenParamFromDensityInternalEnergy g rho e.
Proof. intros. repeat split. Qed.
Theorem C24_reactants_derivatives : forall g rho e T, admissible g -> ok_rho g rho -> 0 < T ->
  tiny <= Rpower (Rpower (T / Ts g rho) (1 + alpha g)) (- alpha g * i1pa g) ->
  is_gruneisen (PressureFromDensityInternalEnergy g) rho e (GruneisenParamFromDensityInternalEnergy g rho e) /\
  is_specific_heat (InternalEnergyFromDensityTemperature g) rho T (SpecificHeatFromDensityTemperature g rho T).
Proof.
  intros g rho e T HA Hr HT Hd. adm HA. split.
  - unfold is_gruneisen, GruneisenParamFromDensityInternalEnergy. rewrite Rmult_comm. apply dP_de.
  - apply cv_derive; auto.
Qed.
(** the reference isentrope: energy at entropy S0 changes as (P + P0)/rho^2, temperature as Gamma T/rho in compression. With P0 = 0 this is
    dE_s = (P_s/rho^2) drho, i.e. the reference curve is an isentrope. *)
Theorem C24_reactants_reference_curve : forall g rho, admissible g -> ok_rho g rho -> rho <> rho0 g ->
  let Es r := InternalEnergyFromDensityTemperature g r (Ts g r) in
  is_derive Es rho ((PressureFromDensityInternalEnergy g rho (Es rho) + P0 g) / rho ^ 2) /\
  (rho0 g < rho -> is_derive (Ts g) rho (GruneisenParamFromDensityTemperature g rho (Ts g rho) * Ts g rho / rho)).
Proof.
  intros g rho HA Hr Hn. cbv zeta. adm HA. match goal with |- context [ctor ?a ?b ?c ?d ?e ?f ?h ?i ?j ?k ?l ?m ?n] => set (g := ctor a b c d e f h i j k l m n) in * end.
  assert (EE : forall r, ok_rho g r -> InternalEnergyFromDensityTemperature g r (Ts g r) = Es g r).
  { intros r (R1 & R2 & R3 & R4 & R5). pose proof tiny_pos. rewrite E_T_eq; auto. replace (Ts g r / Ts g r) with 1 by (field; lra).
    rewrite cpow_pos by lra. unfold Rpower. rewrite ln_1, Rmult_0_r, exp_0. ring. }
  split.
  - rewrite EE by exact Hr. apply (derive_loc _ (Es g)).
    + apply (loc_imp _ (ok_rho g)); [|apply ok_loc; auto]. intros z Hz. symmetry. apply EE. exact Hz.
    + unfold PressureFromDensityInternalEnergy. replace (Ps g rho + Gamma g rho * rho * (Es g rho - Es g rho)) with (Ps g rho) by ring. apply Es_derive; auto.
  - intros Hc. assert (Hr' := Hr). destruct Hr' as (R1 & _). pose proof tiny_pos. apply (derive_loc _ (Tc g)).
    + apply (loc_imp _ (fun z => tiny < z)); [|apply loc_gt, R1]. intros z Hz. symmetry. apply Ts_eq; auto.
    + unfold GruneisenParamFromDensityTemperature. rewrite Gamma_eq by assumption. rewrite Rle_bool_true by lra. rewrite Ts_eq by auto.
      apply (is_derive_eq _ _ (Tc g rho * (G0 g + Z g * (1 - rho0 g / rho)) / rho)); [apply Tc_derive; auto; lra|]. field. lra.
Qed.
(** in compression with zero reference pressure the EOS is thermodynamically complete: the documented entropy obeys the first law *)
Theorem C24_reactants_first_law : forall g rho T, admissible g -> ok_rho g rho -> rho0 g < rho -> P0 g = 0 -> 0 < alpha g -> 0 < T ->
  first_law (fun r t => Cv0 g / alpha g * Rpower (t / Ts g r) (alpha g)) (InternalEnergyFromDensityTemperature g) (PressureFromDensityTemperature g) rho T.
Proof.
  intros g rho T HA Hr Hc HP Hal HT. adm HA. match goal with |- context [ctor ?a ?b ?c ?d ?e ?f ?h ?i ?j ?k ?l ?m ?n] => set (g := ctor a b c d e f h i j k l m n) in * end.
  assert (Hr' := Hr). destruct Hr' as (R1 & R2 & R3 & R4 & R5). pose proof tiny_pos as Ht. assert (Hne : rho <> rho0 g) by lra.
  set (q := T / Ts g rho). assert (Hq : 0 < q) by (unfold q; apply Rdiv_lt_0_compat; lra).
  set (ga := G0 g + Z g * (1 - rho0 g / rho)).
  assert (EG : Gamma g rho = ga) by (rewrite Gamma_eq by assumption; rewrite Rle_bool_true by lra; reflexivity).
  assert (DT : is_derive (Ts g) rho (Ts g rho * ga / rho)).
  { apply (derive_loc _ (Tc g)); [apply (loc_imp _ (fun z => tiny < z)); [|apply loc_gt, R1]; intros z Hz; symmetry; apply Ts_eq; auto|]. rewrite Ts_eq by auto. apply Tc_derive; auto. lra. }
  assert (DQ : forall z, is_derive (fun r => Rpower (T / Ts g r) z) rho (- (z * Rpower q z * ga / rho))).
  { intros z. pose proof (Rpower_derive_id q z Hq) as D1.
    assert (D2 : is_derive (fun r => T / Ts g r) rho (- (q * ga / rho))).
    { pose proof (is_derive_unique _ _ _ DT) as DU. auto_derive; [refine (conj _ (conj _ I)); [eexists; exact DT|lra]|].
      change (Derive (fun x => Ts g x) rho) with (Derive (Ts g) rho). rewrite DU. unfold q. field. lra. }
    apply (is_derive_eq _ _ ((- (q * ga / rho)) * (z * Rpower q (z - 1)))); [exact (is_derive_comp (fun w => Rpower w z) (fun r => T / Ts g r) rho _ _ D1 D2)|].
    replace (Rpower q z) with (q * Rpower q (z - 1)); [field; lra|]. rewrite <- (Rpower_1 q Hq) at 1. rewrite <- Rpower_plus. f_equal. ring. }
  assert (DTt : forall z, is_derive (fun t => Rpower (t / Ts g rho) z) T (z * Rpower q z / T)).
  { intros z. pose proof (Rpower_derive_id q z Hq) as D1.
    apply (is_derive_eq _ _ (/ Ts g rho * (z * Rpower q (z - 1)))); [apply (is_derive_comp (fun w => Rpower w z) (fun t => t / Ts g rho) T); [exact D1|auto_derive; [exact I|field; lra]]|].
    replace (Rpower q z) with (q * Rpower q (z - 1)); [unfold q; field; lra|]. rewrite <- (Rpower_1 q Hq) at 1. rewrite <- Rpower_plus. f_equal. ring. }
  assert (EQ1 : Rpower q (1 + alpha g) = q * Rpower q (alpha g)) by (rewrite Rpower_plus, Rpower_1 by exact Hq; reflexivity).
  set (W := Rpower q (alpha g)) in *.
  assert (DEr : is_derive (fun r => InternalEnergyFromDensityTemperature g r T) rho
     (Ps g rho / rho ^ 2 + Cv0 g * (Ts g rho * ga / rho) / (1 + alpha g) * (q * W - 1) - Cv0 g * Ts g rho * q * W * ga / rho)).
  { apply (derive_loc _ (fun r => Es g r + Cv0 g * Ts g r / (1 + alpha g) * (Rpower (T / Ts g r) (1 + alpha g) - 1))).
    - apply (loc_imp _ (ok_rho g)); [|apply ok_loc; auto]. intros z (Z1 & Z2 & Z3 & Z4 & Z5). rewrite E_T_eq; auto. rewrite cpow_pos by (apply Rdiv_lt_0_compat; lra). reflexivity.
    - pose proof (DQ (1 + alpha g)) as D1. pose proof (Es_derive g ltac:(assumption) ltac:(assumption) ltac:(reflexivity) rho Hr Hne) as D2. rewrite HP, Rplus_0_r in D2.
      apply (is_derive_eq _ _ _ _ (aff3 g ltac:(assumption) _ _ _ _ _ _ _ (Cv0 g) D2 DT D1)). cbv beta. fold q. rewrite EQ1. field. lra. }
  exists (Cv0 g * W), (Ps g rho / rho ^ 2 + Cv0 g * (Ts g rho * ga / rho) / (1 + alpha g) * (q * W - 1) - Cv0 g * Ts g rho * q * W * ga / rho).
  refine (conj _ (conj DEr (conj _ _))).
  - apply (derive_loc _ (fun t => Es g rho + Cv0 g * Ts g rho / (1 + alpha g) * (Rpower (t / Ts g rho) (1 + alpha g) - 1))).
    + apply (loc_imp _ (fun t => 0 < t)); [|apply loc_gt, HT]. intros t Ht'. rewrite E_T_eq; auto. rewrite cpow_pos by (apply Rdiv_lt_0_compat; lra). reflexivity.
    + pose proof (DTt (1 + alpha g)) as D1. apply (is_derive_eq _ _ _ _ (aff _ _ _ (Es g rho) (Cv0 g * Ts g rho / (1 + alpha g)) D1)). rewrite EQ1. unfold q. field. lra.
  - apply (is_derive_eq _ _ (Cv0 g / alpha g * (alpha g * W / T))); [|field; lra].
    apply (is_derive_scal (fun t => Rpower (t / Ts g rho) (alpha g))). apply DTt.
  - apply (is_derive_eq _ _ (Cv0 g / alpha g * (- (alpha g * W * ga / rho)))).
    + apply (is_derive_scal (fun r => Rpower (T / Ts g r) (alpha g))). apply DQ.
    + unfold PressureFromDensityTemperature, PressureFromDensityInternalEnergy. rewrite EG. rewrite E_T_eq; auto. rewrite cpow_pos by exact Hq. fold q. rewrite EQ1.
      assert (ET : T = q * Ts g rho) by (unfold q; field; lra). rewrite ET. field. lra.
Qed.
(** in expansion with zero reference pressure the bulk modulus is the isentropic one *)
Theorem C24_reactants_bulk_modulus_expansion : forall g rho e, admissible g -> ok_rho g rho -> rho < rho0 g -> P0 g = 0 ->
  is_bulk_modulus (PressureFromDensityInternalEnergy g) rho e (BulkModulusFromDensityInternalEnergy g rho e).
Proof.
  intros g rho e HA Hr Hc HP. adm HA. match goal with |- context [ctor ?a ?b ?c ?d ?e ?f ?h ?i ?j ?k ?l ?m ?n] => set (g := ctor a b c d e f h i j k l m n) in * end.
  replace (BulkModulusFromDensityInternalEnergy g rho e) with (BulkModulusFromDensityInternalEnergy g rho e - excess g rho).
  - apply bmod_excess; auto. lra.
  - unfold excess. rewrite HP, Rle_bool_false by lra. ring.
Qed.
(** Refuted: in compression it is too large, for every admitted parameter set with A <> 0 and P0 = 0, at every state (the derivative of
    y^2/(1-y)^4 is coded with a factor 3 instead of 2) *)
Theorem C59_davis_reactants_bulk_modulus_compression_refuted : forall g rho e, admissible g -> ok_rho g rho -> rho0 g < rho -> P0 g = 0 -> A g <> 0 ->
  exists Bs, is_bulk_modulus (PressureFromDensityInternalEnergy g) rho e Bs /\
    BulkModulusFromDensityInternalEnergy g rho e = Bs + A g ^ 2 / (4 * B g) * rho0 g * (rho0 g / rho) * ((1 - rho0 g / rho) / (rho0 g / rho) ^ 4) /\
    Bs < BulkModulusFromDensityInternalEnergy g rho e.
Proof.
  intros g rho e HA Hr Hc HP HAn. adm HA. match goal with |- context [ctor ?a ?b ?c ?d ?e ?f ?h ?i ?j ?k ?l ?m ?n] => set (g := ctor a b c d e f h i j k l m n) in * end.
  assert (Hr' := Hr). destruct Hr' as (R1 & R2 & _). pose proof tiny_pos as Ht.
  assert (Hr0 : tiny < rho0 g) by assumption. assert (HB : tiny <= 4 * B g) by assumption.
  assert (EA : A2oB g = A g * A g / B g) by reflexivity.
  assert (EX : excess g rho = A g ^ 2 / (4 * B g) * rho0 g * (rho0 g / rho) * ((1 - rho0 g / rho) / (rho0 g / rho) ^ 4)).
  { unfold excess. rewrite HP, Rle_bool_true by lra. rewrite EA. field. lra. }
  exists (BulkModulusFromDensityInternalEnergy g rho e - excess g rho). split; [apply bmod_excess; auto; lra|]. rewrite <- EX. split; [ring|].
  enough (0 < excess g rho) by lra. rewrite EX.
  assert (0 < A g ^ 2) by (rewrite <- Rsqr_pow2; apply Rsqr_pos_lt, HAn).
  assert (0 < 1 - rho0 g / rho) by (apply y_sign; auto; lra).
  assert (0 < rho0 g / rho) by (apply Rdiv_lt_0_compat; lra). pos.
Qed.
(** Refuted: the documented isentrope passes through P0; the pressure returned at the reference density and temperature is 0 whatever P0 is *)
Theorem C59_davis_reactants_reference_pressure_refuted : forall g, admissible g -> ok_rho g (rho0 g) ->
  PressureFromDensityTemperature g (rho0 g) (T0 g) = 0 /\ nth 3 (ValuesAtReferenceState g) 0 = 0.
Proof.
  intros g HA Hr. adm HA. match goal with |- context [ctor ?a ?b ?c ?d ?e ?f ?h ?i ?j ?k ?l ?m ?n] => set (g := ctor a b c d e f h i j k l m n) in * end.
  assert (K : PressureFromDensityTemperature g (rho0 g) (T0 g) = 0).
  { destruct Hr as (R1 & R2 & R3 & R4 & R5). pose proof tiny_pos as Ht. unfold PressureFromDensityTemperature, PressureFromDensityInternalEnergy. rewrite E_T_eq; auto.
    assert (ET : Ts g (rho0 g) = T0 g). { rewrite Ts_eq; auto. unfold Tc. replace (rho0 g / rho0 g) with 1 by (field; lra). replace (1 - 1) with 0 by ring. unfold Rpower. rewrite ln_1, !Rmult_0_r, exp_0. ring. }
    rewrite ET in *. replace (T0 g / T0 g) with 1 by (field; lra). rewrite cpow_pos by lra. unfold Rpower. rewrite ln_1, Rmult_0_r, exp_0.
    rewrite Ps_eq; auto. rewrite Rle_bool_true by lra. unfold PsH. replace (1 - rho0 g / rho0 g) with 0 by (field; lra). unfold Rdiv. ring. }
  split; [exact K|]. exact K.
Qed.
(** Refuted: below the reference density the temperature of the reference isentrope is not the documented T0 (rho/rho0)^Gamma0 unless Z = 0 *)
Theorem C59_davis_reactants_expansion_temperature_refuted : forall g rho, admissible g -> ok_rho g rho -> rho < rho0 g -> Z g <> 0 ->
  TemperatureFromDensityInternalEnergy g rho (Es g rho) = T0 g * Rpower (rho / rho0 g) (G0 g) * exp (- Z g * (1 - rho0 g / rho) + Z g * ln (rho / rho0 g)) /\
  TemperatureFromDensityInternalEnergy g rho (Es g rho) <> T0 g * Rpower (rho / rho0 g) (G0 g).
Proof.
  intros g rho HA Hr Hc HZ. adm HA. match goal with |- context [ctor ?a ?b ?c ?d ?e ?f ?h ?i ?j ?k ?l ?m ?n] => set (g := ctor a b c d e f h i j k l m n) in * end.
  assert (Hr' := Hr). destruct Hr' as (R1 & R2 & R3 & R4 & R5). pose proof tiny_pos as Ht. assert (Hr0 : tiny < rho0 g) by assumption.
  assert (E1 : TemperatureFromDensityInternalEnergy g rho (Es g rho) = Tc g rho).
  { unfold TemperatureFromDensityInternalEnergy. cbv zeta. replace (DimlessEdiff g rho (Es g rho)) with 1 by (unfold DimlessEdiff; ring). rewrite Rle_bool_false by lra.
    rewrite cpow_pos by lra. unfold Rpower. rewrite ln_1, Rmult_0_r, exp_0, Rmult_1_r. apply Ts_eq; auto. }
  assert (E2 : ln (rho0 g / rho) = - ln (rho / rho0 g)). { replace (rho0 g / rho) with (/ (rho / rho0 g)) by (field; lra). apply ln_Rinv. apply Rdiv_lt_0_compat; lra. }
  assert (E3 : Tc g rho = T0 g * Rpower (rho / rho0 g) (G0 g) * exp (- Z g * (1 - rho0 g / rho) + Z g * ln (rho / rho0 g))).
  { unfold Tc, Rpower. rewrite E2. replace ((- G0 g - Z g) * - ln (rho / rho0 g)) with (G0 g * ln (rho / rho0 g) + Z g * ln (rho / rho0 g)) by ring. rewrite !exp_plus. ring. }
  rewrite E1, E3. split; [reflexivity|]. intros E.
  assert (HK : 0 < T0 g * Rpower (rho / rho0 g) (G0 g)) by (unfold Rpower; pos).
  assert (E4 : exp (- Z g * (1 - rho0 g / rho) + Z g * ln (rho / rho0 g)) = exp 0).
  { rewrite exp_0. apply Rmult_eq_reg_l with (T0 g * Rpower (rho / rho0 g) (G0 g)); lra. }
  apply exp_inv in E4. assert (E5 : ln (rho0 g / rho) = - (1 - rho0 g / rho)). { rewrite E2. apply Rmult_eq_reg_l with (Z g); [lra|exact HZ]. }
  assert (HX : 1 < rho0 g / rho). { apply Rmult_lt_reg_r with rho; [lra|]. replace (rho0 g / rho * rho) with (rho0 g) by (field; lra). lra. }
  (* ln x < x - 1 for x > 1 *)
  pose proof (exp_ineq1 (ln (rho0 g / rho))) as K. assert (LN : 0 < ln (rho0 g / rho)) by (rewrite <- ln_1; apply ln_increasing; lra).
  specialize (K ltac:(lra)). rewrite exp_ln in K by lra. lra.
Qed.
(** (P,T) inversion *)
Theorem C24_reactants_density_from_PT : forall g P T rho e, admissible g -> (forall r, 1 / 100000 <= r <= 1000 -> ok_rho g r) ->
  1 / 100000 <= rho0 g <= 1000 -> 0 < T ->
  PressureFromDensityTemperature g (1 / 100000) T <= P <= PressureFromDensityTemperature g 1000 T ->
  DensityEnergyFromPressureTemperature g P T = Some (rho, e) ->
  1 / 100000 <= rho <= 1000 /\ e = InternalEnergyFromDensityTemperature g rho T /\
  exists u v r, 1 / 100000 <= u /\ u <= r <= v /\ v <= 1000 /\ u <= rho <= v /\ PressureFromDensityTemperature g r T = P /\
    (Rabs (rho - r) <= 1 / 100000000 \/ 
       Rmin (Rabs (PressureFromDensityTemperature g u T - P)) (Rabs (PressureFromDensityTemperature g v T - P)) <= 1 / 100000000).
Proof.
  intros g P T rho e HA Hok Hb HT HP H. unfold DensityEnergyFromPressureTemperature in H.
  destruct (@regula_falsi RArith (PofRatT g T) P (rho0 g) (1 / 100000) 1000 (1 / 100000000) (1 / 100000000)) as [|st x n] eqn:ER; [discriminate|].
  destruct st; [|discriminate]. destruct x as [x|]; [|discriminate]. cbv zeta in H.
  assert (HS : (PofRatT g T (1 / 100000) - P) * (PofRatT g T (rho0 g) - P) <= 0 \/ (PofRatT g T (rho0 g) - P) * (PofRatT g T 1000 - P) <= 0).
  { rewrite <- !PofRatT_eq. destruct (Rle_dec (PressureFromDensityTemperature g (rho0 g) T) P).
    - right. assert (0 <= (P - PressureFromDensityTemperature g (rho0 g) T) * (PressureFromDensityTemperature g 1000 T - P)) by (apply Rmult_le_pos; lra). lra.
    - left. assert (0 <= (PressureFromDensityTemperature g (rho0 g) T - P) * (P - PressureFromDensityTemperature g (1 / 100000) T)) by (apply Rmult_le_pos; lra). lra. }
  assert (CT : forall z, 1 / 100000 <= z <= 1000 -> continuity_pt (PofRatT g T) z).
  { intros z Hz. apply continuity_pt_filterlim. adm HA. apply PofRatT_cont; auto. }
  destruct (rf_root_near (PofRatT g T) P (rho0 g) (1 / 100000) 1000 (1 / 100000000) (1 / 100000000) x n Hb ltac:(lra) ltac:(lra) CT HS ER) as (BD & u & v & r & W1 & W2 & W3 & W4 & W5 & W6).
  rewrite Rmax_right in H by lra. injection H as <- <-. split; [exact BD|]. split; [reflexivity|]. exists u, v, r. rewrite !PofRatT_eq. auto 10.
Qed.
(** FillEos: density-energy input only (the code says so) *)
Theorem C24_reactants_FillEos : forall g o s, mode_of o InRhoSie ->
  fill_ok (TemperatureFromDensityInternalEnergy g) (PressureFromDensityInternalEnergy g) (SpecificHeatFromDensityInternalEnergy g)
          (BulkModulusFromDensityInternalEnergy g) InRhoSie o s (FillEos g o s).
Proof.
  intros g [fr ft fs fp fc fb] [r t e p c b]. unfold mode_of. cbn [f_rho f_sie]. intros (-> & ->).
  unfold FillEos, cond_upd, fill_ok, fill_frame, fill_values. destruct ft, fp, fc, fb; cbn; repeat split; auto; discriminate.
Qed.
Theorem C58_davis_reactants_FillEos_rho_temp_refuted : forall g o s, f_sie o = true -> s_sie (FillEos g o s) = s_sie s.
Proof.
  intros g [fr ft fs fp fc fb] [r t e p c b]. cbn [f_sie]. intros ->. unfold FillEos, cond_upd. destruct ft, fp, fc, fb; reflexivity.
Qed.
Theorem C44_davis_reactants_CheckParams : forall g, CheckParams g = true <-> SMALL < rho0 g /\ 0 <= T0 g /\ SMALL < B g /\ 0 <= alpha g /\ 0 < Abar g /\ 0 < Zbar g.
Proof.
  intros g. unfold CheckParams. rewrite !andb_true_iff.
  destruct (Rlt_bool_spec SMALL (rho0 g)), (Rle_bool_spec 0 (T0 g)), (Rlt_bool_spec SMALL (B g)), (Rle_bool_spec 0 (alpha g)), (Rlt_bool_spec 0 (Abar g)), (Rlt_bool_spec 0 (Zbar g));
    split; intros HH; try (exfalso; intuition (discriminate || lra); fail); intuition lra.
Qed.
(** the hypotheses are met on both sides of the reference density *)
Example C24_reactants_instance : exists g, admissible g /\ CheckParams g = true /\ A g <> 0 /\ P0 g = 0 /\ Z g <> 0 /\ 0 < alpha g /\
  ok_rho g (1/2) /\ ok_rho g 2 /\ rho0 g = 1 /\ forall r, 1 / 100000 <= r <= 1000 -> ok_rho g r.
Proof.
  assert (HT : tiny < bpow radix2 (-200)) by (unfold tiny; apply bpow_lt; lia).
  assert (HT' : tiny < / 1000000000000000000000000000000). { eapply Rlt_trans; [exact HT|]. cbn. lra. }
  set (g := ctor 1 0 0 300 2 1 1 (-1) 1 1 1 1 1). exists g.
  assert (HA : admissible g). { split; [repeat eexists|]. unfold g, ctor; cbn. repeat split; lra. }
  assert (K : forall r, 1 / 100000 <= r <= 1000 -> ok_rho g r).
  { intros r Hr. unfold ok_rho. 
    assert (Q : / 1000 <= 1 / r). { apply Rmult_le_reg_r with r; [lra|]. replace (1 / r * r) with 1 by (field; lra). lra. }
    assert (P4 : (/ 1000) ^ 4 <= (1 / r) ^ 4) by (apply pow_incr; lra). assert (P5 : (/ 1000) ^ 5 <= (1 / r) ^ 5) by (apply pow_incr; lra).
    assert (ET : Ts g r = 300 * exp (-1 * (1 - 1 / r))).
    { rewrite Ts_eq; [|unfold g; cbn; lra|lra]. unfold Tc, g, ctor. cbn [T0 Z rho0 G0]. replace (- -1 - 1) with 0 by ring. unfold Rpower. rewrite Rmult_0_l, exp_0. replace (- (1) * (1 - 1 / r)) with (-1 * (1 - 1 / r)) by ring. ring. }
    assert (TL : 100 <= Ts g r). { rewrite ET. assert (exp (-1) <= exp (-1 * (1 - 1 / r))) by (apply exp_le; lra).
      assert (/3 <= exp (-1)). { replace (-1) with (- (1)) by ring. rewrite exp_Ropp. apply Rinv_le_contravar; [apply exp_pos|apply exp_le_3]. } lra. }
    unfold g in *; cbn [rho0 ctor Cv0] in *. refine (conj _ (conj _ (conj _ (conj _ _)))); lra. }
  split; [exact HA|]. split.
  { unfold CheckParams, g, ctor. cbn. pose proof SMALL_lt_tiny. rewrite !Rlt_bool_true by lra. rewrite !Rle_bool_true by lra. reflexivity. }
  unfold g at 1 2 3 4. cbn. refine (conj _ (conj eq_refl (conj _ (conj _ (conj (K _ _) (conj (K _ _) (conj eq_refl K))))))); lra.
Qed.
Print Assumptions C24_reactants_round_trip.
Print Assumptions C24_reactants_entry_points_agree.
Print Assumptions C24_reactants_derivatives.
Print Assumptions C24_reactants_reference_curve.
Print Assumptions C24_reactants_first_law.
Print Assumptions C24_reactants_bulk_modulus_expansion.
Print Assumptions C59_davis_reactants_bulk_modulus_compression_refuted.
Print Assumptions C59_davis_reactants_reference_pressure_refuted.
Print Assumptions C59_davis_reactants_expansion_temperature_refuted.
Print Assumptions C24_reactants_density_from_PT.
Print Assumptions C24_reactants_FillEos.
Print Assumptions C58_davis_reactants_FillEos_rho_temp_refuted.
Print Assumptions C44_davis_reactants_CheckParams.
