(** C24: Davis products *)
From Coq Require Import Reals Bool Lra Lia List Psatz.
From Flocq Require Import Core.
From Coquelicot Require Import Coquelicot.
From Verif Require Import Arith RootFinding_Model RootFinding_Proofs Robust_Model Robust_Proofs Thermo_Spec Thermo_Tools DavisProducts_Model.
Local Open Scope R_scope.

Definition admissible (g : products) : Prop :=
  (exists a b k n vc pc cv A Z, g = ctor a b k n vc pc cv A Z) /\
  tiny <= n g /\ tiny <= vc g /\ 0 < pc g /\ tiny <= Cv g /\ tiny <= k g - 1 + a g /\ tiny <= Cv g * (k g - 1 + a g).
(** densities at which none of the computed denominators is denormal-like; x is the relative volume 1/(rho vc) *)
Definition ok_rho (g : products) (rho : R) : Prop :=
  tiny < rho /\ tiny < rho * vc g /\ tiny < 1 / (rho * vc g) /\
  tiny < Rpower (1 / (rho * vc g)) (k g + a g) /\ tiny < Rpower (1 / (rho * vc g)) (k g - 1 + a g) /\
  tiny < Rpower (1 / (rho * vc g)) (k g - 1 + a g * (1 - b g)).

Section D.
Variable g : products.
Hypothesis Hn : tiny <= n g.
Hypothesis Hv : tiny <= vc g.
Hypothesis Hpc : 0 < pc g.
Hypothesis HCv : tiny <= Cv g.
Hypothesis Hka : tiny <= k g - 1 + a g.
Hypothesis HCk : tiny <= Cv g * (k g - 1 + a g).
Hypothesis Haon : aon g = a g / n g.
Notation P_e := (PressureFromDensityInternalEnergy g).
Notation P_T := (PressureFromDensityTemperature g).
Notation E_T := (InternalEnergyFromDensityTemperature g).
Notation T_e := (TemperatureFromDensityInternalEnergy g).
Notation B_e := (BulkModulusFromDensityInternalEnergy g).

Definition l (r : R) : R := - ln (r * vc g).
Definition p (r : R) : R := exp (n g * l r).
Definition W (r : R) : R := 1 / 2 * (p r + / p r).
Definition Q (c m r : R) : R := exp (c * ln (W r)) * exp (m * l r).
Definition FC (r : R) : R := 2 * a g / (p r * p r + 1).
Definition ec : R := pc g * vc g / (k g - 1 + a g).
Definition EsC (r : R) : R := ec * Q (aon g) (- (k g - 1 + a g)) r.
Definition PsC (r : R) : R := pc g * Q (aon g) (- (k g + a g)) r * ((k g - 1 + FC r) / (k g - 1 + a g)).
Definition K0 : R := exp ((- a g * (b g / n g)) * ln 2) * pc g * (vc g / (Cv g * (k g - 1 + a g))).
Definition TsC (r : R) : R := K0 * Q (aon g * (1 - b g)) (- (k g - 1 + a g * (1 - b g))) r.
Definition GaC (r : R) : R := k g - 1 + (1 - b g) * FC r.
Lemma vpos : 0 < vc g. Proof. pose proof tiny_pos. lra. Qed.
Lemma p_pos r : 0 < p r. Proof. apply exp_pos. Qed.
Lemma W_pos r : 0 < W r. Proof. pose proof (p_pos r). unfold W. pos. Qed.
Lemma pp1 r : p r * p r + 1 <> 0. Proof. pose proof (p_pos r). nra. Qed.
Lemma x_pow r z : tiny < r * vc g -> cpow (1 / (r * vc g)) z = exp (z * l r).
Proof.
  intros H. pose proof tiny_pos. assert (0 < 1 / (r * vc g)) by (apply Rdiv_lt_0_compat; lra). unfold cpow. rewrite Rlt_bool_true by assumption. unfold Rpower, l.
  f_equal. f_equal. replace (1 / (r * vc g)) with (/ (r * vc g)) by (unfold Rdiv; ring). apply ln_Rinv. lra.
Qed.
Lemma exp_neg_l r : tiny < r * vc g -> exp (- l r) = r * vc g.
Proof. intros H. pose proof tiny_pos. unfold l. rewrite Ropp_involutive. apply exp_ln. lra. Qed.
Lemma pow2n r : exp (2 * n g * l r) = p r * p r.
Proof. unfold p. rewrite <- exp_plus. f_equal. ring. Qed.
Lemma pneg r : exp (- n g * l r) = / p r.
Proof. unfold p. rewrite <- exp_Ropp. f_equal. ring. Qed.
Lemma cpow_W r z : cpow (1 / 2 * (p r + / p r)) z = exp (z * ln (W r)).
Proof. fold (W r). unfold cpow. rewrite Rlt_bool_true by apply W_pos. reflexivity. Qed.
Lemma F_eq r : ok_rho g r -> F g r = FC r.
Proof.
  intros (H1 & H2 & _). pose proof tiny_pos. pose proof tiny_lt_1. pose proof (p_pos r). unfold F. rewrite Rle_bool_false by lra. cbv zeta. rewrite (ratio_pos 1) by lra.
  rewrite x_pow by exact H2. rewrite pow2n. rewrite ratio_pos by nra. unfold FC. field. apply pp1.
Qed.
Lemma okp r z : tiny < r * vc g -> Rpower (1 / (r * vc g)) z = exp (z * l r).
Proof. intros H. rewrite <- x_pow by exact H. unfold cpow. pose proof tiny_pos. rewrite Rlt_bool_true by (apply Rdiv_lt_0_compat; lra). reflexivity. Qed.
Lemma Ps_eq r : ok_rho g r -> Ps g r = PsC r.
Proof.
  intros H. assert (H' := H). destruct H' as (H1 & H2 & H3 & H4 & H5 & H6). pose proof tiny_pos. rewrite okp in H4 by exact H2. unfold Ps. rewrite Rle_bool_false by lra. cbv zeta. rewrite F_eq by exact H. rewrite (ratio_pos 1) by lra.
  rewrite !x_pow by exact H2. rewrite pneg. fold (p r). rewrite cpow_W. rewrite (ratio_pos _ (exp _)) by lra. rewrite (ratio_pos _ (k g - 1 + a g)) by lra.
  unfold PsC, Q. rewrite <- Ropp_mult_distr_l, exp_Ropp. unfold Rdiv. ring.
Qed.
Lemma Es_eq r : ok_rho g r -> Es g r = EsC r.
Proof.
  intros (H1 & H2 & H3 & H4 & H5 & H6). pose proof tiny_pos. rewrite okp in H5 by exact H2. unfold Es. rewrite Rle_bool_false by lra. cbv zeta. rewrite (ratio_pos 1) by lra.
  rewrite !x_pow by exact H2. rewrite pneg. fold (p r). rewrite cpow_W. rewrite (ratio_pos _ (exp _)) by lra. rewrite (ratio_pos _ (k g - 1 + a g)) by lra.
  unfold EsC, Q, ec. rewrite <- (Ropp_mult_distr_l (k g - 1 + a g)), exp_Ropp. unfold Rdiv. ring.
Qed.
Lemma Ts_eq r : ok_rho g r -> Ts g r = TsC r.
Proof.
  intros (H1 & H2 & H3 & H4 & H5 & H6). pose proof tiny_pos. rewrite okp in H6 by exact H2. unfold Ts. rewrite Rle_bool_false by lra. cbv zeta. rewrite (ratio_pos 1) by lra.
  rewrite !x_pow by exact H2. rewrite pneg. fold (p r). rewrite cpow_W. rewrite (ratio_pos _ (exp _)) by lra. rewrite (ratio_pos _ (Cv g * (k g - 1 + a g))) by lra.
  rewrite (ratio_pos _ (n g)) by lra. unfold cpow. rewrite Rlt_bool_true by lra. unfold Rpower.
  unfold TsC, Q, K0. rewrite <- (Ropp_mult_distr_l (k g - 1 + a g * (1 - b g))), exp_Ropp. unfold Rdiv. ring.
Qed.
Lemma Gamma_eq r : ok_rho g r -> Gamma g r = GaC r.
Proof. intros H. unfold Gamma. rewrite F_eq by exact H. reflexivity. Qed.
Lemma TsC_pos r : 0 < TsC r.
Proof. unfold TsC, K0, Q. pose proof vpos. pose proof tiny_pos. assert (0 < vc g / (Cv g * (k g - 1 + a g))) by (apply Rdiv_lt_0_compat; lra). pos. Qed.
(** *** derivatives of the closed forms *)
Lemma l_derive r : 0 < r -> is_derive l r (- / r).
Proof. intros H. pose proof vpos. unfold l. auto_derive; [pos|]. field. lra. Qed.
Lemma p_derive r : 0 < r -> is_derive p r (- (n g * p r / r)).
Proof.
  intros H. apply (is_derive_eq _ _ (- / r * (n g * p r))); [|field; lra].
  apply (is_derive_comp (fun z => exp (n g * z)) l); [|apply l_derive, H]. auto_derive; [exact I|]. unfold p. ring.
Qed.
Definition th r := (p r * p r - 1) / (p r * p r + 1).
Lemma lnW_derive r : 0 < r -> is_derive (fun z => ln (W z)) r (- (n g * th r / r)).
Proof.
  intros H. pose proof (p_pos r) as Hp. pose proof (W_pos r) as HW. pose proof (pp1 r) as H1.
  apply (is_derive_eq _ _ (- (n g * p r / r) * (1 / W r * (1 / 2 * (1 - / (p r * p r)))))).
  - apply (is_derive_comp (fun z => ln (1 / 2 * (z + / z))) p); [|apply p_derive, H]. auto_derive.
    + refine (conj _ (conj _ I)); [lra|exact HW].
    + unfold W in *. unfold Rdiv. field. repeat split; try lra; try (intros E; apply H1; lra).
  - unfold th, W in *. field. repeat split; try lra; try (intros E; apply H1; lra).
Qed.
Lemma Q_derive c m r : 0 < r -> is_derive (Q c m) r (- (Q c m r * (c * n g * th r + m) / r)).
Proof.
  intros H. pose proof (lnW_derive r H) as D1. pose proof (l_derive r H) as D2.
  pose proof (is_derive_unique _ _ _ D1) as U1. pose proof (is_derive_unique _ _ _ D2) as U2. change (fun x => l x) with l in U2.
  unfold Q. assert (D3 : is_derive (fun z => exp (c * ln (W z))) r (exp (c * ln (W r)) * (c * - (n g * th r / r)))).
  { apply (is_derive_eq _ _ (- (n g * th r / r) * (c * exp (c * ln (W r))))); [|ring]. apply (is_derive_comp (fun z => exp (c * z)) (fun z => ln (W z))); [|exact D1].
    auto_derive; [exact I|ring]. }
  assert (D4 : is_derive (fun z => exp (m * l z)) r (exp (m * l r) * (m * - / r))).
  { apply (is_derive_eq _ _ (- / r * (m * exp (m * l r)))); [|ring]. apply (is_derive_comp (fun z => exp (m * z)) l); [|exact D2]. auto_derive; [exact I|ring]. }
  apply (is_derive_eq _ _ ((exp (c * ln (W r)) * (c * - (n g * th r / r))) * exp (m * l r) + exp (c * ln (W r)) * (exp (m * l r) * (m * - / r)))).
  - apply (is_derive_mult (fun z => exp (c * ln (W z))) (fun z => exp (m * l z)) r _ _ D3 D4). intros; apply Rmult_comm.
  - field. lra.
Qed.
Lemma FC_derive r : 0 < r -> is_derive FC r (4 * a g * n g * (p r * p r) / (p r * p r + 1) ^ 2 / r).
Proof.
  intros H. pose proof (pp1 r). apply (is_derive_eq _ _ (- (n g * p r / r) * (- (4 * a g * p r / (p r * p r + 1) ^ 2)))).
  - apply (is_derive_comp (fun z => 2 * a g / (z * z + 1)) p); [|apply p_derive, H]. auto_derive; [exact H0|]. field. exact H0.
  - field. split; [exact H0|lra].
Qed.
Lemma Q_shift c m r : tiny < r * vc g -> Q c (m - 1) r = Q c m r * (r * vc g).
Proof. intros H. unfold Q. rewrite <- (exp_neg_l r) by exact H. replace (exp ((m - 1) * l r)) with (exp (m * l r) * exp (- l r)) by (rewrite <- exp_plus; f_equal; ring). ring. Qed.
Lemma aon_n : aon g * n g = a g. Proof. rewrite Haon. pose proof tiny_pos. field. lra. Qed.
Lemma EsC_derive r : 0 < r -> tiny < r * vc g -> is_derive EsC r (PsC r / r ^ 2).
Proof.
  intros H H2. pose proof (pp1 r). pose proof tiny_pos.
  apply (is_derive_eq _ _ (ec * (- (Q (aon g) (- (k g - 1 + a g)) r * (aon g * n g * th r + - (k g - 1 + a g)) / r)))).
  - apply (is_derive_scal (Q (aon g) (- (k g - 1 + a g)))). apply Q_derive, H.
  - unfold PsC. replace (- (k g + a g)) with (- (k g - 1 + a g) - 1) by ring. rewrite Q_shift by exact H2. rewrite aon_n. unfold ec, th, FC. field. repeat split; (lra || exact H0).
Qed.
Lemma TsC_derive r : 0 < r -> is_derive TsC r (TsC r * GaC r / r).
Proof.
  intros H. pose proof (pp1 r). 
  apply (is_derive_eq _ _ (K0 * (- (Q (aon g * (1 - b g)) (- (k g - 1 + a g * (1 - b g))) r * (aon g * (1 - b g) * n g * th r + - (k g - 1 + a g * (1 - b g))) / r)))).
  - apply (is_derive_scal (Q (aon g * (1 - b g)) (- (k g - 1 + a g * (1 - b g))))). apply Q_derive, H.
  - unfold TsC, GaC. replace (aon g * (1 - b g) * n g) with (a g * (1 - b g)) by (rewrite <- aon_n at 1; ring). unfold th, FC. field. split; (lra || exact H0).
Qed.
Definition dF r := 4 * a g * n g * (p r * p r) / (p r * p r + 1) ^ 2 / r.
Definition dPs r := pc g / (k g - 1 + a g) * Q (aon g) (- (k g + a g)) r * ((k g - 1 + FC r) * (k g + a g - a g * th r) / r + dF r).
Lemma PsC_derive r : 0 < r -> is_derive PsC r (dPs r).
Proof.
  intros H. pose proof (Q_derive (aon g) (- (k g + a g)) r H) as D1. pose proof (FC_derive r H) as D2. fold (dF r) in D2.
  pose proof (is_derive_unique _ _ _ D1) as U1. pose proof (is_derive_unique _ _ _ D2) as U2. pose proof tiny_pos.
  set (q := Q (aon g) (- (k g + a g))) in *. change (fun x => q x) with q in U1. change (fun x => FC x) with FC in U2.
  unfold PsC. fold q. auto_derive; [split; [eexists; exact D1|split; [eexists; exact D2|exact I]]|].
  change (fun x => q x) with q. change (fun x => FC x) with FC. rewrite U1, U2. unfold dPs. fold q. rewrite aon_n. field. lra.
Qed.
Lemma GaC_derive r : 0 < r -> is_derive GaC r ((1 - b g) * dF r).
Proof.
  intros H. pose proof (FC_derive r H) as D2. fold (dF r) in D2. pose proof (is_derive_unique _ _ _ D2) as U2. change (fun x => FC x) with FC in U2.
  unfold GaC. auto_derive; [eexists; exact D2|]. change (fun x => FC x) with FC. rewrite U2. ring.
Qed.
Lemma ok_loc r : ok_rho g r -> locally r (fun z => ok_rho g z).
Proof.
  intros (H1 & H2 & H3 & H4 & H5 & H6). pose proof tiny_pos. pose proof vpos. unfold ok_rho.
  assert (N : r * vc g <> 0) by lra. assert (NP : 0 < 1 / (r * vc g)) by lra.
  assert (RP : forall m, continuous (fun z => Rpower (1 / (z * vc g)) m) r).
  { intros m. unfold Rpower. eapply derive_cont. auto_derive; [|reflexivity]. refine (conj _ (conj _ I)); [exact N|exact NP]. }
  apply loc_and; [apply loc_gt, H1|]. apply loc_and; [apply (loc_gt_f (fun z => z * vc g)); [eapply derive_cont; auto_derive; [exact I|reflexivity]|exact H2]|].
  apply loc_and; [apply (loc_gt_f (fun z => 1 / (z * vc g))); [eapply derive_cont; auto_derive; [exact N|reflexivity]|exact H3]|].
  apply loc_and; [apply (loc_gt_f _ _ _ (RP _) H4)|]. apply loc_and; [apply (loc_gt_f _ _ _ (RP _) H5)|apply (loc_gt_f _ _ _ (RP _) H6)].
Qed.
Lemma ok_pos r : ok_rho g r -> 0 < r /\ tiny < r * vc g.
Proof. intros (H1 & H2 & _). pose proof tiny_pos. split; lra. Qed.
Lemma via (f h : R -> R) r d : (forall z, ok_rho g z -> f z = h z) -> ok_rho g r -> is_derive h r d -> is_derive f r d.
Proof. intros E H D. apply (derive_loc _ h); [|exact D]. apply (loc_imp _ (ok_rho g)); [|apply ok_loc, H]. intros z Hz. symmetry. apply E, Hz. Qed.
Lemma dP_dr r e : ok_rho g r -> is_derive (fun z => P_e z e) r
  (dPs r + (GaC r + r * ((1 - b g) * dF r)) * (e - EsC r) - r * GaC r * (PsC r / r ^ 2)).
Proof.
  intros H. destruct (ok_pos r H) as (Hp & H2).
  apply (via _ (fun z => PsC z + z * GaC z * (e - EsC z))); [|exact H|].
  - intros z Hz. unfold PressureFromDensityInternalEnergy. rewrite Ps_eq, Gamma_eq, Es_eq by exact Hz. reflexivity.
  - pose proof (PsC_derive r Hp) as D1. pose proof (GaC_derive r Hp) as D2. pose proof (EsC_derive r Hp H2) as D3. set (es' := PsC r / r ^ 2) in *.
    pose proof (is_derive_unique _ _ _ D1) as U1. pose proof (is_derive_unique _ _ _ D2) as U2. pose proof (is_derive_unique _ _ _ D3) as U3.
    change (fun x => PsC x) with PsC in U1. change (fun x => GaC x) with GaC in U2. change (fun x => EsC x) with EsC in U3.
    auto_derive; [repeat split; eexists; eassumption|].
    change (fun x => PsC x) with PsC. change (fun x => GaC x) with GaC. change (fun x => EsC x) with EsC. rewrite U1, U2, U3. ring.
Qed.
Lemma dP_de r e : is_derive (fun s => P_e r s) e (r * Gamma g r).
Proof. unfold PressureFromDensityInternalEnergy. auto_derive; [exact I|ring]. Qed.
Lemma bmod_eq r e : ok_rho g r -> B_e r e =
  r * (dPs r + (GaC r + r * ((1 - b g) * dF r)) * (e - EsC r) - r * GaC r * (PsC r / r ^ 2)) + GaC r * (PsC r + r * GaC r * (e - EsC r)).
Proof.
  intros H. assert (H' := H). destruct H' as (H1 & H2 & H3 & H4 & H5 & H6). pose proof tiny_pos. pose proof tiny_lt_1. pose proof (p_pos r) as Hp. pose proof (pp1 r) as Hp1.
  pose proof vpos. assert (Hr : 0 < r) by lra. pose proof (W_pos r) as HW.
  unfold BulkModulusFromDensityInternalEnergy. rewrite Rle_bool_false by lra. cbv zeta. rewrite F_eq, Gamma_eq, Es_eq, Ps_eq by exact H. rewrite (ratio_pos 1 (r * vc g)) by lra.
  rewrite okp in H4, H5, H6 by exact H2. rewrite !x_pow by exact H2. rewrite pneg. rewrite pow2n.
  change (exp (n g * l r)) with (p r). rewrite !cpow_W.
  rewrite (ratio_pos _ (exp ((k g + a g) * l r))) by lra. rewrite (ratio_pos _ (exp ((k g + a g) * l r))) by lra. rewrite (ratio_pos _ (1 / (r * vc g))) by lra.
  rewrite (ratio_pos _ ((1 + p r * p r) ^ 2)). 2: { assert (1 <= 1 + p r * p r) by nra. nra. }
  rewrite (ratio_pos _ (vc g)) by lra. rewrite (ratio_pos _ (k g - 1 + a g)) by lra. rewrite (ratio_pos _ r) by lra.
  replace (exp ((2 * n g - 1) * l r)) with (p r * p r * (r * vc g)).
  2: { rewrite <- pow2n, <- (exp_neg_l r) by exact H2. rewrite <- exp_plus. f_equal. ring. }
  replace (exp ((n g - 1) * l r)) with (p r * (r * vc g)).
  2: { rewrite <- (exp_neg_l r) by exact H2. unfold p. rewrite <- exp_plus. f_equal. ring. }
  replace (exp ((- n g - 1) * l r)) with (/ p r * (r * vc g)).
  2: { rewrite <- (exp_neg_l r) by exact H2. rewrite <- pneg. rewrite <- exp_plus. f_equal. ring. }
  replace (exp ((aon g - 1) * ln (W r))) with (exp (aon g * ln (W r)) / W r).
  2: { unfold Rdiv. rewrite <- (exp_ln (W r) HW) at 2. rewrite <- exp_Ropp, <- exp_plus. f_equal. ring. }
  unfold PsC, dPs, dF. unfold Q. replace (- (k g + a g) * l r) with (- ((k g + a g) * l r)) by ring. rewrite exp_Ropp.
  set (X := exp ((k g + a g) * l r)). assert (HX : X <> 0) by (apply Rgt_not_eq, exp_pos).
  set (q := exp (aon g * ln (W r))). generalize (EsC r) (GaC r). intros es ga. unfold th, W, FC in *. set (pp := p r) in *. clearbody X q pp. clear - Hv Hp Hp1 Hr H0 Hka HX H7 HW.
  field. repeat split; try lra; assumption.
Qed.
Lemma bmod_ok r e : ok_rho g r -> is_bulk_modulus P_e r e (B_e r e).
Proof.
  intros Hr. eexists _, _. refine (conj (dP_dr r e Hr) (conj (dP_de r e) _)).
  rewrite bmod_eq by exact Hr. unfold PressureFromDensityInternalEnergy. rewrite Ps_eq, Es_eq, Gamma_eq by exact Hr. destruct Hr as (R1 & _). pose proof tiny_pos. field. lra.
Qed.
Lemma round_T r T : T_e r (E_T r T) = T.
Proof. pose proof tiny_pos. unfold TemperatureFromDensityInternalEnergy, InternalEnergyFromDensityTemperature. rewrite ratio_pos by lra. field. lra. Qed.
Lemma round_e r e : E_T r (T_e r e) = e.
Proof. pose proof tiny_pos. unfold TemperatureFromDensityInternalEnergy, InternalEnergyFromDensityTemperature. rewrite ratio_pos by lra. field. lra. Qed.
Lemma cv_d r T : is_derive (fun t => E_T r t) T (Cv g).
Proof. unfold InternalEnergyFromDensityTemperature. auto_derive; [exact I|ring]. Qed.
Lemma PofRatT_eq T r : P_T r T = PofRatT g T r.
Proof. unfold PressureFromDensityTemperature, PressureFromDensityInternalEnergy, InternalEnergyFromDensityTemperature, PofRatT. ring. Qed.
Lemma PofRatT_cont T r : ok_rho g r -> continuous (PofRatT g T) r.
Proof.
  intros H. destruct (ok_pos r H) as (Hp & H2). apply (cont_loc _ (fun z => PsC z + GaC z * z * Cv g * (T - TsC z))).
  - apply (loc_imp _ (ok_rho g)); [|apply ok_loc, H]. intros z Hz. unfold PofRatT. rewrite Ps_eq, Gamma_eq, Ts_eq by exact Hz. reflexivity.
  - apply (continuous_plus (V := R_NormedModule)); [eapply derive_cont, PsC_derive, Hp|].
    apply (continuous_mult (K := R_AbsRing)); [|apply (continuous_minus (V := R_NormedModule)); [apply continuous_const|eapply derive_cont, TsC_derive, Hp]].
    apply (continuous_mult (K := R_AbsRing)); [|apply continuous_const]. apply (continuous_mult (K := R_AbsRing)); [eapply derive_cont, GaC_derive, Hp|apply continuous_id].
Qed.
End D.
Ltac adm H := let X := fresh in assert (X := H); destruct X as ((? & ? & ? & ? & ? & ? & ? & ? & ? & ->) & ? & ? & ? & ? & ? & ?);
  match goal with |- context [ctor ?a ?b ?c ?d ?e ?f ?h ?i ?j] => set (g := ctor a b c d e f h i j) in * end.

Theorem C24_products_round_trip : forall g rho, admissible g ->
  (forall T, TemperatureFromDensityInternalEnergy g rho (InternalEnergyFromDensityTemperature g rho T) = T) /\
  (forall e, InternalEnergyFromDensityTemperature g rho (TemperatureFromDensityInternalEnergy g rho e) = e).
Proof. intros g rho HA. adm HA. split; intros; [apply round_T|apply round_e]; auto. Qed.
Theorem C24_products_entry_points_agree : forall g rho T,
  PressureFromDensityTemperature g rho T = PressureFromDensityInternalEnergy g rho (InternalEnergyFromDensityTemperature g rho T) /\
  BulkModulusFromDensityTemperature g rho T = BulkModulusFromDensityInternalEnergy g rho (InternalEnergyFromDensityTemperature g rho T) /\
  SpecificHeatFromDensityTemperature g rho T = SpecificHeatFromDensityInternalEnergy g rho (InternalEnergyFromDensityTemperature g rho T) /\
  forall e, GruneisenParamFromDensityTemperature g rho T = GruneisenParamFromDensityInternalEnergy g rho e.
Proof. intros. repeat split. Qed.
Theorem C24_products_derivatives : forall g rho e T, admissible g -> ok_rho g rho ->
  is_gruneisen (PressureFromDensityInternalEnergy g) rho e (GruneisenParamFromDensityInternalEnergy g rho e) /\
  is_specific_heat (InternalEnergyFromDensityTemperature g) rho T (SpecificHeatFromDensityTemperature g rho T) /\
  is_bulk_modulus (PressureFromDensityInternalEnergy g) rho e (BulkModulusFromDensityInternalEnergy g rho e).
Proof.
  intros g rho e T HA Hr. adm HA. refine (conj _ (conj _ _)).
  - apply dP_de.
  - apply cv_d.
  - apply bmod_ok; auto.
Qed.
(** the reference curve is an isentrope, and with S = Cv ln (T/Ts) the EOS obeys the first law *)
Theorem C24_products_first_law : forall g rho T, admissible g -> ok_rho g rho -> 0 < T ->
  (let Es r := InternalEnergyFromDensityTemperature g r (Ts g r) in
   is_derive Es rho (PressureFromDensityInternalEnergy g rho (Es rho) / rho ^ 2) /\
   is_derive (Ts g) rho (GruneisenParamFromDensityTemperature g rho (Ts g rho) * Ts g rho / rho)) /\
  first_law (fun r t => Cv g * ln (t / Ts g r)) (InternalEnergyFromDensityTemperature g) (PressureFromDensityTemperature g) rho T.
Proof.
  intros g rho T HA Hr HT. adm HA. assert (Ha : aon g = a g / n g) by reflexivity. clearbody g. destruct (ok_pos g rho Hr) as (Hp & H2'). pose proof tiny_pos as Ht.
  assert (DT : is_derive (Ts g) rho (TsC g rho * GaC g rho / rho)) by (apply (via g ltac:(assumption) _ (TsC g)); auto; [intros; apply Ts_eq; auto|apply TsC_derive; auto]).
  assert (DE : is_derive (Es g) rho (PsC g rho / rho ^ 2)) by (apply (via g ltac:(assumption) _ (EsC g)); auto; [intros; apply Es_eq; auto|apply EsC_derive; auto]).
  split.
  - cbv zeta. split.
    + apply (is_derive_ext (Es g)); [intros t; unfold InternalEnergyFromDensityTemperature; match goal with |- @eq _ ?x ?y => change (@eq R x y) end; ring|].
      unfold PressureFromDensityInternalEnergy, InternalEnergyFromDensityTemperature. rewrite Ps_eq; auto.
      apply (is_derive_eq _ _ _ _ DE). field. lra.
    + unfold GruneisenParamFromDensityTemperature. rewrite Gamma_eq, Ts_eq; auto. apply (is_derive_eq _ _ _ _ DT). field. lra.
  - assert (TP : 0 < TsC g rho) by (apply TsC_pos; auto). assert (ETs : Ts g rho = TsC g rho) by (apply Ts_eq; auto).
    assert (DEr : is_derive (fun r => InternalEnergyFromDensityTemperature g r T) rho (- Cv g * (TsC g rho * GaC g rho / rho) + PsC g rho / rho ^ 2)).
    { pose proof (is_derive_unique _ _ _ DT) as U1. pose proof (is_derive_unique _ _ _ DE) as U2. unfold InternalEnergyFromDensityTemperature.
      auto_derive; [repeat split; eexists; eassumption|]. change (fun x => Ts g x) with (Ts g). change (fun x => Es g x) with (Es g). rewrite U1, U2. field. lra. }
    exists (Cv g), (- Cv g * (TsC g rho * GaC g rho / rho) + PsC g rho / rho ^ 2). refine (conj _ (conj DEr (conj _ _))).
    + apply cv_d.
    + rewrite ETs. auto_derive; [apply Rdiv_lt_0_compat; lra|]. field. lra.
    + pose proof (is_derive_unique _ _ _ DT) as U1. auto_derive.
      * rewrite ETs. refine (conj _ (conj _ (conj _ I))); [eexists; exact DT|lra|apply Rdiv_lt_0_compat; lra].
      * change (fun x => Ts g x) with (Ts g). rewrite U1. unfold PressureFromDensityTemperature, PressureFromDensityInternalEnergy, InternalEnergyFromDensityTemperature.
        rewrite Ps_eq, Gamma_eq, ETs; auto. field. repeat split; lra.
Qed.
Theorem C24_products_density_from_PT : forall g P T rho e, admissible g -> (forall r, 1 / 100000 <= r <= 1000 -> ok_rho g r) ->
  1 / 100000 <= 1 / vc g <= 1000 ->
  PressureFromDensityTemperature g (1 / 100000) T <= P <= PressureFromDensityTemperature g 1000 T ->
  DensityEnergyFromPressureTemperature g P T = Some (rho, e) ->
  1 / 100000 <= rho <= 1000 /\ e = InternalEnergyFromDensityTemperature g rho T /\
  exists u v r, 1 / 100000 <= u /\ u <= r <= v /\ v <= 1000 /\ u <= rho <= v /\ PressureFromDensityTemperature g r T = P /\
    (Rabs (rho - r) <= 1 / 100000000 \/ 
       Rmin (Rabs (PressureFromDensityTemperature g u T - P)) (Rabs (PressureFromDensityTemperature g v T - P)) <= 1 / 100000000).
Proof.
  intros g P T rho e HA Hok Hb HP H. assert (Hvc : tiny <= vc g) by (apply HA). unfold DensityEnergyFromPressureTemperature in H. rewrite ratio_pos in H by exact Hvc.
  set (r0 := 1 / vc g) in *.
  destruct (@regula_falsi RArith (PofRatT g T) P r0 (1 / 100000) 1000 (1 / 100000000) (1 / 100000000)) as [|st x n] eqn:ER; [discriminate|].
  destruct st; [|discriminate]. destruct x as [x|]; [|discriminate]. cbv zeta in H.
  assert (HS : (PofRatT g T (1 / 100000) - P) * (PofRatT g T r0 - P) <= 0 \/ (PofRatT g T r0 - P) * (PofRatT g T 1000 - P) <= 0).
  { rewrite <- !PofRatT_eq. destruct (Rle_dec (PressureFromDensityTemperature g r0 T) P).
    - right. assert (0 <= (P - PressureFromDensityTemperature g r0 T) * (PressureFromDensityTemperature g 1000 T - P)) by (apply Rmult_le_pos; lra). lra.
    - left. assert (0 <= (PressureFromDensityTemperature g r0 T - P) * (P - PressureFromDensityTemperature g (1 / 100000) T)) by (apply Rmult_le_pos; lra). lra. }
  assert (CT : forall z, 1 / 100000 <= z <= 1000 -> continuity_pt (PofRatT g T) z).
  { intros z Hz. apply continuity_pt_filterlim. clear - HA Hok Hz. adm HA. apply PofRatT_cont; auto. }
  destruct (rf_root_near (PofRatT g T) P r0 (1 / 100000) 1000 (1 / 100000000) (1 / 100000000) x n Hb ltac:(lra) ltac:(lra) CT HS ER) as (BD & u & v & r & W1 & W2 & W3 & W4 & W5 & W6).
  rewrite Rmax_left in H by lra. injection H as <- <-. split; [exact BD|]. split; [reflexivity|]. exists u, v, r. rewrite !PofRatT_eq. auto 10.
Qed.
Theorem C24_products_FillEos : forall g o s, mode_of o InRhoSie ->
  fill_ok (TemperatureFromDensityInternalEnergy g) (PressureFromDensityInternalEnergy g) (SpecificHeatFromDensityInternalEnergy g)
          (BulkModulusFromDensityInternalEnergy g) InRhoSie o s (FillEos g o s).
Proof.
  intros g [fr ft fs fp fc fb] [r t e p c b]. unfold mode_of. cbn [f_rho f_sie]. intros (-> & ->).
  unfold FillEos, cond_upd, fill_ok, fill_frame, fill_values. destruct ft, fp, fc, fb; cbn; repeat split; auto; discriminate.
Qed.
Theorem C58_davis_products_FillEos_rho_temp_refuted : forall g o s, f_sie o = true -> s_sie (FillEos g o s) = s_sie s.
Proof.
  intros g [fr ft fs fp fc fb] [r t e p c b]. cbn [f_sie]. intros ->. unfold FillEos, cond_upd. destruct ft, fp, fc, fb; reflexivity.
Qed.
(** the values at the reference state are those of the entry points at density 1/vc and that energy *)
Theorem C24_products_reference_values : forall g, admissible g -> exists rho sie temp,
  rho = 1 / vc g /\ temp = TemperatureFromDensityInternalEnergy g rho sie /\
  firstn 6 (ValuesAtReferenceState g) = (rho :: temp :: sie :: PressureFromDensityInternalEnergy g rho sie ::
     SpecificHeatFromDensityInternalEnergy g rho sie :: BulkModulusFromDensityInternalEnergy g rho sie :: nil)%list.
Proof.
  intros g HA. assert (Hvc : tiny <= vc g) by (apply HA). eexists _, _, _. split; [|split]; [|reflexivity|reflexivity]. apply ratio_pos. exact Hvc.
Qed.
Theorem C44_davis_products_CheckParams : forall g, CheckParams g = true <-> SMALL < n g /\ SMALL < Cv g /\ 0 < Abar g /\ 0 < Zbar g.
Proof.
  intros g. unfold CheckParams. rewrite !andb_true_iff.
  destruct (Rlt_bool_spec SMALL (n g)), (Rlt_bool_spec SMALL (Cv g)), (Rlt_bool_spec 0 (Abar g)), (Rlt_bool_spec 0 (Zbar g));
    split; intros HH; try (exfalso; intuition (discriminate || lra); fail); intuition lra.
Qed.
Example C24_products_instance : exists g, admissible g /\ CheckParams g = true /\ vc g = 1 /\ forall r, 1 / 100000 <= r <= 1000 -> ok_rho g r.
Proof.
  assert (HT : tiny < bpow radix2 (-200)) by (unfold tiny; apply bpow_lt; lia).
  assert (HT' : tiny < / 1000000000000000000000000000000). { eapply Rlt_trans; [exact HT|]. cbn. lra. }
  set (g := ctor 1 0 1 2 1 3 1 1 1). exists g. split; [|split; [|split; [reflexivity|]]].
  - split; [repeat eexists|]. unfold g, ctor; cbn. repeat split; lra.
  - unfold CheckParams, g, ctor. cbn. pose proof SMALL_lt_tiny. rewrite !Rlt_bool_true by lra. reflexivity.
  - intros r Hr. unfold ok_rho, g, ctor. cbn [vc k a b]. rewrite Rmult_1_r.
    assert (Q1 : / 1000 <= 1 / r). { apply Rmult_le_reg_r with r; [lra|]. replace (1 / r * r) with 1 by (field; lra). lra. }
    assert (E1 : forall z, z = 1 -> Rpower (1 / r) z = 1 / r) by (intros z ->; apply Rpower_1; lra).
    assert (E2 : Rpower (1 / r) (1 + 1) = 1 / r * (1 / r)) by (rewrite Rpower_plus, Rpower_1 by lra; reflexivity).
    rewrite E2, !E1 by ring. assert (/ 1000 * / 1000 <= 1 / r * (1 / r)) by (apply Rmult_le_compat; lra). repeat split; lra.
Qed.
Print Assumptions C24_products_round_trip.
Print Assumptions C24_products_entry_points_agree.
Print Assumptions C24_products_derivatives.
Print Assumptions C24_products_first_law.
Print Assumptions C24_products_density_from_PT.
Print Assumptions C24_products_FillEos.
Print Assumptions C58_davis_products_FillEos_rho_temp_refuted.
Print Assumptions C24_products_reference_values.
Print Assumptions C44_davis_products_CheckParams.
