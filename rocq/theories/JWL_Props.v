(** C21: JWL *)
From Coq Require Import Reals Bool Lra Lia List.
From Flocq Require Import Core.
From Coquelicot Require Import Coquelicot.
From Verif Require Import Arith RootFinding_Model RootFinding_Proofs Robust_Model Robust_Proofs Thermo_Spec Thermo_Tools JWL_Model.
Local Open Scope R_scope.

Definition admissible (g : jwl) : Prop := 0 < w g /\ tiny <= rho0 g /\ tiny <= Cv g /\ 0 < R1 g /\ 0 < R2 g /\ tiny <= rho0 g * R1 g /\ tiny <= rho0 g * R2 g /\
  c1 g = ratio (A g) (rho0 g * R1 g) /\ c2 g = ratio (B g) (rho0 g * R2 g).
(** densities at which neither exponential sits exactly on the underflow cut-off of robust::safe_arg_exp *)
Definition ok_rho (g : jwl) rho : Prop := tiny < rho /\ - R1 g * (rho0 g / rho) <> min_exp_arg /\ - R2 g * (rho0 g / rho) <> min_exp_arg.

Lemma ln2_pos : 0 < ln 2.
Proof. rewrite <- ln_1. apply ln_increasing; lra. Qed.
Lemma sexp_lo y : y < min_exp_arg -> sexp y = 0.
Proof. intros H. unfold sexp, safe_arg_exp. rewrite Rlt_bool_true by exact H. reflexivity. Qed.
Lemma sexp_mid y : min_exp_arg <= y <= 0 -> sexp y = exp y.
Proof.
  intros H. unfold sexp, safe_arg_exp. rewrite Rlt_bool_false by lra. rewrite Rlt_bool_false; [reflexivity|].
  unfold max_exp_arg. pose proof ln2_pos. lra.
Qed.
Lemma min_neg : min_exp_arg < 0.
Proof. unfold min_exp_arg. pose proof ln2_pos. lra. Qed.
Lemma sexp_derive y : y < 0 -> y <> min_exp_arg -> is_derive sexp y (sexp y).
Proof.
  intros Hy Hn. destruct (Rtotal_order y min_exp_arg) as [H|[H|H]]; [|contradiction|].
  - rewrite sexp_lo by exact H. apply (derive_loc _ (fun _ => 0)).
    + apply (loc_imp _ (fun z => z < min_exp_arg)); [|apply loc_lt, H]. intros z Hz. symmetry. apply sexp_lo, Hz.
    + auto_derive; [exact I|reflexivity].
  - rewrite sexp_mid by lra. apply (derive_loc _ exp).
    + apply (loc_imp _ (fun z => min_exp_arg < z /\ z < 0)); [|apply loc_and; [apply loc_gt, H|apply loc_lt, Hy]].
      intros z Hz. symmetry. apply sexp_mid. lra.
    + auto_derive; [exact I|ring].
Qed.
Lemma sexp_nonneg y : y <= 0 -> 0 <= sexp y.
Proof. intros H. destruct (Rlt_dec y min_exp_arg); [rewrite sexp_lo; lra|]. rewrite sexp_mid by lra. apply Rlt_le, exp_pos. Qed.
Lemma sexp_mono x y : x <= y -> y <= 0 -> sexp x <= sexp y.
Proof.
  intros H Hy. destruct (Rlt_dec x min_exp_arg) as [L|L]; [rewrite sexp_lo by lra; apply sexp_nonneg; lra|].
  rewrite !sexp_mid by lra. destruct H as [H|H]; [apply Rlt_le, exp_increasing, H|subst; lra].
Qed.

Section J.
Variable g : jwl.
Hypothesis Hw : 0 < w g.
Hypothesis Hr0 : tiny <= rho0 g.
Hypothesis HCv : tiny <= Cv g.
Hypothesis HR1 : 0 < R1 g.
Hypothesis HR2 : 0 < R2 g.
Hypothesis Hd1 : tiny <= rho0 g * R1 g.
Hypothesis Hd2 : tiny <= rho0 g * R2 g.
Hypothesis Hc1 : c1 g = ratio (A g) (rho0 g * R1 g).
Hypothesis Hc2 : c2 g = ratio (B g) (rho0 g * R2 g).
Notation Pr := (ReferencePressure g).
Notation Er := (ReferenceEnergy g).
Notation P_e := (PressureFromDensityInternalEnergy g).
Notation P_T := (PressureFromDensityTemperature g).
Notation E_T := (InternalEnergyFromDensityTemperature g).
Notation T_e := (TemperatureFromDensityInternalEnergy g).
Notation B_e := (BulkModulusFromDensityInternalEnergy g).

Lemma roundtrip_T rho T : T_e rho (E_T rho T) = T.
Proof.
  unfold TemperatureFromDensityInternalEnergy, InternalEnergyFromDensityTemperature. pose proof tiny_pos. rewrite ratio_pos by exact HCv. field. lra.
Qed.
Lemma roundtrip_e rho e : E_T rho (T_e rho e) = e.
Proof.
  unfold TemperatureFromDensityInternalEnergy, InternalEnergyFromDensityTemperature. pose proof tiny_pos. rewrite ratio_pos by exact HCv. field. lra.
Qed.
Lemma P_T_eq rho T : P_T rho T = Pr rho + w g * rho * Cv g * T.
Proof. unfold PressureFromDensityTemperature, PressureFromDensityInternalEnergy, InternalEnergyFromDensityTemperature. ring. Qed.

(** one exponential term of the reference curve *)
Lemma dterm (K Rk : R) rho : 0 < Rk -> tiny < rho -> - Rk * (rho0 g / rho) <> min_exp_arg ->
  is_derive (fun r => K * sexp (- Rk * ratio (rho0 g) r)) rho (K * (Rk * rho0 g / (rho * rho)) * sexp (- Rk * ratio (rho0 g) rho)).
Proof.
  intros HRk Hr Hn. pose proof tiny_pos.
  apply (derive_loc _ (fun r => K * sexp (- Rk * (rho0 g / r)))).
  { apply (loc_imp _ (fun y => tiny < y)); [|apply loc_gt, Hr]. intros y Hy. rewrite ratio_pos by lra. reflexivity. }
  rewrite ratio_pos by lra.
  assert (Hneg : - Rk * (rho0 g / rho) < 0). { assert (0 < Rk * (rho0 g / rho)) by pos. lra. }
  apply (is_derive_eq _ _ (K * ((Rk * rho0 g / (rho * rho)) * sexp (- Rk * (rho0 g / rho))))); [|ring].
  apply (is_derive_scal (fun r => sexp (- Rk * (rho0 g / r)))).
  assert (D : is_derive (fun r => - Rk * (rho0 g / r)) rho (Rk * rho0 g / (rho * rho))). { auto_derive; [lra|]. field. lra. }
  exact (is_derive_comp sexp (fun r => - Rk * (rho0 g / r)) rho _ _ (sexp_derive _ Hneg Hn) D).
Qed.
Lemma dPr rho : ok_rho g rho -> is_derive (fun r => Pr r) rho
  (rho0 g / (rho * rho) * (A g * R1 g * sexp (- R1 g * ratio (rho0 g) rho) + B g * R2 g * sexp (- R2 g * ratio (rho0 g) rho))).
Proof.
  intros (H0 & H1 & H2). pose proof tiny_pos. unfold ReferencePressure. cbv zeta.
  apply (is_derive_eq _ _ (plus (A g * (R1 g * rho0 g / (rho * rho)) * sexp (- R1 g * ratio (rho0 g) rho))
     (B g * (R2 g * rho0 g / (rho * rho)) * sexp (- R2 g * ratio (rho0 g) rho)))); [|unfold plus; cbn; field; lra].
  apply (is_derive_plus (V := R_NormedModule)); apply dterm; assumption.
Qed.
Lemma dEr rho : ok_rho g rho -> is_derive (fun r => Er r) rho (Pr rho / (rho * rho)).
Proof.
  intros (H0 & H1 & H2). pose proof tiny_pos. unfold ReferenceEnergy. cbv zeta.
  apply (is_derive_eq _ _ (plus (c1 g * (R1 g * rho0 g / (rho * rho)) * sexp (- R1 g * ratio (rho0 g) rho))
     (c2 g * (R2 g * rho0 g / (rho * rho)) * sexp (- R2 g * ratio (rho0 g) rho)))).
  - apply (is_derive_plus (V := R_NormedModule)); apply dterm; assumption.
  - unfold plus; cbn. unfold ReferencePressure. rewrite Hc1, Hc2. cbv zeta. rewrite !(ratio_pos (A g)), !(ratio_pos (B g)) by assumption. field. lra.
Qed.
Lemma dP_de rho e : is_derive (fun s => P_e rho s) e (w g * rho).
Proof. unfold PressureFromDensityInternalEnergy. auto_derive; [exact I|ring]. Qed.
Lemma dP_dr rho e : ok_rho g rho -> is_derive (fun r => P_e r e) rho
  (rho0 g / (rho * rho) * (A g * R1 g * sexp (- R1 g * ratio (rho0 g) rho) + B g * R2 g * sexp (- R2 g * ratio (rho0 g) rho))
   + w g * (e - Er rho) - w g * rho * (Pr rho / (rho * rho))).
Proof.
  intros H. pose proof (dPr rho H) as D1. pose proof (dEr rho H) as D2. unfold PressureFromDensityInternalEnergy.
  set (d1 := _ * (_ + _)) in *. set (d2 := Pr rho / _) in *.
  assert (D3 : is_derive (fun r => w g * r * (e - Er r)) rho (w g * (e - Er rho) - w g * rho * d2)).
  { evar_last. - apply (is_derive_mult (fun r => w g * r) (fun r => e - Er r) rho (w g) (- d2)).
      + auto_derive; [exact I|ring].
      + apply (is_derive_eq _ _ (minus 0 d2)); [|unfold minus, plus, opp; cbn; ring]. 
        apply (is_derive_minus (V := R_NormedModule)); [auto_derive; [exact I|reflexivity]|exact D2].
      + intros; apply Rmult_comm.
    - unfold plus, mult; cbn. ring. }
  apply (is_derive_eq _ _ (plus d1 (w g * (e - Er rho) - w g * rho * d2))); [|unfold plus; cbn; ring].
  apply (is_derive_plus (V := R_NormedModule)); assumption.
Qed.
Lemma bmod_ok rho e : ok_rho g rho -> is_bulk_modulus P_e rho e (B_e rho e).
Proof.
  intros H. eexists _, _. refine (conj (dP_dr rho e H) (conj (dP_de rho e) _)). destruct H as (H & _). pose proof tiny_pos.
  unfold PressureFromDensityInternalEnergy, BulkModulusFromDensityInternalEnergy. cbv zeta. rewrite ratio_pos by lra. field. lra.
Qed.
(** monotone pressure along isotherms *)
Lemma Pr_mono x y : 0 <= A g -> 0 <= B g -> tiny <= x -> x <= y -> Pr x <= Pr y.
Proof.
  intros HA HB Hx Hxy. pose proof tiny_pos. unfold ReferencePressure. cbv zeta. rewrite !ratio_pos by lra.
  assert (Q : rho0 g / y <= rho0 g / x). { unfold Rdiv. apply Rmult_le_compat_l; [lra|]. apply Rinv_le_contravar; lra. }
  assert (Q0 : 0 < rho0 g / y) by pos.
  assert (M : forall Rk, 0 < Rk -> sexp (- Rk * (rho0 g / x)) <= sexp (- Rk * (rho0 g / y))).
  { intros Rk HRk. apply sexp_mono.
    - assert (Rk * (rho0 g / y) <= Rk * (rho0 g / x)) by (apply Rmult_le_compat_l; lra). lra.
    - assert (0 < Rk * (rho0 g / y)) by pos. lra. }
  apply Rplus_le_compat; apply Rmult_le_compat_l; auto.
Qed.
Lemma P_T_mono x y T : 0 <= A g -> 0 <= B g -> 0 < T -> tiny <= x -> x < y -> P_T x T < P_T y T.
Proof.
  intros HA HB HT Hx Hxy. pose proof tiny_pos. rewrite !P_T_eq. assert (Pr x <= Pr y) by (apply Pr_mono; lra).
  assert (w g * x * Cv g * T < w g * y * Cv g * T). { apply Rmult_lt_compat_r; [lra|]. apply Rmult_lt_compat_r; [lra|]. apply Rmult_lt_compat_l; lra. }
  lra.
Qed.
End J.

(** The reference curve is an isentrope: P_S = - de_S/dv, i.e. de_S/drho = P_S / rho^2 *)
Theorem C21_reference_isentrope : forall g rho, admissible g -> ok_rho g rho ->
  is_derive (ReferenceEnergy g) rho (ReferencePressure g rho / (rho * rho)).
Proof. intros g rho (H1 & H2 & H3 & H4 & H5 & H6 & H7 & H8 & H9) H. apply dEr; assumption. Qed.
Theorem C21_temperature_energy_round_trip : forall g rho, admissible g ->
  (forall T, TemperatureFromDensityInternalEnergy g rho (InternalEnergyFromDensityTemperature g rho T) = T) /\
  (forall e, InternalEnergyFromDensityTemperature g rho (TemperatureFromDensityInternalEnergy g rho e) = e).
Proof. intros g rho (H1 & H2 & H3 & _). split; intros; [apply roundtrip_T|apply roundtrip_e]; assumption. Qed.
(** the queries from (rho,T) are those from (rho,e) at the energy of that temperature, and conversely *)
Theorem C21_entry_points_agree : forall g rho e, admissible g ->
  PressureFromDensityTemperature g rho (TemperatureFromDensityInternalEnergy g rho e) = PressureFromDensityInternalEnergy g rho e /\
  BulkModulusFromDensityTemperature g rho (TemperatureFromDensityInternalEnergy g rho e) = BulkModulusFromDensityInternalEnergy g rho e /\
  SpecificHeatFromDensityTemperature g rho (TemperatureFromDensityInternalEnergy g rho e) = SpecificHeatFromDensityInternalEnergy g rho e /\
  GruneisenParamFromDensityTemperature g rho (TemperatureFromDensityInternalEnergy g rho e) = GruneisenParamFromDensityInternalEnergy g rho e.
Proof.
  intros g rho e (H1 & H2 & H3 & _). unfold PressureFromDensityTemperature, BulkModulusFromDensityTemperature, SpecificHeatFromDensityTemperature.
  rewrite roundtrip_e by assumption. repeat split.
Qed.
(** Mie-Gruneisen form about the documented reference curves *)
Theorem C21_pressure_is_mie_gruneisen : forall g rho e, admissible g -> tiny <= rho -> R1 g * rho0 g <= 1022 * ln 2 * rho -> R2 g * rho0 g <= 1022 * ln 2 * rho ->
  let eta := rho0 g / rho in
  let PS := A g * exp (- R1 g * eta) + B g * exp (- R2 g * eta) in
  let eS := A g / (rho0 g * R1 g) * exp (- R1 g * eta) + B g / (rho0 g * R2 g) * exp (- R2 g * eta) in
  PressureFromDensityInternalEnergy g rho e = PS + rho * w g * (e - eS) /\
  forall T, InternalEnergyFromDensityTemperature g rho T = eS + Cv g * T.
Proof.
  intros g rho e (H1 & H2 & H3 & H4 & H5 & H6 & H7 & H8 & H9) Hr K1 K2. cbv zeta. pose proof tiny_pos. pose proof ln2_pos.
  assert (M : forall Rk, 0 < Rk -> Rk * rho0 g <= 1022 * ln 2 * rho -> sexp (- Rk * (rho0 g / rho)) = exp (- Rk * (rho0 g / rho))).
  { intros Rk HRk K. apply sexp_mid. assert (0 < Rk * (rho0 g / rho)) by pos. split; [|lra]. unfold min_exp_arg.
    assert (Rk * (rho0 g / rho) <= 1022 * ln 2); [|lra]. replace (Rk * (rho0 g / rho)) with (Rk * rho0 g / rho) by (field; lra).
    apply Rle_div_l; lra. }
  unfold PressureFromDensityInternalEnergy, InternalEnergyFromDensityTemperature, ReferencePressure, ReferenceEnergy. cbv zeta.
  rewrite H8, H9, (ratio_pos (rho0 g)), (ratio_pos (A g)), (ratio_pos (B g)) by assumption. rewrite !M by assumption. split; [ring|]. intros; reflexivity.
Qed.
Theorem C21_derivatives : forall g rho e T, admissible g -> ok_rho g rho ->
  is_gruneisen (PressureFromDensityInternalEnergy g) rho e (GruneisenParamFromDensityInternalEnergy g rho e) /\
  is_bulk_modulus (PressureFromDensityInternalEnergy g) rho e (BulkModulusFromDensityInternalEnergy g rho e) /\
  is_specific_heat (InternalEnergyFromDensityTemperature g) rho T (SpecificHeatFromDensityTemperature g rho T).
Proof.
  intros g rho e T (H1 & H2 & H3 & H4 & H5 & H6 & H7 & H8 & H9) H. refine (conj _ (conj _ _)).
  - unfold is_gruneisen, GruneisenParamFromDensityInternalEnergy. apply (is_derive_eq _ _ (w g * rho)); [apply dP_de|ring].
  - apply bmod_ok; assumption.
  - unfold is_specific_heat, InternalEnergyFromDensityTemperature, SpecificHeatFromDensityTemperature, SpecificHeatFromDensityInternalEnergy.
    auto_derive; [exact I|ring].
Qed.
(** JWL obeys the first and second law: one entropy function serves every state *)
Theorem C21_first_law : forall g, admissible g -> exists S, forall rho T, ok_rho g rho -> 0 < T ->
  first_law S (InternalEnergyFromDensityTemperature g) (PressureFromDensityTemperature g) rho T.
Proof.
  intros g (H1 & H2 & H3 & H4 & H5 & H6 & H7 & H8 & H9).
  exists (fun rho T => Cv g * ln T - w g * Cv g * ln rho). intros rho T H HT. assert (H' := H). destruct H' as (Hr & _). pose proof tiny_pos.
  exists (Cv g), (ReferencePressure g rho / (rho * rho)). refine (conj _ (conj _ (conj _ _))).
  - unfold InternalEnergyFromDensityTemperature. auto_derive; [exact I|ring].
  - unfold InternalEnergyFromDensityTemperature. apply (is_derive_eq _ _ (plus (ReferencePressure g rho / (rho * rho)) 0)); [|unfold plus; cbn; ring].
    apply (is_derive_plus (V := R_NormedModule)); [apply dEr; assumption|auto_derive; [exact I|reflexivity]].
  - auto_derive; [lra|]. field. lra.
  - auto_derive; [lra|]. rewrite P_T_eq. field. lra.
Qed.
(** with non-negative A and B the pressure grows strictly with density on every isotherm *)
Theorem C21_pressure_monotone : forall g T x y, admissible g -> 0 <= A g -> 0 <= B g -> 0 < T -> tiny <= x -> x < y ->
  PressureFromDensityTemperature g x T < PressureFromDensityTemperature g y T.
Proof. intros g T x y (H1 & H2 & H3 & H4 & H5 & _). intros. apply P_T_mono; assumption. Qed.
(** (P,T) inversion: when it returns, density lies in the search interval, energy is the forward one, and rho and the exact solution (if there
    is one; it is unique when A, B >= 0) lie in one interval over which the pressure crosses P, of width at most 2e-8 unless
    the pressure at one of its ends is within 1e-8 of P. *)
Theorem C21_density_from_PT : forall g P T rho_in rho e, admissible g -> 0 <= A g -> 0 <= B g -> 0 < T ->
  let guess := if Rlt_bool rho_in (1 / 100000000) then rho0 g else rho_in in
  1 / 100000 <= guess <= 1000 ->
  PressureFromDensityTemperature g (1 / 100000) T <= P <= PressureFromDensityTemperature g 1000 T ->
  DensityEnergyFromPressureTemperature g P T rho_in = Some (rho, e) ->
  1 / 100000 <= rho <= 1000 /\ e = InternalEnergyFromDensityTemperature g rho T /\
  exists u v, 1 / 100000 <= u /\ u <= rho <= v /\ v <= 1000 /\
    PressureFromDensityTemperature g u T <= P <= PressureFromDensityTemperature g v T /\
    (forall r, tiny <= r -> PressureFromDensityTemperature g r T = P -> u <= r <= v) /\
    (v - u <= 2 / 100000000 \/
     Rmin (Rabs (PressureFromDensityTemperature g u T - P)) (Rabs (PressureFromDensityTemperature g v T - P)) <= 1 / 100000000).
Proof.
  intros g P T rho_in rho e (H1 & H2 & H3 & H4 & H5 & _) HA HB HT guess Hg HP H.
  assert (Htiny : tiny < 1 / 100000). { unfold tiny. apply Rlt_le_trans with (bpow radix2 (-20)); [apply bpow_lt; lia|]. cbn. lra. }
  unfold DensityEnergyFromPressureTemperature in H. fold guess in H.
  destruct (regula_falsi _ _ _ _ _ _ _) as [|st x n] eqn:ER; [discriminate|]. destruct st; [|discriminate]. destruct x as [x|]; [|discriminate].
  injection H as <- <-.
  assert (EQ : forall r, PofRatT g T r = PressureFromDensityTemperature g r T) by (intros r; rewrite P_T_eq; unfold PofRatT; ring).
  assert (HS : (PofRatT g T (1 / 100000) - P) * (PofRatT g T guess - P) <= 0 \/ (PofRatT g T guess - P) * (PofRatT g T 1000 - P) <= 0).
  { rewrite !EQ. destruct (Rle_dec (PressureFromDensityTemperature g guess T) P).
    - right. assert (0 <= (P - PressureFromDensityTemperature g guess T) * (PressureFromDensityTemperature g 1000 T - P)) by (apply Rmult_le_pos; lra). lra.
    - left. assert (0 <= (PressureFromDensityTemperature g guess T - P) * (P - PressureFromDensityTemperature g (1 / 100000) T)) by (apply Rmult_le_pos; lra). lra. }
  destruct (rf_bracketed (PofRatT g T) P guess (1 / 100000) 1000 (1 / 100000000) (1 / 100000000) x n Hg ltac:(lra) ltac:(lra) HS ER)
    as (u & v & U1 & U2 & U3 & U4 & U5 & U6).
  assert (UV : PressureFromDensityTemperature g u T <= PressureFromDensityTemperature g v T).
  { destruct U2 as [U2|U2]; [|subst; lra]. apply Rlt_le, P_T_mono; assumption || lra. }
  assert (PB : PressureFromDensityTemperature g u T <= P <= PressureFromDensityTemperature g v T).
  { unfold sign_change in U5. rewrite !EQ in U5. nra. }
  split; [lra|]. split; [reflexivity|]. exists u, v. refine (conj U1 (conj _ (conj U3 (conj PB (conj _ _))))).
  - lra.
  - intros r Hr Er. split; apply Rnot_lt_le; intros C.
    + assert (PressureFromDensityTemperature g r T < PressureFromDensityTemperature g u T) by (apply P_T_mono; assumption || lra). lra.
    + assert (PressureFromDensityTemperature g v T < PressureFromDensityTemperature g r T) by (apply P_T_mono; assumption || lra). lra.
  - rewrite !EQ in U6. destruct U6 as [U6|U6]; [left; lra|right; exact U6].
Qed.
(** FillEos in its supported mode *)
Theorem C21_FillEos : forall g o s, mode_of o InRhoSie ->
  fill_ok (TemperatureFromDensityInternalEnergy g) (PressureFromDensityInternalEnergy g) (SpecificHeatFromDensityInternalEnergy g)
          (BulkModulusFromDensityInternalEnergy g) InRhoSie o s (FillEos g o s).
Proof.
  intros g [fr ft fs fp fc fb] [r t e p c b]. unfold mode_of. cbn [f_rho f_sie]. intros (-> & ->).
  unfold FillEos, cond_upd, fill_ok, fill_frame, fill_values. destruct ft, fp, fc, fb; cbn; repeat split; auto; discriminate.
Qed.
(** Refuted: asked for pressure and energy from density and temperature, FillEos computes the pressure from the caller's stale energy *)
Theorem C58_jwl_FillEos_rho_temp_refuted : forall g o s, f_sie o = true -> s_sie (FillEos g o s) = s_sie s /\
  (f_press o = true -> s_press (FillEos g o s) = PressureFromDensityInternalEnergy g (s_rho s) (s_sie s)).
Proof.
  intros g [fr ft fs fp fc fb] [r t e p c b]. cbn [f_sie f_press]. intros ->. unfold FillEos, cond_upd.
  destruct ft, fp, fc, fb; cbn; auto; split; auto; discriminate.
Qed.
Theorem C21_reference_state : forall g, admissible g -> ok_rho g (rho0 g) -> exists rho T sie P cv bmod dpde dvdt,
  ValuesAtReferenceState g = (rho :: T :: sie :: P :: cv :: bmod :: dpde :: dvdt :: nil)%list /\
  sie = InternalEnergyFromDensityTemperature g rho T /\ is_specific_heat (InternalEnergyFromDensityTemperature g) rho T cv /\
  is_bulk_modulus (PressureFromDensityInternalEnergy g) rho sie bmod /\ is_derive (fun e => PressureFromDensityInternalEnergy g rho e) sie dpde.
Proof.
  intros g Ha Hok. eexists _, _, _, _, _, _, _, _. split; [reflexivity|]. split; [reflexivity|].
  destruct (C21_derivatives g (rho0 g) (InternalEnergyFromDensityTemperature g (rho0 g) 293) 293 Ha Hok) as (K1 & K2 & K3).
  refine (conj K3 (conj K2 _)). apply dP_de.
Qed.
(** concrete non-trivial instance: A = B = 1, rho0 = 2, R1 = 4, R2 = 1, w = 1/4, Cv = 1 *)
Definition demo := ctor 1 1 4 1 (1/4) 2 1 1 1.
Lemma tiny_demo : tiny < 1 / 1000000.
Proof. unfold tiny. apply Rlt_le_trans with (bpow radix2 (-20)); [apply bpow_lt; lia|]. cbn. lra. Qed.
Lemma demo_adm : make 1 1 4 1 (1/4) 2 1 1 1 = Some demo /\ admissible demo.
Proof.
  pose proof tiny_demo. split.
  - unfold make, CheckParams. cbn. rewrite !Rlt_bool_true by lra. reflexivity.
  - unfold admissible. cbn. repeat split; lra.
Qed.
Lemma ln2_lb : 1 / 2 <= ln 2.
Proof.
  pose proof (exp_ineq1_le (- ln 2)) as H. rewrite exp_Ropp, exp_ln in H by lra. lra.
Qed.
Example C21_instance : exists g, make 1 1 4 1 (1/4) 2 1 1 1 = Some g /\ admissible g /\ ok_rho g 2 /\ ok_rho g 1 /\ 0 <= A g /\ 0 <= B g.
Proof.
  exists demo. destruct demo_adm as (K1 & K2). split; [exact K1|]. split; [exact K2|]. pose proof tiny_demo. pose proof ln2_lb.
  unfold ok_rho, min_exp_arg. cbn. repeat split; try lra; intros E; lra.
Qed.
(** Refuted: the reported reference pressure is one atmosphere, whatever the pressure at the reference density, temperature and energy *)
Theorem C58_jwl_reference_pressure_refuted : exists g, make 1 1 4 1 (1/4) 2 1 1 1 = Some g /\ admissible g /\
  nth 3 (ValuesAtReferenceState g) 0 <> PressureFromDensityTemperature g (nth 0 (ValuesAtReferenceState g) 0) (nth 1 (ValuesAtReferenceState g) 0).
Proof.
  exists demo. destruct demo_adm as (K1 & K2). split; [exact K1|]. split; [exact K2|]. cbn [nth ValuesAtReferenceState].
  rewrite P_T_eq. unfold ReferencePressure. pose proof tiny_demo. pose proof tiny_pos. cbn. rewrite ratio_pos by lra.
  pose proof ln2_lb. rewrite !sexp_mid by (unfold min_exp_arg; lra).
  assert (M : forall y, y <= 0 -> exp y <= 1). { intros y [Hy|Hy]; [|subst; rewrite exp_0; lra]. rewrite <- exp_0. apply Rlt_le, exp_increasing, Hy. }
  match goal with |- ?l <> 1 * exp ?x + 1 * exp ?y + _ => pose proof (M x ltac:(lra)); pose proof (M y ltac:(lra)); set (ex := exp x) in *; set (ey := exp y) in * end.
  intros E. lra.
Qed.
Theorem C44_jwl_CheckParams : forall g, CheckParams g = true <-> 0 < w g /\ 0 < rho0 g /\ 0 < Cv g /\ 0 < Abar g /\ 0 < Zbar g.
Proof.
  intros g. unfold CheckParams. rewrite !andb_true_iff.
  destruct (Rlt_bool_spec 0 (w g)), (Rlt_bool_spec 0 (rho0 g)), (Rlt_bool_spec 0 (Cv g)), (Rlt_bool_spec 0 (Abar g)), (Rlt_bool_spec 0 (Zbar g));
    split; intros HH; try (exfalso; intuition (discriminate || lra); fail); intuition lra.
Qed.
(** Refuted: release builds accept R1 = 0 (its positivity is only a debug check), although c1 = A/(rho0 R1) divides by it *)
Theorem C62_jwl_R1_unchecked_refuted : exists g, make 1 1 0 1 1 1 1 1 1 = Some g /\ rho0 g * R1 g = 0.
Proof.
  exists (ctor 1 1 0 1 1 1 1 1 1). split; [|cbn; lra]. unfold make, CheckParams. cbn. rewrite !Rlt_bool_true by lra. reflexivity.
Qed.
Print Assumptions C21_reference_isentrope.
Print Assumptions C21_temperature_energy_round_trip.
Print Assumptions C21_entry_points_agree.
Print Assumptions C21_pressure_is_mie_gruneisen.
Print Assumptions C21_derivatives.
Print Assumptions C21_first_law.
Print Assumptions C21_pressure_monotone.
Print Assumptions C21_density_from_PT.
Print Assumptions C21_FillEos.
Print Assumptions C58_jwl_FillEos_rho_temp_refuted.
Print Assumptions C21_reference_state.
Print Assumptions C58_jwl_reference_pressure_refuted.
Print Assumptions C44_jwl_CheckParams.
Print Assumptions C62_jwl_R1_unchecked_refuted.
