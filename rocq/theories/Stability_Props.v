(** C89, C90: the two bulk moduli and thermodynamic stability *)
From Coq Require Import Reals Bool Lra Lia List Psatz.
From Flocq Require Import Core.
From Coquelicot Require Import Coquelicot.
From Verif Require Import Robust_Model Robust_Proofs Thermo_Spec Thermo_Tools Stability_Spec.
From Verif Require Ideal_Model Ideal_Props Stiff_Model Stiff_Props NobleAbel_Model NobleAbel_Props Carnahan_Model Carnahan_Props
  JWL_Model JWL_Props Vinet_Model Vinet_Props DavisProducts_Model DavisProducts_Props PowerMG_Model PowerMG_Props Gruneisen_Model Gruneisen_Props.
Local Open Scope R_scope.

(** the identity and the sign conditions give stability *)
Lemma identity_stable (P B G C : R -> R -> R) rho T K : is_isothermal_modulus P rho T K -> B rho T - K = rho * (G rho T * G rho T) * C rho T * T ->
  0 < rho -> 0 <= T -> 0 < C rho T -> 0 < K -> stable P B C rho T.
Proof.
  intros HK E Hr HT HC HP. split; [exact HC|]. exists K. refine (conj HK (conj HP _)).
  assert (0 <= rho * (G rho T * G rho T) * C rho T * T); [|lra]. apply Rmult_le_pos; [|exact HT]. apply Rmult_le_pos; [|lra]. apply Rmult_le_pos; [lra|apply Rle_0_sqr].
Qed.
Lemma SMALL_pos : 0 < SMALL.
Proof. unfold SMALL; pose proof (bpow_gt_0 radix2 (-1022)); lra. Qed.


(** ** ideal gas *)
Section I.
Import Ideal_Model.
Variable g : ideal.
Hypothesis HA : Ideal_Props.admissible g.
Variables rho T : R.
Hypothesis Hr : 0 < rho.
Hypothesis HT : 0 < T.
Lemma ideal_K : is_isothermal_modulus (PressureFromDensityTemperature g) rho T (gm1 g * rho * Cv g * T).
Proof.
  destruct HA as (HC & HG). exists (gm1 g * Cv g * T). split; [|ring].
  apply (derive_loc _ (fun r => gm1 g * r * Cv g * T)).
  - apply (loc_imp _ (fun y => 0 < y)); [|apply loc_gt, Hr]. intros y Hy. rewrite Ideal_Props.P_T_pos; lra.
  - auto_derive; [exact I|ring].
Qed.
Lemma ideal_B : BulkModulusFromDensityTemperature g rho T - gm1 g * rho * Cv g * T = rho * (GruneisenParam g rho T * GruneisenParam g rho T) * SpecificHeat g rho T * T.
Proof.
  destruct HA as (HC & HG). unfold BulkModulusFromDensityTemperature, GruneisenParam, SpecificHeat.
  rewrite Rmax_right; [ring|]. repeat apply Rmult_le_pos; lra.
Qed.
End I.
Theorem C89_ideal_moduli : forall g rho T, Ideal_Props.admissible g -> 0 < rho -> 0 < T ->
  moduli_identity (Ideal_Model.PressureFromDensityTemperature g) (Ideal_Model.BulkModulusFromDensityTemperature g) (Ideal_Model.GruneisenParam g) (Ideal_Model.SpecificHeat g) rho T.
Proof. intros g rho T HA Hr HT. eexists. split; [apply ideal_K; assumption|apply ideal_B; assumption]. Qed.
Theorem C89_ideal_stable : forall g rho T, Ideal_Props.admissible g -> 0 < rho -> 0 < T ->
  stable (Ideal_Model.PressureFromDensityTemperature g) (Ideal_Model.BulkModulusFromDensityTemperature g) (Ideal_Model.SpecificHeat g) rho T.
Proof.
  intros g rho T HA Hr HT. eapply (identity_stable _ _ (Ideal_Model.GruneisenParam g)); [apply ideal_K; assumption|apply ideal_B; assumption|exact Hr|lra| |].
  - apply HA.
  - destruct HA as (HC & HG). repeat apply Rmult_lt_0_compat; assumption.
Qed.

(** ** stiffened gas *)
Section S.
Import Stiff_Model.
Variable g : stiff.
Hypothesis HC : 0 < Cv g.
Hypothesis HG : 0 < gm1 g.
Hypothesis HP : 0 <= Pinf g.
Variables rho T : R.
Hypothesis Hr : 0 < rho.
Hypothesis HT : 0 < T.
Lemma stiff_K : is_isothermal_modulus (PressureFromDensityTemperature g) rho T (gm1 g * rho * Cv g * T).
Proof.
  exists (gm1 g * Cv g * T). split; [|ring].
  apply (derive_loc _ (fun r => gm1 g * r * Cv g * T - Pinf g)).
  - apply (loc_imp _ (fun y => 0 < y)); [|apply loc_gt, Hr]. intros y Hy. rewrite (Stiff_Props.P_T_eq g); try assumption; lra.
  - auto_derive; [exact I|ring].
Qed.
Lemma stiff_B : SMALL <= gm1 g * (gm1 g + 1) * rho * Cv g * T ->
  BulkModulusFromDensityTemperature g rho T - gm1 g * rho * Cv g * T = rho * (GruneisenParam g rho T * GruneisenParam g rho T) * SpecificHeat g rho T * T.
Proof. intros HS. unfold BulkModulusFromDensityTemperature, GruneisenParam, SpecificHeat. rewrite Rmax_right by exact HS. ring. Qed.
End S.
(** [SMALL], the smallest positive double the code floors with, is the only other lower limit on the state *)
Theorem C89_stiff_moduli : forall g rho T, 0 < Stiff_Model.Cv g -> 0 < Stiff_Model.gm1 g -> 0 <= Stiff_Model.Pinf g -> 0 < rho -> 0 < T ->
  SMALL <= Stiff_Model.gm1 g * (Stiff_Model.gm1 g + 1) * rho * Stiff_Model.Cv g * T ->
  moduli_identity (Stiff_Model.PressureFromDensityTemperature g) (Stiff_Model.BulkModulusFromDensityTemperature g) (Stiff_Model.GruneisenParam g) (Stiff_Model.SpecificHeat g) rho T.
Proof. intros. eexists. split; [apply stiff_K; assumption|apply stiff_B; assumption]. Qed.
(** no lower limit: flooring only raises the bulk modulus *)
Theorem C89_stiff_stable : forall g rho T, 0 < Stiff_Model.Cv g -> 0 < Stiff_Model.gm1 g -> 0 <= Stiff_Model.Pinf g -> 0 < rho -> 0 < T ->
  stable (Stiff_Model.PressureFromDensityTemperature g) (Stiff_Model.BulkModulusFromDensityTemperature g) (Stiff_Model.SpecificHeat g) rho T.
Proof.
  intros g rho T HC HG HP Hr HT. split; [exact HC|]. exists (Stiff_Model.gm1 g * rho * Stiff_Model.Cv g * T). refine (conj _ (conj _ _)).
  - apply stiff_K; assumption.
  - repeat apply Rmult_lt_0_compat; assumption.
  - unfold Stiff_Model.BulkModulusFromDensityTemperature. eapply Rle_trans; [|apply Rmax_r].
    set (a := Stiff_Model.gm1 g) in *. set (c := Stiff_Model.Cv g) in *.
    assert (0 < a * a * rho * c * T) by (repeat apply Rmult_lt_0_compat; assumption). lra.
Qed.

(** ** Noble-Abel gas below the covolume density *)
Section N.
Import NobleAbel_Model.
Variable g : noble.
Hypothesis HA : NobleAbel_Props.admissible g.
Variables rho T : R.
Hypothesis Hr : NobleAbel_Props.ok_rho g rho.
Hypothesis HT : 0 < T.
Let q := 1 - bb g * rho.
Lemma noble_K : SMALL < gm1 g * rho * Cv g * T / q -> is_isothermal_modulus (PressureFromDensityTemperature g) rho T (gm1 g * rho * Cv g * T / (q * q)).
Proof.
  intros HS. destruct HA as (HC & HG & Hb). destruct Hr as (R1 & R2 & R3). pose proof tiny_pos. fold q in R2, R3. exists (gm1 g * Cv g * T / (q * q)). split; [|field; lra].
  unfold PressureFromDensityTemperature. apply (derive_loc _ (fun r => Rmax SMALL (gm1 g * r * Cv g * T / (1 - bb g * r)))).
  - apply (loc_imp _ (fun y => tiny < 1 - bb g * y)); [|apply (loc_gt_f (fun y => 1 - bb g * y)); [|exact R2]].
    + intros y Hy. rewrite ratio_pos by lra. reflexivity.
    + apply (derive_cont _ _ (- bb g)). auto_derive; [exact I|ring].
  - apply is_derive_max_left; [|exact HS]. unfold q in *. auto_derive; [lra|field; lra].
Qed.
Lemma noble_B : SMALL <= gm1 g * (gm1 g + 1) * rho * Cv g * T / (q * q) ->
  BulkModulusFromDensityTemperature g rho T - gm1 g * rho * Cv g * T / (q * q) = rho * (GruneisenParam g rho T * GruneisenParam g rho T) * SpecificHeat g rho T * T.
Proof.
  intros HS. destruct Hr as (R1 & R2 & R3). pose proof tiny_pos. fold q in R2, R3. unfold BulkModulusFromDensityTemperature, GruneisenParam, SpecificHeat. fold q.
  rewrite !ratio_pos by lra. rewrite Rmax_right by exact HS. field. lra.
Qed.
Lemma noble_S : SMALL < gm1 g * rho * Cv g * T / q -> SMALL <= gm1 g * (gm1 g + 1) * rho * Cv g * T / (q * q).
Proof.
  intros HS. destruct HA as (HC & HG & Hb). destruct Hr as (R1 & R2 & R3). pose proof tiny_pos. fold q in R2, R3. pose proof SMALL_pos.
  assert (q <= 1) by (unfold q; assert (0 <= bb g * rho) by (apply Rmult_le_pos; lra); lra).
  replace (gm1 g * (gm1 g + 1) * rho * Cv g * T / (q * q)) with (gm1 g * rho * Cv g * T / q * ((gm1 g + 1) * / q)) by (field; lra).
  assert (1 <= / q) by (rewrite <- Rinv_1; apply Rinv_le_contravar; lra).
  assert (1 * 1 <= (gm1 g + 1) * / q) by (apply Rmult_le_compat; lra).
  apply Rle_trans with (gm1 g * rho * Cv g * T / q * 1); [lra|]. apply Rmult_le_compat_l; lra.
Qed.
End N.
(** wherever the pressure is above its floor SMALL *)
Theorem C89_noble_moduli : forall g rho T, NobleAbel_Props.admissible g -> NobleAbel_Props.ok_rho g rho -> 0 < T ->
  SMALL < NobleAbel_Model.gm1 g * rho * NobleAbel_Model.Cv g * T / (1 - NobleAbel_Model.bb g * rho) ->
  moduli_identity (NobleAbel_Model.PressureFromDensityTemperature g) (NobleAbel_Model.BulkModulusFromDensityTemperature g) (NobleAbel_Model.GruneisenParam g) (NobleAbel_Model.SpecificHeat g) rho T.
Proof. intros g rho T HA Hr HT HS. eexists. split; [apply noble_K; assumption|apply noble_B; [assumption|apply noble_S; assumption]]. Qed.
Theorem C89_noble_stable : forall g rho T, NobleAbel_Props.admissible g -> NobleAbel_Props.ok_rho g rho -> 0 < T ->
  SMALL < NobleAbel_Model.gm1 g * rho * NobleAbel_Model.Cv g * T / (1 - NobleAbel_Model.bb g * rho) ->
  stable (NobleAbel_Model.PressureFromDensityTemperature g) (NobleAbel_Model.BulkModulusFromDensityTemperature g) (NobleAbel_Model.SpecificHeat g) rho T.
Proof.
  intros g rho T HA Hr HT HS. assert (HA' := HA). destruct HA' as (HC & HG & Hb). assert (Hr' := Hr). destruct Hr' as (R1 & R2 & R3). pose proof tiny_pos.
  eapply (identity_stable _ _ (NobleAbel_Model.GruneisenParam g)); [apply noble_K; assumption|apply noble_B; [assumption|apply noble_S; assumption]|lra|lra|exact HC|].
  apply Rdiv_lt_0_compat; [repeat apply Rmult_lt_0_compat; lra|lra].
Qed.

(** ** Carnahan-Starling gas below the packing limit *)
Section CS.
Import Carnahan_Model.
Variable g : carnahan.
Hypothesis HA : Carnahan_Props.admissible g.
Variables rho T : R.
Hypothesis Hr : Carnahan_Props.ok_rho g rho.
Hypothesis HT : 0 < T.
Let Z := ZedFromDensity g rho.
Lemma carn_K : SMALL < Z * rho * T * Cv g * gm1 g -> is_isothermal_modulus (PressureFromDensityTemperature g) rho T (rho * (PartialRhoZedFromDensity g rho * T * Cv g * gm1 g)).
Proof.
  intros HS. destruct Hr as (R1 & R2 & R3 & R4). pose proof tiny_pos. pose proof (Carnahan_Props.eta_ne g rho R3) as Hne.
  exists (PartialRhoZedFromDensity g rho * T * Cv g * gm1 g). split; [|reflexivity].
  unfold PressureFromDensityTemperature, ZedFromDensity.
  apply (derive_loc _ (fun r => Rmax SMALL (Carnahan_Props.Zc (bb g * r) * r * T * Cv g * gm1 g))).
  - apply (loc_imp _ (fun y => tiny < (1 - bb g * y) ^ 3)); [|apply Carnahan_Props.loc3; exact R3]. intros y Hy. rewrite Carnahan_Props.Zed_eq by lra. reflexivity.
  - apply is_derive_max_left; [|unfold Z, ZedFromDensity in HS; rewrite Carnahan_Props.Zed_eq in HS by lra; exact HS]. unfold Carnahan_Props.Zc.
    auto_derive; [apply Rmult_integral_contrapositive; split; [exact Hne|]; apply Rmult_integral_contrapositive; split; [exact Hne|]; rewrite Rmult_1_r; exact Hne|].
    unfold PartialRhoZedFromDensity, PartialRhoZed. cbv zeta. rewrite ratio_pos by lra. field. exact Hne.
Qed.
Lemma carn_B : SMALL <= rho * Cv g * T * gm1 g * (PartialRhoZedFromDensity g rho + Z * Z * gm1 g) ->
  BulkModulusFromDensityTemperature g rho T - rho * (PartialRhoZedFromDensity g rho * T * Cv g * gm1 g) = rho * (GruneisenParam g rho T * GruneisenParam g rho T) * SpecificHeat g rho T * T.
Proof. intros HS. unfold BulkModulusFromDensityTemperature, GruneisenParam, SpecificHeat. fold Z. rewrite Rmax_right by exact HS. ring. Qed.
Lemma carn_P1 : 1 <= PartialRhoZedFromDensity g rho.
Proof.
  destruct HA as (HC & HG & Hb). destruct Hr as (R1 & R2 & R3 & R4). pose proof tiny_pos. unfold PartialRhoZedFromDensity, PartialRhoZed. cbv zeta. rewrite ratio_pos by lra.
  set (x := bb g * rho) in *. assert (0 <= x) by (apply Rmult_le_pos; lra).
  assert (0 <= x * (8 - 2 * x) / (1 - x) ^ 4); [|lra]. apply Rle_mult_inv_pos; [apply Rmult_le_pos; lra|lra].
Qed.
Lemma carn_S : SMALL < Z * rho * T * Cv g * gm1 g -> SMALL <= rho * Cv g * T * gm1 g * (PartialRhoZedFromDensity g rho + Z * Z * gm1 g).
Proof.
  intros HS. pose proof carn_P1 as P1. destruct HA as (HC & HG & Hb). destruct Hr as (R1 & R2 & R3 & R4). pose proof tiny_pos.
  set (w := rho * T * Cv g * gm1 g). assert (Hw : 0 < w) by (unfold w; repeat apply Rmult_lt_0_compat; lra).
  assert (HZ : Z <= PartialRhoZedFromDensity g rho).
  { unfold Z, ZedFromDensity, PartialRhoZedFromDensity, PartialRhoZed. cbv zeta. rewrite Carnahan_Props.Zed_eq by lra. rewrite ratio_pos by lra. unfold Carnahan_Props.Zc.
    set (x := bb g * rho) in *. assert (X : 0 <= x < 1) by (split; [apply Rmult_le_pos; lra|exact R2]).
    assert (D : 0 < 1 - x) by lra. assert (D4 : 0 < (1 - x) ^ 4) by (apply pow_lt; exact D).
    assert (E : 1 + x * (8 - 2 * x) / (1 - x) ^ 4 - (1 + x + x * x - x * x * x) / (1 - x) ^ 3 = (x * (8 - 2 * x) - x * (4 - 2 * x) * (1 - x)) / (1 - x) ^ 4) by (field; lra).
    assert (0 <= (x * (8 - 2 * x) - x * (4 - 2 * x) * (1 - x)) / (1 - x) ^ 4); [|lra].
    apply Rle_mult_inv_pos; [|exact D4]. replace (x * (8 - 2 * x) - x * (4 - 2 * x) * (1 - x)) with (x * (4 + 4 * x - 2 * (x * x))) by ring.
    apply Rmult_le_pos; [lra|]. assert (x * x <= x) by (rewrite <- (Rmult_1_r x) at 3; apply Rmult_le_compat_l; lra). lra. }
  assert (0 <= Z * Z * gm1 g) by (apply Rmult_le_pos; [apply Rle_0_sqr|lra]).
  replace (rho * Cv g * T * gm1 g * (PartialRhoZedFromDensity g rho + Z * Z * gm1 g)) with (w * (PartialRhoZedFromDensity g rho + Z * Z * gm1 g)) by (unfold w; ring).
  apply Rle_trans with (w * Z); [unfold w; lra|]. apply Rmult_le_compat_l; lra.
Qed.
End CS.
Theorem C89_carnahan_moduli : forall g rho T, Carnahan_Props.admissible g -> Carnahan_Props.ok_rho g rho -> 0 < T ->
  SMALL < Carnahan_Model.ZedFromDensity g rho * rho * T * Carnahan_Model.Cv g * Carnahan_Model.gm1 g ->
  moduli_identity (Carnahan_Model.PressureFromDensityTemperature g) (Carnahan_Model.BulkModulusFromDensityTemperature g) (Carnahan_Model.GruneisenParam g) (Carnahan_Model.SpecificHeat g) rho T.
Proof. intros g rho T HA Hr HT HS. eexists. split; [apply carn_K; assumption|apply carn_B; apply carn_S; assumption]. Qed.
Theorem C89_carnahan_stable : forall g rho T, Carnahan_Props.admissible g -> Carnahan_Props.ok_rho g rho -> 0 < T ->
  SMALL < Carnahan_Model.ZedFromDensity g rho * rho * T * Carnahan_Model.Cv g * Carnahan_Model.gm1 g ->
  stable (Carnahan_Model.PressureFromDensityTemperature g) (Carnahan_Model.BulkModulusFromDensityTemperature g) (Carnahan_Model.SpecificHeat g) rho T.
Proof.
  intros g rho T HA Hr HT HS. pose proof (carn_P1 g HA rho Hr) as P1. assert (HA' := HA). destruct HA' as (HC & HG & Hb). assert (Hr' := Hr). destruct Hr' as (R1 & R2). pose proof tiny_pos.
  eapply (identity_stable _ _ (Carnahan_Model.GruneisenParam g)); [apply carn_K; assumption|apply carn_B; apply carn_S; assumption|lra|lra|exact HC|].
  repeat apply Rmult_lt_0_compat; lra.
Qed.

(** ** JWL *)
Section J.
Import JWL_Model.
Variable g : jwl.
Hypothesis HA : JWL_Props.admissible g.
Variables rho T : R.
Hypothesis Hr : JWL_Props.ok_rho g rho.
Let x := ratio (rho0 g) rho.
Definition jwl_K : R := x * (A g * R1 g * sexp (- R1 g * x) + B g * R2 g * sexp (- R2 g * x)) + w g * rho * Cv g * T.
Lemma jwl_K_ok : is_isothermal_modulus (PressureFromDensityTemperature g) rho T jwl_K.
Proof.
  destruct HA as (H1 & H2 & H3 & H4 & H5 & H6 & H7 & _). pose proof tiny_pos. assert (Hp : tiny < rho) by apply Hr.
  exists (rho0 g / (rho * rho) * (A g * R1 g * sexp (- R1 g * ratio (rho0 g) rho) + B g * R2 g * sexp (- R2 g * ratio (rho0 g) rho)) + w g * Cv g * T). split.
  - apply (derive_loc _ (fun r => ReferencePressure g r + w g * r * Cv g * T)).
    + apply filter_forall. intros y. symmetry. apply JWL_Props.P_T_eq.
    + apply (is_derive_plus (V := R_NormedModule) (fun r => ReferencePressure g r) (fun r => w g * r * Cv g * T)).
      * apply JWL_Props.dPr; assumption.
      * auto_derive; [exact I|ring].
  - unfold jwl_K, x. rewrite ratio_pos by lra. field. lra.
Qed.
Lemma jwl_B : BulkModulusFromDensityTemperature g rho T - jwl_K = rho * (GruneisenParamFromDensityTemperature g rho T * GruneisenParamFromDensityTemperature g rho T) * SpecificHeatFromDensityTemperature g rho T * T.
Proof.
  unfold jwl_K, x, BulkModulusFromDensityTemperature, BulkModulusFromDensityInternalEnergy, InternalEnergyFromDensityTemperature, GruneisenParamFromDensityTemperature, SpecificHeatFromDensityTemperature, SpecificHeatFromDensityInternalEnergy.
  cbv zeta. ring.
Qed.
End J.
(** at every temperature, whatever the signs of the pressure coefficients *)
Theorem C89_jwl_moduli : forall g rho T, JWL_Props.admissible g -> JWL_Props.ok_rho g rho ->
  moduli_identity (JWL_Model.PressureFromDensityTemperature g) (JWL_Model.BulkModulusFromDensityTemperature g) (JWL_Model.GruneisenParamFromDensityTemperature g) (JWL_Model.SpecificHeatFromDensityTemperature g) rho T.
Proof. intros g rho T HA Hr. eexists. split; [apply jwl_K_ok; assumption|apply jwl_B]. Qed.
Theorem C89_jwl_stable : forall g rho T, JWL_Props.admissible g -> JWL_Props.ok_rho g rho -> 0 <= JWL_Model.A g -> 0 <= JWL_Model.B g -> 0 < T ->
  stable (JWL_Model.PressureFromDensityTemperature g) (JWL_Model.BulkModulusFromDensityTemperature g) (JWL_Model.SpecificHeatFromDensityTemperature g) rho T.
Proof.
  intros g rho T HA Hr HAp HBp HT. assert (HA' := HA). destruct HA' as (H1 & H2 & H3 & H4 & H5 & _). pose proof tiny_pos. assert (Hp : tiny < rho) by apply Hr.
  eapply (identity_stable _ _ (JWL_Model.GruneisenParamFromDensityTemperature g)); [apply jwl_K_ok; assumption|apply jwl_B|lra|lra| |].
  - unfold JWL_Model.SpecificHeatFromDensityTemperature, JWL_Model.SpecificHeatFromDensityInternalEnergy. lra.
  - unfold jwl_K. rewrite ratio_pos by lra. assert (X : 0 < JWL_Model.rho0 g / rho) by (apply Rdiv_lt_0_compat; lra). set (x := JWL_Model.rho0 g / rho) in *.
    assert (N : forall Rk, 0 < Rk -> 0 <= JWL_Model.sexp (- Rk * x)) by (intros Rk HR; apply JWL_Props.sexp_nonneg; assert (0 < Rk * x) by (apply Rmult_lt_0_compat; assumption); lra).
    assert (0 < JWL_Model.w g * rho * JWL_Model.Cv g * T) by (repeat apply Rmult_lt_0_compat; lra).
    pose proof (N _ H4) as N1. pose proof (N _ H5) as N2.
    assert (0 <= x * (JWL_Model.A g * JWL_Model.R1 g * JWL_Model.sexp (- JWL_Model.R1 g * x) + JWL_Model.B g * JWL_Model.R2 g * JWL_Model.sexp (- JWL_Model.R2 g * x))); [|lra].
    apply Rmult_le_pos; [lra|]. apply Rplus_le_le_0_compat; (apply Rmult_le_pos; [apply Rmult_le_pos; lra|assumption]).
Qed.

(** ** Vinet *)
Lemma psum_nonneg a h n : (forall k, (k < n)%nat -> 0 <= a k) -> 0 <= h -> 0 <= Vinet_Props.psum a h n.
Proof.
  intros Ha Hh. induction n as [|n IH]; [apply Rle_refl|]. cbn [Vinet_Props.psum]. apply Rplus_le_le_0_compat; [apply IH; intros; apply Ha; lia|].
  apply Rmult_le_pos; [apply Ha; lia|apply pow_le, Hh].
Qed.
Section V.
Import Vinet_Model Vinet_Props.
Variable N : nat.
Variable g : vinet.
Hypothesis OK : vinet_ok N g.
Variables rho T : R.
Hypothesis Hr : ok_rho g rho.
Lemma vinet_rho : 0 < rho.
Proof. destruct Hr as (H & _). pose proof tiny_pos. lra. Qed.
Lemma vinet_K : is_isothermal_modulus (PressureFromDensityTemperature N g) rho T (rho * dPr N g rho).
Proof. exists (dPr N g rho). split; [apply dP_drho_T; assumption|reflexivity]. Qed.
Lemma vinet_TB : TBulkModulusFromDensityTemperature N g rho T = rho * dPr N g rho.
Proof. unfold TBulkModulusFromDensityTemperature. destruct (F_eq N g OK rho T Hr) as (_ & _ & ->). ring. Qed.
Lemma vinet_B : 0 <= rho * dPr N g rho + T * (A0 g * B0 g) ^ 2 / (rho * Cv0 g) ->
  BulkModulusFromDensityTemperature N g rho T - rho * dPr N g rho = rho * (GruneisenParamFromDensityTemperature g rho T * GruneisenParamFromDensityTemperature g rho T) * SpecificHeatFromDensityTemperature g rho T * T.
Proof.
  intros HB. pose proof vinet_rho as Hp. pose proof (cv_pos N g OK) as HC. rewrite (B_T_eq N g OK); [|exact Hr|].
  - unfold GruneisenParamFromDensityTemperature, SpecificHeatFromDensityTemperature. destruct Hr as (_ & _ & _ & _ & H5). rewrite ratio_pos by lra. field. lra.
  - apply Rmult_le_reg_r with rho; [exact Hp|]. rewrite Rmult_0_l.
    replace ((dPr N g rho + T * (A0 g * B0 g * (A0 g * B0 g) / (rho * rho * Cv0 g))) * rho) with (rho * dPr N g rho + T * (A0 g * B0 g) ^ 2 / (rho * Cv0 g)) by (field; lra). exact HB.
Qed.
(** in compression, with non-negative expansion coefficients, the isotherm rises *)
Lemma vinet_dPr_pos : 0 < B0 g -> (forall k, (k < N)%nat -> 0 <= d g k) -> rho0 g <= rho -> 0 < dPr N g rho.
Proof.
  intros HB Hd Hc. pose proof vinet_rho as Hp. pose proof (r0_pos N g OK) as H0. pose proof (eta_pos N g OK) as He. pose proof (X_pos g rho) as HX. pose proof (X3 N g OK rho Hp) as X3'.
  assert (HX1 : X g rho <= 1).
  { destruct (Rle_dec (X g rho) 1) as [|n]; [assumption|]. exfalso. apply Rnot_le_lt in n. assert (1 < X g rho ^ 3) by (apply Rlt_pow_R1; [exact n|lia]).
    assert (rho0 g / rho <= 1). { apply Rmult_le_reg_r with rho; [exact Hp|]. replace (rho0 g / rho * rho) with (rho0 g) by (field; lra). lra. } lra. }
  unfold dPr. cbv zeta. set (x := X g rho) in *. set (h := 1 - x). assert (Hh : 0 <= h) by (unfold h; lra).
  assert (DK : forall k, (k < N + 2)%nat -> 0 <= dkg g k). { intros [|[|k]] Hk; cbn [dkg]; [lra|lra|]. replace (S (S k) - 2)%nat with k by lia. apply Hd. lia. }
  assert (HD : 1 <= Dh N g h).
  { unfold Dh. replace (N + 2)%nat with (S (S N)) by lia. rewrite psum_shift. change (dkg g 0) with 1.
    assert (0 <= psum (fun k => dkg g (S k)) h (S N)); [|assert (0 <= h * psum (fun k => dkg g (S k)) h (S N)) by (apply Rmult_le_pos; assumption); lra].
    apply psum_nonneg; [|exact Hh]. intros k Hk. apply DK. lia. }
  assert (HS : 0 <= psum (fun k => INR (S k) * dkg g (S k)) h (N + 1)).
  { apply psum_nonneg; [|exact Hh]. intros k Hk. apply Rmult_le_pos; [apply pos_INR|apply DK; lia]. }
  set (et := 3 / 2 * (BP0 g - 1)) in *.
  assert (P1 : 0 < B0 g / rho0 g * x * exp (et * h)). { repeat apply Rmult_lt_0_compat; try lra; [apply Rinv_0_lt_compat; lra|apply exp_pos]. }
  apply Rmult_lt_0_compat; [exact P1|].
  assert (P2 : 1 <= 1 + h * (et * x + 1)). { assert (0 <= h * (et * x + 1)); [|lra]. apply Rmult_le_pos; [exact Hh|]. assert (0 < et * x) by (apply Rmult_lt_0_compat; lra). lra. }
  assert (P3 : 1 * 1 <= (1 + h * (et * x + 1)) * Dh N g h) by (apply Rmult_le_compat; lra).
  assert (P4 : 0 <= x * h * psum (fun k => INR (S k) * dkg g (S k)) h (N + 1)) by (apply Rmult_le_pos; [apply Rmult_le_pos; lra|exact HS]). lra.
Qed.
(** in eight-fold expansion, without expansion coefficients, it falls *)
Lemma vinet_dPr_neg : 0 < B0 g -> (forall k, d g k = 0) -> rho <= rho0 g / 8 -> dPr N g rho < 0.
Proof.
  intros HB Hd Hc. pose proof vinet_rho as Hp. pose proof (r0_pos N g OK) as H0. pose proof (eta_pos N g OK) as He. pose proof (X_pos g rho) as HX. pose proof (X3 N g OK rho Hp) as X3'.
  assert (HX2 : 2 <= X g rho).
  { destruct (Rle_dec 2 (X g rho)) as [|n]; [assumption|]. exfalso. apply Rnot_le_lt in n.
    assert (8 <= rho0 g / rho). { apply Rmult_le_reg_r with rho; [exact Hp|]. replace (rho0 g / rho * rho) with (rho0 g) by (field; lra). lra. }
    assert (X g rho ^ 3 < 2 ^ 3); [|lra]. cbn [pow]. rewrite !Rmult_1_r. assert (X g rho * X g rho < 2 * 2) by (apply Rmult_le_0_lt_compat; lra). apply Rmult_le_0_lt_compat; try lra; try (apply Rmult_le_pos; lra). }
  unfold dPr. cbv zeta. set (x := X g rho) in *. set (h := 1 - x).
  assert (PZ : forall a n z, (forall k, a k = 0) -> psum a z n = 0). { intros a n z Ha. induction n as [|n IH]; [reflexivity|]. cbn [psum]. rewrite IH, Ha. ring. }
  assert (HD : Dh N g h = 1).
  { unfold Dh. replace (N + 2)%nat with (S (S N)) by lia. rewrite psum_shift. change (dkg g 0) with 1. rewrite PZ; [ring|]. intros [|k]; cbn [dkg]; [reflexivity|apply Hd]. }
  rewrite HD. rewrite (PZ (fun k => INR (S k) * dkg g (S k))); [|intros [|k]; cbn [dkg]; [ring|rewrite Hd; ring]].
  set (et := 3 / 2 * (BP0 g - 1)) in *.
  assert (P1 : 0 < B0 g / rho0 g * x * exp (et * h)). { repeat apply Rmult_lt_0_compat; try lra; [apply Rinv_0_lt_compat; lra|apply exp_pos]. }
  assert (P2 : (1 + h * (et * x + 1)) * 1 + x * h * 0 < 0).
  { assert (0 < et * x) by (apply Rmult_lt_0_compat; lra). assert (1 * (et * x + 1) <= (x - 1) * (et * x + 1)) by (apply Rmult_le_compat_r; lra). unfold h. lra. }
  set (a := B0 g / rho0 g * x * exp (et * h)) in *. set (b := (1 + h * (et * x + 1)) * 1 + x * h * 0) in *. assert (0 < a * (- b)) by (apply Rmult_lt_0_compat; lra). lra.
Qed.
End V.
(** wherever the isentropic bulk modulus is not negative (the code clips a negative one to zero) *)
Theorem C89_vinet_moduli : forall N g rho T, Vinet_Props.vinet_ok N g -> Vinet_Props.ok_rho g rho ->
  0 <= Vinet_Model.TBulkModulusFromDensityTemperature N g rho T + T * (Vinet_Model.A0 g * Vinet_Model.B0 g) ^ 2 / (rho * Vinet_Model.Cv0 g) ->
  moduli_identity (Vinet_Model.PressureFromDensityTemperature N g) (Vinet_Model.BulkModulusFromDensityTemperature N g)
    (Vinet_Model.GruneisenParamFromDensityTemperature g) (Vinet_Model.SpecificHeatFromDensityTemperature g) rho T /\
  is_isothermal_modulus (Vinet_Model.PressureFromDensityTemperature N g) rho T (Vinet_Model.TBulkModulusFromDensityTemperature N g rho T).
Proof.
  intros N g rho T OK Hr HB. rewrite (vinet_TB N g OK rho T Hr) in *. split; [|apply vinet_K; assumption].
  eexists. split; [apply vinet_K; assumption|apply vinet_B; assumption].
Qed.
Theorem C89_vinet_stable : forall N g rho T, Vinet_Props.vinet_ok N g -> Vinet_Props.ok_rho g rho -> 0 < Vinet_Model.B0 g ->
  (forall k, (k < N)%nat -> 0 <= Vinet_Model.d g k) -> Vinet_Model.rho0 g <= rho -> 0 <= T ->
  stable (Vinet_Model.PressureFromDensityTemperature N g) (Vinet_Model.BulkModulusFromDensityTemperature N g) (Vinet_Model.SpecificHeatFromDensityTemperature g) rho T.
Proof.
  intros N g rho T OK Hr HB Hd Hc HT. pose proof (vinet_rho g rho Hr) as Hp. pose proof (Vinet_Props.cv_pos N g OK) as HC.
  pose proof (vinet_dPr_pos N g OK rho Hr HB Hd Hc) as HK.
  assert (HK' : 0 < rho * Vinet_Props.dPr N g rho) by (apply Rmult_lt_0_compat; assumption).
  eapply (identity_stable _ _ (Vinet_Model.GruneisenParamFromDensityTemperature g)); [apply vinet_K; assumption| |exact Hp|exact HT|exact HC|exact HK'].
  apply vinet_B; try assumption.
  assert (0 <= T * (Vinet_Model.A0 g * Vinet_Model.B0 g) ^ 2 / (rho * Vinet_Model.Cv0 g)); [|lra].
  apply Rle_mult_inv_pos; [apply Rmult_le_pos; [exact HT|apply pow2_ge_0]|apply Rmult_lt_0_compat; assumption].
Qed.
(** Refuted: a Vinet solid without expansion coefficients is mechanically unstable at every density below an eighth of the reference density
    (its MinimumDensity is about 1e-5 of it): the isotherm falls with density at every temperature, and at low enough temperatures the
    isentropic bulk modulus, being negative, is reported as zero *)
Theorem C90_vinet_unstable_in_expansion_refuted : forall N g rho, Vinet_Props.vinet_ok N g -> Vinet_Props.ok_rho g rho -> 0 < Vinet_Model.B0 g ->
  (forall k, Vinet_Model.d g k = 0) -> rho <= Vinet_Model.rho0 g / 8 ->
  (forall T, Vinet_Model.TBulkModulusFromDensityTemperature N g rho T < 0 /\
     ~ stable (Vinet_Model.PressureFromDensityTemperature N g) (Vinet_Model.BulkModulusFromDensityTemperature N g) (Vinet_Model.SpecificHeatFromDensityTemperature g) rho T) /\
  exists Tc, 0 < Tc /\ forall T, T <= Tc -> Vinet_Model.BulkModulusFromDensityTemperature N g rho T = 0.
Proof.
  intros N g rho OK Hr HB Hd Hc. pose proof (vinet_rho g rho Hr) as Hp. pose proof (Vinet_Props.cv_pos N g OK) as HC.
  pose proof (vinet_dPr_neg N g OK rho Hr HB Hd Hc) as HK. split.
  - intros T. rewrite (vinet_TB N g OK rho T Hr). assert (0 < rho * (- Vinet_Props.dPr N g rho)) by (apply Rmult_lt_0_compat; lra). split; [lra|].
    intros (_ & K & (dd & D & E) & HKp & _). rewrite <- (is_derive_unique _ _ _ D) in E. rewrite (is_derive_unique _ _ _ (Vinet_Props.dP_drho_T N g OK rho T Hr)) in E. lra.
  - set (c := (Vinet_Model.A0 g * Vinet_Model.B0 g) * (Vinet_Model.A0 g * Vinet_Model.B0 g) / (rho * rho * Vinet_Model.Cv0 g)).
    assert (Hcc : 0 <= c). { apply Rle_mult_inv_pos; [apply Rle_0_sqr|]. apply Rmult_lt_0_compat; [apply Rmult_lt_0_compat; assumption|exact HC]. }
    exists (- Vinet_Props.dPr N g rho / (c + 1)). split; [apply Rdiv_lt_0_compat; lra|]. intros T HT.
    unfold Vinet_Model.BulkModulusFromDensityTemperature. cbv zeta. destruct (Vinet_Props.F_eq N g OK rho T Hr) as (_ & _ & E).
    assert (ES : Vinet_Model.o_soundspeed (Vinet_Model.Vinet_F_DT_func N g rho T) = sqrt (Rmax 0 (Vinet_Model.o_dpdrho (Vinet_Model.Vinet_F_DT_func N g rho T) +
      T * ratio (Vinet_Model.A0 g * Vinet_Model.B0 g * (Vinet_Model.A0 g * Vinet_Model.B0 g)) (rho * rho * Vinet_Model.Cv0 g)))) by reflexivity.
    rewrite ES, E. assert (H4 : tiny < rho * rho * Vinet_Model.Cv0 g) by apply Hr. rewrite ratio_pos by lra. fold c.
    rewrite Rmax_left; [rewrite sqrt_0; ring|].
    assert (T * (c + 1) <= - Vinet_Props.dPr N g rho). { apply Rmult_le_compat_r with (r := c + 1) in HT; [|lra]. replace (- Vinet_Props.dPr N g rho / (c + 1) * (c + 1)) with (- Vinet_Props.dPr N g rho) in HT by (field; lra). exact HT. }
    destruct (Rle_dec T 0) as [n|n]; [assert (0 <= - T * c) by (apply Rmult_le_pos; lra); lra|lra].
Qed.

(** ** Davis products *)
Section DP.
Import DavisProducts_Model DavisProducts_Props.
Variable g : products.
Hypothesis HA : admissible g.
Variables rho T : R.
Hypothesis Hr : ok_rho g rho.
Definition products_K : R := BulkModulusFromDensityTemperature g rho T - rho * (Gamma g rho * Gamma g rho) * Cv g * T.
Lemma products_K_ok : is_isothermal_modulus (PressureFromDensityTemperature g) rho T products_K.
Proof.
  assert (HA' := HA). destruct HA' as ((a0 & b0 & k0 & n0 & v0 & p0 & c0 & A0 & Z0 & Eg) & Hn & Hv & Hpc & HCv & Hka & HCk).
  assert (Haon : aon g = a g / n g) by (rewrite Eg; reflexivity). clear Eg. destruct (ok_pos g rho Hr) as (Hp & H2). pose proof tiny_pos as Ht.
  assert (E : forall z, ok_rho g z -> PressureFromDensityTemperature g z T = PsC g z + z * GaC g z * (Cv g * (T - TsC g z))).
  { intros z Hz. unfold PressureFromDensityTemperature, PressureFromDensityInternalEnergy, InternalEnergyFromDensityTemperature.
    rewrite Ps_eq, Gamma_eq, Es_eq, Ts_eq; auto. ring. }
  assert (D1 : is_derive (PsC g) rho (dPs g rho)) by (apply PsC_derive; auto).
  assert (D2 : is_derive (GaC g) rho ((1 - b g) * dF g rho)) by (apply GaC_derive; auto).
  assert (D3 : is_derive (TsC g) rho (TsC g rho * GaC g rho / rho)) by (apply TsC_derive; auto).
  exists (dPs g rho + (GaC g rho + rho * ((1 - b g) * dF g rho)) * (Cv g * (T - TsC g rho)) - rho * GaC g rho * (Cv g * (TsC g rho * GaC g rho / rho))). split.
  - apply (via g ltac:(assumption) _ (fun z => PsC g z + z * GaC g z * (Cv g * (T - TsC g z)))); [exact E|exact Hr|].
    set (ts' := TsC g rho * GaC g rho / rho) in *. set (ps' := dPs g rho) in *. set (ga' := (1 - b g) * dF g rho) in *.
    pose proof (is_derive_unique _ _ _ D1) as U1. pose proof (is_derive_unique _ _ _ D2) as U2. pose proof (is_derive_unique _ _ _ D3) as U3.
    change (fun x => PsC g x) with (PsC g) in U1. change (fun x => GaC g x) with (GaC g) in U2. change (fun x => TsC g x) with (TsC g) in U3.
    auto_derive; [repeat split; eexists; eassumption|].
    change (fun x => PsC g x) with (PsC g). change (fun x => GaC g x) with (GaC g). change (fun x => TsC g x) with (TsC g). rewrite U1, U2, U3. ring.
  - unfold products_K, BulkModulusFromDensityTemperature. rewrite bmod_eq; auto. unfold InternalEnergyFromDensityTemperature. rewrite Gamma_eq, Es_eq, Ts_eq; auto. field. lra.
Qed.
End DP.
Theorem C89_davis_products_moduli : forall g rho T, DavisProducts_Props.admissible g -> DavisProducts_Props.ok_rho g rho ->
  moduli_identity (DavisProducts_Model.PressureFromDensityTemperature g) (DavisProducts_Model.BulkModulusFromDensityTemperature g)
    (DavisProducts_Model.GruneisenParamFromDensityTemperature g) (DavisProducts_Model.SpecificHeatFromDensityTemperature g) rho T.
Proof.
  intros g rho T HA Hr. eexists. split; [apply products_K_ok; assumption|]. unfold products_K, DavisProducts_Model.GruneisenParamFromDensityTemperature, DavisProducts_Model.SpecificHeatFromDensityTemperature. ring.
Qed.

(** ** power-law Mie-Gruneisen in linear expansion *)
Section PM.
Import PowerMG_Model PowerMG_Props.
Variable g : powermg.
Hypothesis HA : admissible g.
Variables rho T : R.
Hypothesis Hr : tiny < rho.
Let eta := 1 - rho0 g / rho.
Hypothesis Hl : Pmin g / K g 0%nat < eta < 0.
Definition pm_K : R := rho0 g / rho * (K g 0%nat - G0 g * G0 g * Cv0 g * rho0 g * (T0 g * exp (G0 g * eta))).
Lemma pm_BT : BulkModulusFromDensityTemperature g rho T = rho0 g / rho * (K g 0%nat + G0 g * G0 g * Cv0 g * rho0 g * (T - T0 g * exp (G0 g * eta))).
Proof.
  pose proof tiny_pos. unfold BulkModulusFromDensityTemperature. cbv zeta. rewrite eta_eq by exact Hr. fold eta. rewrite Rle_bool_true by lra. rewrite Rlt_bool_false by lra.
  rewrite (ratio_pos (rho0 g) rho) by lra. reflexivity.
Qed.
Lemma pm_K_ok : is_isothermal_modulus (PressureFromDensityTemperature g) rho T pm_K.
Proof.
  destruct HA as (H0 & HT0 & HCv & HK & HP). pose proof tiny_pos. assert (L : lin g rho) by (split; assumption).
  exists (rho0 g / rho ^ 2 * (K g 0%nat - G0 g * rho0 g * Cv0 g * (T0 g * (G0 g * exp (G0 g * eta))))). split.
  - apply (derive_loc _ (fun z => (fun x => K g 0%nat * x + G0 g * rho0 g * Cv0 g * (T - T0 g * exp (G0 g * x))) (1 - rho0 g / z))).
    + apply (loc_imp _ (lin g)); [|apply lin_loc; auto]. intros z Hz. 
      assert (Z1 : tiny < z) by apply Hz. assert (Z2 : 1 - rho0 g / z <= 0) by (destruct Hz as (_ & _ & Hz); lra).
      unfold PressureFromDensityTemperature. rewrite (AT_exp g z Z1 Z2). rewrite AP_lin; auto.
    + apply (is_derive_comp (fun x => K g 0%nat * x + G0 g * rho0 g * Cv0 g * (T - T0 g * exp (G0 g * x))) (fun z => 1 - rho0 g / z) rho); [|apply et_derive; lra].
      fold eta. auto_derive; [exact I|ring].
  - unfold pm_K. field. lra.
Qed.
Lemma pm_B : BulkModulusFromDensityTemperature g rho T - pm_K = rho * (GruneisenParamFromDensityTemperature g rho T * GruneisenParamFromDensityTemperature g rho T) * SpecificHeatFromDensityTemperature g rho T * T.
Proof.
  pose proof tiny_pos. rewrite pm_BT. unfold pm_K, GruneisenParamFromDensityTemperature, SpecificHeatFromDensityTemperature. rewrite ratio_pos by lra. field. lra.
Qed.
Lemma pm_TB : TBulkModulusFromDensityTemperature g rho T = pm_K.
Proof. pose proof tiny_pos. unfold TBulkModulusFromDensityTemperature. rewrite pm_BT. rewrite ratio_pos by lra. unfold pm_K. ring. Qed.
End PM.
(** including the isothermal bulk modulus and thermal expansion queries of this class *)
Theorem C89_powermg_moduli : forall g rho T, PowerMG_Props.admissible g -> tiny < rho ->
  PowerMG_Model.Pmin g / PowerMG_Model.K g 0%nat < 1 - PowerMG_Model.rho0 g / rho < 0 ->
  moduli_identity (PowerMG_Model.PressureFromDensityTemperature g) (PowerMG_Model.BulkModulusFromDensityTemperature g)
    (PowerMG_Model.GruneisenParamFromDensityTemperature g) (PowerMG_Model.SpecificHeatFromDensityTemperature g) rho T /\
  is_isothermal_modulus (PowerMG_Model.PressureFromDensityTemperature g) rho T (PowerMG_Model.TBulkModulusFromDensityTemperature g rho T) /\
  (tiny <= Rabs (PowerMG_Model.TBulkModulusFromDensityTemperature g rho T) ->
   is_derive (fun t => PowerMG_Model.PressureFromDensityTemperature g rho t) T
     (PowerMG_Model.TExpansionCoeffFromDensityTemperature g rho T * PowerMG_Model.TBulkModulusFromDensityTemperature g rho T)).
Proof.
  intros g rho T HA Hr Hl. refine (conj _ (conj _ _)).
  - eexists. split; [apply pm_K_ok; assumption|apply pm_B; assumption].
  - rewrite pm_TB by assumption. apply pm_K_ok; assumption.
  - intros HB. assert (NZ : PowerMG_Model.TBulkModulusFromDensityTemperature g rho T <> 0) by (intros E; rewrite E, Rabs_R0 in HB; pose proof tiny_pos; lra).
    unfold PowerMG_Model.TExpansionCoeffFromDensityTemperature. rewrite ratio_abs by exact HB.
    match goal with |- is_derive _ _ (?a / ?b * ?b) => replace (a / b * b) with a by (field; exact NZ) end.
    unfold PowerMG_Model.PressureFromDensityTemperature. auto_derive; [exact I|ring].
Qed.
(** stable as long as the thermal part of the reference isentrope does not outweigh K0 *)
Theorem C89_powermg_stable : forall g rho T, PowerMG_Props.admissible g -> tiny < rho ->
  PowerMG_Model.Pmin g / PowerMG_Model.K g 0%nat < 1 - PowerMG_Model.rho0 g / rho < 0 -> 0 <= PowerMG_Model.G0 g -> 0 <= T ->
  PowerMG_Model.G0 g * PowerMG_Model.G0 g * PowerMG_Model.Cv0 g * PowerMG_Model.rho0 g * PowerMG_Model.T0 g < PowerMG_Model.K g 0%nat ->
  stable (PowerMG_Model.PressureFromDensityTemperature g) (PowerMG_Model.BulkModulusFromDensityTemperature g) (PowerMG_Model.SpecificHeatFromDensityTemperature g) rho T.
Proof.
  intros g rho T HA Hr Hl HG HT HK. assert (HA' := HA). destruct HA' as (H0 & HT0 & HCv & HK0 & HP). pose proof tiny_pos.
  eapply (identity_stable _ _ (PowerMG_Model.GruneisenParamFromDensityTemperature g)); [apply pm_K_ok; assumption|apply pm_B; assumption|lra|exact HT|exact HCv|].
  unfold pm_K. apply Rmult_lt_0_compat; [apply Rdiv_lt_0_compat; lra|].
  set (x := 1 - PowerMG_Model.rho0 g / rho) in *. set (c := PowerMG_Model.G0 g * PowerMG_Model.G0 g * PowerMG_Model.Cv0 g * PowerMG_Model.rho0 g) in *.
  assert (Hc : 0 <= c) by (unfold c; repeat apply Rmult_le_pos; lra).
  assert (Ex : exp (PowerMG_Model.G0 g * x) <= 1).
  { assert (PowerMG_Model.G0 g * x <= 0) by (assert (0 <= PowerMG_Model.G0 g * (- x)) by (apply Rmult_le_pos; lra); lra).
    rewrite <- exp_0. destruct (Rle_lt_or_eq_dec _ _ H1) as [L|L]; [apply Rlt_le, exp_increasing, L|rewrite L; apply Rle_refl]. }
  assert (c * (PowerMG_Model.T0 g * exp (PowerMG_Model.G0 g * x)) <= c * (PowerMG_Model.T0 g * 1)).
  { apply Rmult_le_compat_l; [exact Hc|]. apply Rmult_le_compat_l; lra. }
  lra.
Qed.

(** ** Mie-Gruneisen with a Us-up fit *)
(** Refuted: with its constant-energy isotherms (e = Cv (T - T0)) the difference of the moduli is P Gamma instead of rho Gamma^2 Cv T, so the
    identity holds exactly where P = rho Gamma Cv T; and wherever the pressure is negative (any tension state, Gamma > 0) the isentropic
    modulus is below the isothermal one, which no stable material allows *)
Theorem C90_gruneisen_moduli_refuted : forall g rho T, Gruneisen_Props.regular g -> 0 < rho -> Gruneisen_Props.strictly_below_max g rho -> rho <> Gruneisen_Model.rho0 g ->
  let P := Gruneisen_Model.PressureFromDensityTemperature g in let B := Gruneisen_Model.BulkModulusFromDensityTemperature g in
  let G := Gruneisen_Model.GruneisenParamFromDensityTemperature g in let C := Gruneisen_Model.SpecificHeatFromDensityTemperature g in
  (exists K, is_isothermal_modulus P rho T K /\ B rho T - K = G rho T * P rho T) /\
  (G rho T <> 0 -> (moduli_identity P B G C rho T <-> P rho T = rho * G rho T * C rho T * T)) /\
  (0 < G rho T -> P rho T < 0 -> ~ stable P B C rho T).
Proof.
  intros g rho T (Hr0 & HCv & Hden) Hp Hm Hn P B G C.
  assert (Hcap : Gruneisen_Model.cap g rho = rho) by (apply Gruneisen_Props.cap_id, Gruneisen_Props.sbm, Hm).
  set (e := Gruneisen_Model.InternalEnergyFromDensityTemperature g rho T).
  assert (EP : P rho T = Gruneisen_Model.PressureFromDensityInternalEnergy g rho e) by (unfold P, Gruneisen_Model.PressureFromDensityTemperature; cbv zeta; rewrite Hcap; reflexivity).
  pose proof (Gruneisen_Props.dP_dr g Hr0 Hden rho e Hp Hm Hn) as D.
  assert (DP : is_derive (fun r => P r T) rho (Gruneisen_Model.dPres_drho_e g rho e)).
  { apply (derive_loc _ (fun r => Gruneisen_Model.PressureFromDensityInternalEnergy g r e)); [|exact D]. apply (loc_imp _ (fun y => Gruneisen_Props.below_max g y)); [|apply Gruneisen_Props.sbm_loc, Hm].
    intros y Hy. unfold P, Gruneisen_Model.PressureFromDensityTemperature. cbv zeta. rewrite Gruneisen_Props.cap_id by exact Hy. reflexivity. }
  assert (EB : B rho T - rho * Gruneisen_Model.dPres_drho_e g rho e = G rho T * P rho T).
  { rewrite EP. unfold B, G, Gruneisen_Model.BulkModulusFromDensityTemperature, Gruneisen_Model.GruneisenParamFromDensityTemperature. cbv zeta. rewrite Hcap. fold e.
    unfold Gruneisen_Model.BulkModulusFromDensityInternalEnergy. rewrite Hcap. destruct (Rlt_bool_spec rho (Gruneisen_Model.rho0 g)) as [L|L].
    - rewrite Gruneisen_Props.dPres_lo by (try apply Gruneisen_Props.sbm; assumption). rewrite Gruneisen_Props.Gamma_lo by (try apply Gruneisen_Props.sbm; assumption). ring.
    - field. lra. }
  assert (UK : forall K, is_isothermal_modulus P rho T K -> K = rho * Gruneisen_Model.dPres_drho_e g rho e).
  { intros K (dd & DD & ->). rewrite <- (is_derive_unique _ _ _ DD), (is_derive_unique _ _ _ DP). reflexivity. }
  assert (IK : is_isothermal_modulus P rho T (rho * Gruneisen_Model.dPres_drho_e g rho e)) by (eexists; split; [exact DP|reflexivity]).
  refine (conj _ (conj _ _)).
  - eexists. split; [exact IK|exact EB].
  - intros HG. split.
    + intros (K & HK & E). rewrite (UK K HK), EB in E. apply Rmult_eq_reg_l with (G rho T); [|exact HG]. rewrite E. ring.
    + intros E. eexists. split; [exact IK|]. rewrite EB, E. ring.
  - intros HG HP (_ & K & HK & _ & HB). rewrite (UK K HK) in HB. assert (0 < G rho T * (- P rho T)) by (apply Rmult_lt_0_compat; lra). lra.
Qed.
(** Refuted: the JWL constructor accepts pressure coefficients for which cold states have a negative bulk modulus, hence no real sound speed *)
Theorem C90_jwl_negative_bulk_modulus_refuted : exists g, JWL_Model.make (-1) 0 1 1 (1/4) 2 1 1 1 = Some g /\ JWL_Props.admissible g /\ JWL_Props.ok_rho g 1 /\
  forall T, 0 <= T <= 1 / 100 -> JWL_Model.BulkModulusFromDensityTemperature g 1 T < 0.
Proof.
  pose proof JWL_Props.tiny_demo. pose proof tiny_pos. pose proof JWL_Props.ln2_lb.
  exists (JWL_Model.ctor (-1) 0 1 1 (1/4) 2 1 1 1). refine (conj _ (conj _ (conj _ _))).
  - unfold JWL_Model.make, JWL_Model.CheckParams. cbn. rewrite !Rlt_bool_true by lra. reflexivity.
  - unfold JWL_Props.admissible. cbn. repeat split; lra.
  - unfold JWL_Props.ok_rho, min_exp_arg. cbn. repeat split; try lra; intros E; lra.
  - intros T HT. unfold JWL_Model.BulkModulusFromDensityTemperature, JWL_Model.BulkModulusFromDensityInternalEnergy, JWL_Model.InternalEnergyFromDensityTemperature. cbn [JWL_Model.ctor JWL_Model.w JWL_Model.rho0 JWL_Model.A JWL_Model.B JWL_Model.R1 JWL_Model.R2 JWL_Model.Cv]. cbv zeta.
    cbn. rewrite ratio_pos by lra. rewrite JWL_Props.sexp_mid by (unfold min_exp_arg; lra).
    assert (1 / 9 <= exp (- (1) * (2 / 1))).
    { replace (- (1) * (2 / 1)) with (- (1 + 1)) by field. rewrite exp_Ropp, exp_plus. pose proof exp_le_3. pose proof (exp_pos 1).
      assert (exp 1 * exp 1 <= 3 * 3) by (apply Rmult_le_compat; lra). unfold Rdiv. rewrite Rmult_1_l. apply Rinv_le_contravar; [apply Rmult_lt_0_compat; assumption|lra]. }
    match goal with |- context [exp ?z] => set (ee := exp z) in * end. lra.
Qed.

(** ** the hypotheses are met *)
Example C89_gas_instances :
  (exists g, Ideal_Props.admissible g /\ stable (Ideal_Model.PressureFromDensityTemperature g) (Ideal_Model.BulkModulusFromDensityTemperature g) (Ideal_Model.SpecificHeat g) (1/1000) 300) /\
  (exists g, NobleAbel_Props.admissible g /\ 0 < NobleAbel_Model.bb g /\
     stable (NobleAbel_Model.PressureFromDensityTemperature g) (NobleAbel_Model.BulkModulusFromDensityTemperature g) (NobleAbel_Model.SpecificHeat g) 1 300) /\
  (exists g, Carnahan_Props.admissible g /\ 0 < Carnahan_Model.bb g /\
     stable (Carnahan_Model.PressureFromDensityTemperature g) (Carnahan_Model.BulkModulusFromDensityTemperature g) (Carnahan_Model.SpecificHeat g) 1 300).
Proof.
  pose proof JWL_Props.tiny_demo as Ht. pose proof tiny_pos. pose proof SMALL_lt_tiny.
  refine (conj _ (conj _ _)).
  - destruct Ideal_Props.C16_instance as (g & _ & HA & _). exists g. split; [exact HA|]. apply C89_ideal_stable; [exact HA|lra|lra].
  - destruct NobleAbel_Props.C18_instance as (g & Hm & HA & Hr & _). exists g. split; [exact HA|].
    unfold NobleAbel_Model.make, NobleAbel_Model.ctor in Hm. cbv zeta in Hm. destruct (NobleAbel_Model.CheckParams _); [|discriminate]. injection Hm as <-.
    split; [cbn; lra|]. apply C89_noble_stable; [exact HA|exact Hr|lra|]. cbn. lra.
  - set (g := Carnahan_Model.mkCarn 1 (1/2) (1/10) 0 300 1 0 1 1 300 1 1 1 1). exists g.
    assert (HA : Carnahan_Props.admissible g) by (unfold Carnahan_Props.admissible; cbn; lra).
    assert (HR : Carnahan_Props.ok_rho g 1) by (unfold Carnahan_Props.ok_rho; cbn; repeat split; lra).
    split; [exact HA|]. split; [cbn; lra|]. apply C89_carnahan_stable; [exact HA|exact HR|lra|].
    unfold Carnahan_Model.ZedFromDensity. rewrite Carnahan_Props.Zed_eq by (cbn; lra). unfold Carnahan_Props.Zc. cbn. lra.
Qed.
Example C89_solid_instances :
  (exists g, JWL_Props.admissible g /\ JWL_Props.ok_rho g 2 /\ stable (JWL_Model.PressureFromDensityTemperature g) (JWL_Model.BulkModulusFromDensityTemperature g) (JWL_Model.SpecificHeatFromDensityTemperature g) 2 300) /\
  (exists g, Vinet_Props.vinet_ok 39 g /\ Vinet_Model.rho0 g = 1 /\ stable (Vinet_Model.PressureFromDensityTemperature 39 g) (Vinet_Model.BulkModulusFromDensityTemperature 39 g) (Vinet_Model.SpecificHeatFromDensityTemperature g) 1 300) /\
  (exists g rho, DavisProducts_Props.admissible g /\ DavisProducts_Props.ok_rho g rho) /\
  (exists g rho, PowerMG_Props.admissible g /\ PowerMG_Model.G0 g = 1 /\ stable (PowerMG_Model.PressureFromDensityTemperature g) (PowerMG_Model.BulkModulusFromDensityTemperature g) (PowerMG_Model.SpecificHeatFromDensityTemperature g) rho 300) /\
  (exists g, Gruneisen_Props.regular g /\ Gruneisen_Props.strictly_below_max g (1/2) /\ 0 < Gruneisen_Model.GruneisenParamFromDensityTemperature g (1/2) 1 /\
     Gruneisen_Model.PressureFromDensityTemperature g (1/2) 1 < 0).
Proof.
  pose proof JWL_Props.tiny_demo as Ht. pose proof tiny_pos.
  refine (conj _ (conj _ (conj _ (conj _ _)))).
  - destruct JWL_Props.C21_instance as (g & _ & HA & Hr & _ & H1 & H2). exists g. refine (conj HA (conj Hr _)). apply C89_jwl_stable; try assumption. lra.
  - set (d2 := fun k : nat => match k with 0%nat => 5 | _ => 0 end).
    set (g := Vinet_Model.mkVinet 1 1 1 3 1 1 0 0 1 1 (Vinet_Model.InitializeVIP 39 1 1 1 3 1 1 d2) d2). exists g.
    assert (OK : Vinet_Props.vinet_ok 39 g).
    { split. { exists 1, 1, 1, 3, 1, 1, 0, 0, d2, 1, 1. unfold Vinet_Model.make. cbv zeta. fold g. unfold Vinet_Model.CheckParams, g; cbn.
        rewrite ?Rlt_bool_false by lra. rewrite ?Rlt_bool_true by lra. reflexivity. }
      unfold g; cbn [Vinet_Model.rho0 Vinet_Model.BP0 Vinet_Model.Cv0]. repeat split; lra. }
    assert (X1 : Vinet_Props.X g 1 = 1). { unfold Vinet_Props.X. cbn [g Vinet_Model.rho0]. replace (1 / 1) with 1 by field. rewrite ln_1. replace (0 / 3) with 0 by field. apply exp_0. }
    assert (K : Vinet_Props.ok_rho g 1). { unfold Vinet_Props.ok_rho. rewrite X1. cbn [g Vinet_Model.Cv0]. repeat split; lra. }
    refine (conj OK (conj eq_refl _)). apply C89_vinet_stable; [exact OK|exact K|cbn; lra| |cbn; lra|lra].
    intros k _. cbn [g Vinet_Model.d]. unfold d2. destruct k; lra.
  - destruct DavisProducts_Props.C24_products_instance as (g & HA & _ & _ & HR). exists g, 1. split; [exact HA|apply HR; lra].
  - set (g := PowerMG_Model.mkPM 1 1 1 1 0 0 (- (2)) 0%nat (fun _ => 4) 1 1). exists g, (4/5).
    assert (HA : PowerMG_Props.admissible g) by (unfold PowerMG_Props.admissible; cbn; lra).
    refine (conj HA (conj eq_refl _)). apply C89_powermg_stable; try (cbn; lra). exact HA.
  - set (g := Gruneisen_Model.mkGrun 1 0 0 0 1 0 1 1 0 1 None 1 1). exists g. refine (conj _ (conj _ (conj _ _))).
    + unfold Gruneisen_Props.regular, Gruneisen_Props.den, Gruneisen_Props.below_max. cbn. repeat split; try lra. intros; lra.
    + exact I.
    + unfold Gruneisen_Model.GruneisenParamFromDensityTemperature, Gruneisen_Model.Gamma, Gruneisen_Model.cap. cbn. rewrite Rlt_bool_true by lra. lra.
    + unfold Gruneisen_Model.PressureFromDensityTemperature. cbv zeta. rewrite Gruneisen_Props.P_lo; [|exact I|unfold Gruneisen_Model.cap; cbn; lra].
      unfold Gruneisen_Model.InternalEnergyFromDensityTemperature, Gruneisen_Model.cap. cbn. lra.
Qed.
Example C90_vinet_instance : exists g, Vinet_Props.vinet_ok 39 g /\ Vinet_Props.ok_rho g (1/8) /\ 0 < Vinet_Model.B0 g /\ (forall k, Vinet_Model.d g k = 0) /\ 1 / 8 <= Vinet_Model.rho0 g / 8.
Proof.
  pose proof JWL_Props.tiny_demo as Ht. set (d2 := fun _ : nat => 0).
  set (g := Vinet_Model.mkVinet 1 1 1 3 1 1 0 0 1 1 (Vinet_Model.InitializeVIP 39 1 1 1 3 1 1 d2) d2). exists g.
  assert (OK : Vinet_Props.vinet_ok 39 g).
  { split. { exists 1, 1, 1, 3, 1, 1, 0, 0, d2, 1, 1. unfold Vinet_Model.make. cbv zeta. fold g. unfold Vinet_Model.CheckParams, g; cbn.
      rewrite ?Rlt_bool_false by lra. rewrite ?Rlt_bool_true by lra. reflexivity. }
    unfold g; cbn [Vinet_Model.rho0 Vinet_Model.BP0 Vinet_Model.Cv0]. repeat split; lra. }
  refine (conj OK (conj _ (conj _ (conj (fun _ => eq_refl) _)))); [|cbn; lra|cbn; lra].
  assert (X1 : Vinet_Props.X g (1/8) = 2).
  { unfold Vinet_Props.X. cbn [g Vinet_Model.rho0]. replace (1 / (1 / 8)) with (2 * (2 * 2)) by field. rewrite !ln_mult by lra. replace ((ln 2 + (ln 2 + ln 2)) / 3) with (ln 2) by field. apply exp_ln. lra. }
  unfold Vinet_Props.ok_rho. rewrite X1. cbn [g Vinet_Model.Cv0]. repeat split; lra.
Qed.
Print Assumptions C89_ideal_moduli.
Print Assumptions C89_ideal_stable.
Print Assumptions C89_stiff_moduli.
Print Assumptions C89_stiff_stable.
Print Assumptions C89_noble_moduli.
Print Assumptions C89_noble_stable.
Print Assumptions C89_carnahan_moduli.
Print Assumptions C89_carnahan_stable.
Print Assumptions C89_jwl_moduli.
Print Assumptions C89_jwl_stable.
Print Assumptions C89_vinet_moduli.
Print Assumptions C89_vinet_stable.
Print Assumptions C90_vinet_unstable_in_expansion_refuted.
Print Assumptions C89_davis_products_moduli.
Print Assumptions C89_powermg_moduli.
Print Assumptions C89_powermg_stable.
Print Assumptions C90_gruneisen_moduli_refuted.
Print Assumptions C90_jwl_negative_bulk_modulus_refuted.
