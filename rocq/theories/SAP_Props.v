(** C20: SAP polynomial *)
From Coq Require Import Reals Bool Lra Lia List.
From Flocq Require Import Core.
From Coquelicot Require Import Coquelicot.
From Verif Require Import Robust_Model Thermo_Spec Thermo_Tools Fill_Model Fill_Proofs SAP_Model.
Local Open Scope R_scope.

Section P.
Variable g : sap.
Hypothesis H0 : 0 < rho0 g.
Notation P := (PressureFromDensityInternalEnergy g).
Notation B := (BulkModulusFromDensityInternalEnergy g).
Notation G := (GruneisenParamFromDensityInternalEnergy g).
(** one branch of the polynomial *)
Definition poly (a2 b2 mu sie : R) : R :=
  a0 g + a1 g * mu + a2 * mu * mu + a3 g * mu * mu * mu + sie * (b0 g + b1 g * mu + b2 * mu * mu + b3 g * mu * mu * mu).
Definition dpoly (a2 b2 mu sie : R) : R :=
  a1 g + 2 * a2 * mu + 3 * a3 g * mu * mu + sie * (b1 g + 2 * b2 * mu + 3 * b3 g * mu * mu).
Lemma dpoly_ok a2 b2 rho sie : is_derive (fun r => poly a2 b2 (r / rho0 g - 1) sie) rho (dpoly a2 b2 (rho / rho0 g - 1) sie / rho0 g).
Proof. unfold poly, dpoly. auto_derive; [lra|]. field. lra. Qed.
Lemma P_hi rho e : rho0 g <= rho -> P rho e = poly (a2c g) (b2c g) (rho / rho0 g - 1) e.
Proof.
  intros H. unfold PressureFromDensityInternalEnergy, MuFromDensity. rewrite Rle_bool_true; [reflexivity|].
  assert (1 <= rho / rho0 g). { apply Rle_div_r; lra. } lra.
Qed.
Lemma P_lo rho e : rho < rho0 g -> P rho e = poly (a2e g) (b2e g) (rho / rho0 g - 1) e.
Proof.
  intros H. unfold PressureFromDensityInternalEnergy, MuFromDensity. rewrite Rle_bool_false; [reflexivity|].
  assert (rho / rho0 g < 1). { apply Rlt_div_l; lra. } lra.
Qed.
Lemma B_hi rho e : rho0 g <= rho -> B rho e = rho * (dpoly (a2c g) (b2c g) (rho / rho0 g - 1) e / rho0 g).
Proof.
  intros H. unfold BulkModulusFromDensityInternalEnergy, MuFromDensity. rewrite Rle_bool_true.
  - unfold dpoly. field. lra.
  - assert (1 <= rho / rho0 g). { apply Rle_div_r; lra. } lra.
Qed.
Lemma B_lo rho e : rho < rho0 g -> B rho e = rho * (dpoly (a2e g) (b2e g) (rho / rho0 g - 1) e / rho0 g).
Proof.
  intros H. unfold BulkModulusFromDensityInternalEnergy, MuFromDensity. rewrite Rle_bool_false.
  - unfold dpoly. field. lra.
  - assert (rho / rho0 g < 1). { apply Rlt_div_l; lra. } lra.
Qed.
(** gluing two differentiable functions with equal value and derivative at the joint *)
Lemma glue (f f1 f2 : R -> R) (x d : R) : is_derive f1 x d -> is_derive f2 x d -> f1 x = f2 x ->
  (forall y, x <= y -> f y = f1 y) -> (forall y, y < x -> f y = f2 y) -> is_derive f x d.
Proof.
  intros D1 D2 E A1 A2. apply is_derive_Reals. apply is_derive_Reals in D1. apply is_derive_Reals in D2.
  intros eps He. destruct (D1 eps He) as (d1 & K1). destruct (D2 eps He) as (d2 & K2).
  assert (Hm : 0 < Rmin d1 d2) by (apply Rmin_pos; apply cond_pos).
  exists (mkposreal _ Hm). cbn. intros h Hh Hd.
  assert (Rabs h < d1) by (apply Rlt_le_trans with (1 := Hd), Rmin_l). assert (Rabs h < d2) by (apply Rlt_le_trans with (1 := Hd), Rmin_r).
  rewrite (A1 x) by lra. destruct (Rle_dec 0 h).
  - rewrite A1 by lra. apply K1; assumption.
  - rewrite A2 by lra. rewrite E. apply K2; assumption.
Qed.
Lemma dP_dr rho e : 0 < rho -> is_derive (fun r => P r e) rho (B rho e / rho).
Proof.
  intros Hr. destruct (Rtotal_order rho (rho0 g)) as [H|[H|H]].
  - rewrite B_lo by exact H. apply (is_derive_eq _ _ (dpoly (a2e g) (b2e g) (rho / rho0 g - 1) e / rho0 g)); [|field; lra].
    apply (derive_loc _ (fun r => poly (a2e g) (b2e g) (r / rho0 g - 1) e)); [|apply dpoly_ok].
    apply (loc_imp _ (fun y => y < rho0 g)); [|apply loc_lt, H]. intros y Hy. symmetry. apply P_lo, Hy.
  - rewrite B_hi by lra. apply (is_derive_eq _ _ (dpoly (a2c g) (b2c g) (rho / rho0 g - 1) e / rho0 g)); [|field; lra].
    subst rho. apply (glue _ (fun r => poly (a2c g) (b2c g) (r / rho0 g - 1) e) (fun r => poly (a2e g) (b2e g) (r / rho0 g - 1) e)).
    + apply dpoly_ok.
    + apply (is_derive_eq _ _ (dpoly (a2e g) (b2e g) (rho0 g / rho0 g - 1) e / rho0 g)); [apply dpoly_ok|]. unfold dpoly. field. lra.
    + unfold poly. field. lra.
    + intros y Hy. apply P_hi, Hy.
    + intros y Hy. apply P_lo, Hy.
  - rewrite B_hi by lra. apply (is_derive_eq _ _ (dpoly (a2c g) (b2c g) (rho / rho0 g - 1) e / rho0 g)); [|field; lra].
    apply (derive_loc _ (fun r => poly (a2c g) (b2c g) (r / rho0 g - 1) e)); [|apply dpoly_ok].
    apply (loc_imp _ (fun y => rho0 g < y)); [|apply loc_gt, H]. intros y Hy. symmetry. apply P_hi. lra.
Qed.
Lemma dP_de rho e : is_derive (fun s => P rho s) e (G rho e).
Proof.
  unfold PressureFromDensityInternalEnergy, GruneisenParamFromDensityInternalEnergy, MuFromDensity.
  destruct (Rle_bool 0 (rho / rho0 g - 1)); auto_derive; try exact I; ring.
Qed.
End P.

(** The pressure is the documented polynomial, with the compression coefficients exactly at and above the reference density. *)
Theorem C20_pressure : forall g rho e, 0 < rho0 g ->
  exists a2 b2 mu, mu = (rho - rho0 g) / rho0 g /\ (rho0 g <= rho -> a2 = a2c g /\ b2 = b2c g) /\ (rho < rho0 g -> a2 = a2e g /\ b2 = b2e g) /\
  PressureFromDensityInternalEnergy g rho e =
    (a0 g + a1 g * mu + a2 * mu ^ 2 + a3 g * mu ^ 3) + e * (b0 g + b1 g * mu + b2 * mu ^ 2 + b3 g * mu ^ 3).
Proof.
  intros g rho e H0. destruct (Rle_dec (rho0 g) rho) as [H|H].
  - exists (a2c g), (b2c g), ((rho - rho0 g) / rho0 g). refine (conj eq_refl (conj _ (conj _ _))); [auto|lra|].
    rewrite P_hi by assumption. unfold poly. field. lra.
  - exists (a2e g), (b2e g), ((rho - rho0 g) / rho0 g). refine (conj eq_refl (conj _ (conj _ _))); [lra|auto|].
    rewrite P_lo by lra. unfold poly. field. lra.
Qed.
(** What the two derivative queries return: at every density (the joint included) the bulk modulus is rho (dP/drho)_e, i.e. the first of
    the two terms of the isentropic bulk modulus; the Gruneisen query returns (dP/de)_rho, i.e. rho times the Gruneisen parameter. *)
Theorem C20_derivatives : forall g rho e, 0 < rho0 g -> 0 < rho ->
  (exists dPdr, is_derive (fun r => PressureFromDensityInternalEnergy g r e) rho dPdr /\
     BulkModulusFromDensityInternalEnergy g rho e = rho * dPdr) /\
  is_derive (fun s => PressureFromDensityInternalEnergy g rho s) e (GruneisenParamFromDensityInternalEnergy g rho e).
Proof.
  intros g rho e H0 Hr. split; [|apply dP_de]. eexists. split; [apply dP_dr; assumption|]. field. lra.
Qed.
(** exact size of the error in the bulk modulus and in the Gruneisen parameter *)
Theorem C59_sap_bulk_modulus_error : forall g rho e, 0 < rho0 g -> 0 < rho ->
  forall B, is_bulk_modulus (PressureFromDensityInternalEnergy g) rho e B ->
  B - BulkModulusFromDensityInternalEnergy g rho e =
  PressureFromDensityInternalEnergy g rho e / rho * GruneisenParamFromDensityInternalEnergy g rho e.
Proof.
  intros g rho e H0 Hr B (dr & de & D1 & D2 & E). pose proof (dP_dr g H0 rho e Hr) as K1. pose proof (dP_de g rho e) as K2.
  apply is_derive_unique in D1. apply is_derive_unique in D2. apply is_derive_unique in K1. apply is_derive_unique in K2.
  rewrite E, <- D1, <- D2. rewrite K1, K2. field. lra.
Qed.
Theorem C59_sap_gruneisen_error : forall g rho e G, rho <> 0 -> is_gruneisen (PressureFromDensityInternalEnergy g) rho e G ->
  GruneisenParamFromDensityInternalEnergy g rho e = rho * G.
Proof.
  intros g rho e G Hr H. unfold is_gruneisen in H. apply is_derive_unique in H. pose proof (dP_de g rho e) as K. apply is_derive_unique in K.
  rewrite <- H, K. reflexivity.
Qed.
(** Refuted: neither is the isentropic bulk modulus / the Gruneisen parameter (eos_sap_polynomial.hpp:131-151) *)
Theorem C59_sap_bulk_modulus_refuted : exists g rho e, CheckParams g = true /\ 0 < rho0 g /\ 0 < rho /\
  ~ is_bulk_modulus (PressureFromDensityInternalEnergy g) rho e (BulkModulusFromDensityInternalEnergy g rho e).
Proof.
  exists (mkSap 0 1 0 0 0 1 0 0 0 0 1 1 1), 2, 1. cbn [rho0]. 
  split. { unfold CheckParams. cbn. rewrite Rle_bool_true, !Rlt_bool_true by lra. reflexivity. }
  split; [lra|]. split; [lra|]. intros H. apply C59_sap_bulk_modulus_error in H; [|cbn; lra|lra]. revert H.
  unfold PressureFromDensityInternalEnergy, BulkModulusFromDensityInternalEnergy, GruneisenParamFromDensityInternalEnergy, MuFromDensity. cbn.
  rewrite Rle_bool_true by lra. lra.
Qed.
Theorem C59_sap_gruneisen_refuted : exists g rho e, CheckParams g = true /\ 0 < rho0 g /\ 0 < rho /\
  ~ is_gruneisen (PressureFromDensityInternalEnergy g) rho e (GruneisenParamFromDensityInternalEnergy g rho e).
Proof.
  exists (mkSap 0 1 0 0 0 1 0 0 0 0 1 1 1), 2, 1. cbn [rho0]. 
  split. { unfold CheckParams. cbn. rewrite Rle_bool_true, !Rlt_bool_true by lra. reflexivity. }
  split; [lra|]. split; [lra|]. intros H. apply C59_sap_gruneisen_error in H; [|lra]. revert H.
  unfold GruneisenParamFromDensityInternalEnergy, MuFromDensity. cbn. rewrite Rle_bool_true by lra. lra.
Qed.
(** pressure continuous across the joint for every set of coefficients *)
Theorem C20_pressure_continuous : forall g rho e, 0 < rho0 g -> 0 < rho -> continuous (fun r => PressureFromDensityInternalEnergy g r e) rho.
Proof. intros g rho e H0 Hr. exact (derive_cont _ _ _ (dP_dr g H0 rho e Hr)). Qed.
(** FillEos in the supported input mode (density, energy) agrees with the scalar queries *)
Theorem C20_FillEos : forall g DE o s s', mode_of o InRhoSie -> FillEos g DE o s = Some s' ->
  fill_ok (TemperatureFromDensityInternalEnergy) (PressureFromDensityInternalEnergy g) (SpecificHeatFromDensityInternalEnergy)
          (BulkModulusFromDensityInternalEnergy g) InRhoSie o s s'.
Proof. intros g DE o s s' Hm H. exact (fill_std_ok _ _ _ _ _ _ _ InRhoSie o s s' Hm I H). Qed.
(** a request that leaves fewer than two of density, temperature, energy, pressure as inputs, energy being requested, is refused
    (UNDEFINED_ERROR) and nothing is returned *)
Theorem C20_FillEos_refuses : forall g DE o s, (inputs o < 2)%nat -> f_sie o = true -> FillEos g DE o s = None.
Proof. intros g DE o s. exact (Fill_Proofs.fill_std_refuses _ _ _ _ _ _ _ o s). Qed.
(** Refuted: "every request is either filled or refused": whenever the density is requested and the energy is an input the call is
    accepted - even with the energy as the only input - and the density is left as it was *)
Theorem C58_sap_FillEos_density_from_energy_refuted : forall g DE o s, f_rho o = true -> f_sie o = false ->
  exists s', FillEos g DE o s = Some s' /\ s_rho s' = s_rho s.
Proof. intros g DE o s. exact (Fill_Proofs.fill_std_silent _ _ _ _ _ _ _ o s). Qed.
Example C20_FillEos_refuses_instance : (inputs (mkF true false true true true true) < 2)%nat.
Proof. cbn. lia. Qed.
(** Refuted: in the (density, pressure) mode FillEos silently sets the energy to zero, whatever the input pressure *)
Theorem C58_sap_FillEos_rho_press_refuted : exists g DE o s s', CheckParams g = true /\ 0 < rho0 g /\ mode_of o InRhoPress /\
  FillEos g DE o s = Some s' /\ PressureFromDensityInternalEnergy g (s_rho s') (s_sie s') <> s_press s.
Proof.
  exists (mkSap 0 1 0 0 0 1 0 0 0 0 1 1 1), (fun _ _ => (0, 0)), (mkF false true true false false false), (mkS 1 0 0 1 0 0). eexists.
  refine (conj _ (conj _ (conj _ (conj eq_refl _)))).
  - unfold CheckParams. cbn. rewrite Rle_bool_true, !Rlt_bool_true by lra. reflexivity.
  - cbn. lra.
  - cbn. auto.
  - cbn. unfold PressureFromDensityInternalEnergy, MuFromDensity. cbn. rewrite Rle_bool_true by lra. lra.
Qed.
Theorem C44_sap_CheckParams : forall g, CheckParams g = true <-> 0 <= rho0 g /\ 0 < Abar g /\ 0 < Zbar g.
Proof.
  intros g. unfold CheckParams. rewrite !andb_true_iff.
  destruct (Rle_bool_spec 0 (rho0 g)), (Rlt_bool_spec 0 (Abar g)), (Rlt_bool_spec 0 (Zbar g)); split; intros HH;
    try (exfalso; intuition (discriminate || lra); fail); intuition lra.
Qed.
(** Refuted: a zero reference density, the divisor of every query, is accepted *)
Theorem C62_sap_zero_reference_density_refuted : exists g, CheckParams g = true /\ rho0 g = 0.
Proof. exists (mkSap 0 1 0 0 0 1 0 0 0 0 0 1 1). split; [|reflexivity]. apply C44_sap_CheckParams. cbn. lra. Qed.
Example C20_instance : exists g, CheckParams g = true /\ 0 < rho0 g /\ PressureFromDensityInternalEnergy g 1 2 = 23 / 2 /\ PressureFromDensityInternalEnergy g 3 2 = 20.
Proof.
  exists (mkSap 4 3 2 8 0 5 2 4 (-2) 0 2 1 1). split; [apply C44_sap_CheckParams; cbn; lra|]. cbn [rho0]. split; [lra|].
  unfold PressureFromDensityInternalEnergy, MuFromDensity. cbn. rewrite Rle_bool_false by lra. rewrite Rle_bool_true by lra. split; lra.
Qed.
Print Assumptions C20_pressure.
Print Assumptions C20_derivatives.
Print Assumptions C59_sap_bulk_modulus_error.
Print Assumptions C59_sap_gruneisen_error.
Print Assumptions C59_sap_bulk_modulus_refuted.
Print Assumptions C59_sap_gruneisen_refuted.
Print Assumptions C20_pressure_continuous.
Print Assumptions C20_FillEos.
Print Assumptions C20_FillEos_refuses.
Print Assumptions C58_sap_FillEos_density_from_energy_refuted.
Print Assumptions C58_sap_FillEos_rho_press_refuted.
Print Assumptions C44_sap_CheckParams.
Print Assumptions C62_sap_zero_reference_density_refuted.
