(** C17: stiffened gas *)
From Coq Require Import Reals Bool Lra Lia List.
From Flocq Require Import Core.
From Coquelicot Require Import Coquelicot.
From Verif Require Import Robust_Model Robust_Proofs Thermo_Spec Thermo_Tools Stiff_Model.
Local Open Scope R_scope.

Section Stiff.
Variable g : stiff.
Hypothesis HCv : 0 < Cv g.
Hypothesis Hg : 0 < gm1 g.
Hypothesis HP : 0 <= Pinf g.
Notation T_e := (TemperatureFromDensityInternalEnergy g).
Notation E_T := (InternalEnergyFromDensityTemperature g).
Notation P_T := (PressureFromDensityTemperature g).
Notation P_e := (PressureFromDensityInternalEnergy g).
Notation S_T := (EntropyFromDensityTemperature g).
Notation S_e := (EntropyFromDensityInternalEnergy g).
Notation B_e := (BulkModulusFromDensityInternalEnergy g).
Notation B_T := (BulkModulusFromDensityTemperature g).

Lemma Pir_pos r : 0 < r -> 0 <= Pinf g / r.
Proof. intros H. apply Rle_mult_inv_pos; assumption. Qed.
Lemma E_T_eq rho T : tiny <= rho -> 0 <= T -> E_T rho T = Cv g * T + Pinf g / rho + qq g.
Proof.
  intros Hr HT. unfold InternalEnergyFromDensityTemperature. pose proof tiny_pos. rewrite ratio_pos by lra.
  assert (0 <= Pinf g / rho) by (apply Pir_pos; lra). assert (0 <= Cv g * T) by (apply Rmult_le_pos; lra).
  replace ((rho * Cv g * T + Pinf g) / rho) with (Cv g * T + Pinf g / rho) by (field; lra). rewrite Rmax_right; lra.
Qed.
Lemma T_e_eq rho e : tiny <= rho * Cv g -> SMALL <= (rho * (e - qq g) - Pinf g) / (rho * Cv g) ->
  T_e rho e = (rho * (e - qq g) - Pinf g) / (rho * Cv g).
Proof. intros Hr HS. unfold TemperatureFromDensityInternalEnergy. rewrite ratio_pos by lra. apply Rmax_right. exact HS. Qed.
Lemma P_T_eq rho T : 0 <= rho -> 0 <= T -> P_T rho T = gm1 g * rho * Cv g * T - Pinf g.
Proof.
  intros Hr HT. unfold PressureFromDensityTemperature. apply Rmax_right.
  assert (0 <= gm1 g * rho * Cv g * T) by (repeat apply Rmult_le_pos; lra). lra.
Qed.
(** e above the cold curve q + Pinf/rho *)
Lemma P_e_eq rho e : 0 <= rho * (e - qq g) - Pinf g -> P_e rho e = gm1 g * rho * (e - qq g) - (gm1 g + 1) * Pinf g.
Proof.
  intros He. unfold PressureFromDensityInternalEnergy. apply Rmax_right.
  assert (0 <= gm1 g * (rho * (e - qq g) - Pinf g)) by (apply Rmult_le_pos; lra). lra.
Qed.

Lemma roundtrip_T rho T : tiny <= rho -> tiny <= rho * Cv g -> SMALL <= T -> T_e rho (E_T rho T) = T.
Proof.
  intros Hr Hc HT. pose proof tiny_pos. assert (0 < SMALL) by (unfold SMALL; pose proof (bpow_gt_0 radix2 (-1022)); lra).
  rewrite E_T_eq by lra.
  assert (X : (rho * (Cv g * T + Pinf g / rho + qq g - qq g) - Pinf g) / (rho * Cv g) = T) by (field; lra).
  rewrite T_e_eq; rewrite ?X; lra.
Qed.
Lemma roundtrip_e rho e : tiny <= rho -> tiny <= rho * Cv g -> SMALL <= (rho * (e - qq g) - Pinf g) / (rho * Cv g) -> E_T rho (T_e rho e) = e.
Proof.
  intros Hr Hc HT. pose proof tiny_pos. assert (0 < SMALL) by (unfold SMALL; pose proof (bpow_gt_0 radix2 (-1022)); lra).
  rewrite T_e_eq by assumption. rewrite E_T_eq by lra. field. lra.
Qed.
Lemma P_agree rho T : tiny <= rho -> 0 <= T -> P_T rho T = P_e rho (E_T rho T).
Proof.
  intros Hr HT. pose proof tiny_pos. rewrite E_T_eq by lra. rewrite P_T_eq by lra.
  rewrite P_e_eq. { field; lra. }
  replace (rho * (Cv g * T + Pinf g / rho + qq g - qq g) - Pinf g) with (rho * (Cv g * T)) by (field; lra). apply Rmult_le_pos; [lra|apply Rmult_le_pos; lra].
Qed.
Lemma B_agree rho T : tiny <= rho -> 0 <= T -> B_T rho T = B_e rho (E_T rho T).
Proof.
  intros Hr HT. pose proof tiny_pos. rewrite E_T_eq by lra. unfold BulkModulusFromDensityTemperature, BulkModulusFromDensityInternalEnergy.
  f_equal. field. lra.
Qed.
Lemma S_agree rho T : tiny <= rho -> 0 <= T -> tiny <= T0 g -> tiny <= vol0 g -> rho0 g * vol0 g = 1 ->
  sie0 g - qq g - Pinf g * vol0 g = Cv g * T0 g -> tiny <= Cv g * T0 g ->
  S_T rho T = S_e rho (E_T rho T).
Proof.
  intros Hr HT H0 Hv Hrv Hs Hc. pose proof tiny_pos. rewrite E_T_eq by lra.
  unfold EntropyFromDensityTemperature, EntropyFromDensityInternalEnergy. rewrite Hs.
  rewrite !ratio_pos by lra.
  assert (X1 : T / T0 g = (Cv g * T + Pinf g / rho + qq g - qq g - Pinf g * (1 / rho)) / (Cv g * T0 g)) by (field; lra).
  rewrite X1.
  assert (X2 : rho0 g / rho = 1 / rho / vol0 g).
  { assert (E : rho0 g = 1 / vol0 g) by (rewrite <- Hrv; field; lra). rewrite E. field. lra. }
  rewrite X2. ring.
Qed.
Lemma PT_inverse P T : 0 < T -> tiny <= P + Pinf g -> tiny <= gm1 g * Cv g * T -> tiny <= (P + Pinf g) / (gm1 g * Cv g * T) ->
  let (rho, e) := DensityEnergyFromPressureTemperature g P T in
  0 < rho /\ P_T rho T = P /\ P_e rho e = P /\ e = E_T rho T /\ (forall rho', 0 <= rho' -> P_T rho' T = P -> rho' = rho).
Proof.
  intros HT H1 H2 H3. unfold DensityEnergyFromPressureTemperature. rewrite !ratio_pos by lra. pose proof tiny_pos. pose proof SMALL_lt_tiny.
  set (rho := (P + Pinf g) / (gm1 g * Cv g * T)) in *. rewrite (Rmax_right SMALL rho) by lra.
  assert (HcT : 0 < Cv g * T) by (apply Rmult_lt_0_compat; lra).
  assert (EE : (P + (gm1 g + 1) * Pinf g) / (P + Pinf g) * Cv g * T + qq g = Cv g * T + Pinf g / rho + qq g).
  { unfold rho. field. lra. }
  assert (E1 : E_T rho T = Cv g * T + Pinf g / rho + qq g) by (apply E_T_eq; lra).
  rewrite EE, <- E1. assert (Hq : qq g <= E_T rho T) by apply Rmax_l. rewrite (Rmax_right (qq g)) by exact Hq.
  assert (PP : P_T rho T = P). { rewrite P_T_eq by lra. unfold rho. field. lra. }
  refine (conj _ (conj PP (conj _ (conj eq_refl _)))).
  - lra.
  - rewrite <- P_agree by lra. exact PP.
  - intros r' Hr' HP'. rewrite P_T_eq in HP' by lra. unfold rho. rewrite <- HP'. field. lra.
Qed.
(** derivatives *)
Lemma dP_de rho e : 0 < rho -> 0 < rho * (e - qq g) - Pinf g -> is_derive (fun s => P_e rho s) e (gm1 g * rho).
Proof.
  intros Hr He. unfold PressureFromDensityInternalEnergy. apply is_derive_max_left; [auto_derive; [exact I|ring]|].
  assert (0 < gm1 g * (rho * (e - qq g) - Pinf g)) by (apply Rmult_lt_0_compat; lra). lra.
Qed.
Lemma dP_dr rho e : 0 < rho -> 0 < rho * (e - qq g) - Pinf g -> is_derive (fun r => P_e r e) rho (gm1 g * (e - qq g)).
Proof.
  intros Hr He. unfold PressureFromDensityInternalEnergy. apply is_derive_max_left; [auto_derive; [exact I|ring]|].
  assert (0 < gm1 g * (rho * (e - qq g) - Pinf g)) by (apply Rmult_lt_0_compat; lra). lra.
Qed.
Lemma gruneisen_ok rho e : 0 < rho -> 0 < rho * (e - qq g) - Pinf g -> is_gruneisen P_e rho e (GruneisenParam g rho e).
Proof. intros Hr He. unfold is_gruneisen, GruneisenParam. rewrite Rmult_comm. apply dP_de; assumption. Qed.
Lemma bmod_ok rho e : 0 < rho -> 0 < rho * (e - qq g) - Pinf g -> SMALL <= gm1 g * (gm1 g + 1) * (rho * (e - qq g) - Pinf g) ->
  is_bulk_modulus P_e rho e (B_e rho e).
Proof.
  intros Hr He HS. exists (gm1 g * (e - qq g)), (gm1 g * rho). refine (conj (dP_dr _ _ Hr He) (conj (dP_de _ _ Hr He) _)).
  rewrite P_e_eq by lra. unfold BulkModulusFromDensityInternalEnergy. rewrite Rmax_right by exact HS. field; lra.
Qed.
Lemma cv_ok rho T : tiny <= rho -> 0 < T -> is_specific_heat E_T rho T (SpecificHeat g rho T).
Proof.
  intros Hr HT. unfold is_specific_heat, SpecificHeat. pose proof tiny_pos.
  apply (derive_loc _ (fun t => Cv g * t + Pinf g / rho + qq g)).
  - apply (loc_imp _ (fun y => 0 < y)); [|apply loc_gt; exact HT]. intros y Hy. rewrite E_T_eq by lra. reflexivity.
  - auto_derive; [exact I|ring].
Qed.
Lemma first_law_ok rho T : tiny <= T0 g -> tiny < rho -> 0 < T -> tiny < T / T0 g -> tiny < rho0 g / rho -> first_law S_T E_T P_T rho T.
Proof.
  intros HT0 Hr HT H1 H2. assert (Htp := tiny_pos). assert (Hr1 : tiny <= rho) by lra. assert (Hr0 : 0 < rho) by lra.
  assert (HT00 : 0 < T0 g) by lra.
  assert (Hrho0 : 0 < rho0 g). { apply Rmult_lt_reg_r with (/ rho); [apply Rinv_0_lt_compat; lra|]. rewrite Rmult_0_l. unfold Rdiv in H2. lra. }
  exists (Cv g), (- Pinf g / (rho * rho)). refine (conj (cv_ok rho T Hr1 HT) (conj _ (conj _ _))).
  - apply (derive_loc _ (fun r => Cv g * T + Pinf g / r + qq g)).
    + apply (loc_imp _ (fun y => tiny < y)); [|apply loc_gt; exact Hr]. intros y Hy. rewrite E_T_eq by lra. reflexivity.
    + auto_derive; [lra|field; lra].
  - unfold EntropyFromDensityTemperature.
    apply (derive_loc _ (fun t => Cv g * ln (t / T0 g) + gm1 g * Cv g * ln (plus_small (ratio (rho0 g) rho)) + qp g)).
    + apply (loc_imp _ (fun y => tiny < y / T0 g)); [|apply (loc_gt_f (fun y => y / T0 g)); [|exact H1]].
      * intros y Hy. rewrite (ratio_pos y) by lra. rewrite (plus_small_eq (y / T0 g)) by lra. reflexivity.
      * apply (derive_cont _ _ (/ T0 g)). auto_derive; [exact I|ring].
    + auto_derive; [apply Rdiv_lt_0_compat; lra|]. field. lra.
  - unfold EntropyFromDensityTemperature.
    apply (derive_loc _ (fun r => Cv g * ln (plus_small (ratio T (T0 g))) + gm1 g * Cv g * ln (rho0 g / r) + qp g)).
    + apply (loc_imp _ (fun y => tiny < y /\ tiny < rho0 g / y)); [|apply loc_and; [apply loc_gt; exact Hr|apply (loc_gt_f (fun y => rho0 g / y)); [|exact H2]]].
      * intros y [Hy1 Hy2]. rewrite (ratio_pos (rho0 g) y) by lra. rewrite (plus_small_eq (rho0 g / y)) by lra. reflexivity.
      * apply (derive_cont _ _ (- rho0 g / (rho * rho))). auto_derive; [lra|field; lra].
    + rewrite P_T_eq by lra. auto_derive; [split; [lra|split; [|exact I]; apply Rdiv_lt_0_compat; lra]|]. field. lra.
Qed.

(** FillEos *)
Lemma fill_RE o s s' : f_rho o = false -> f_sie o = false -> FillEos g o s = Some s' ->
  fill_ok T_e P_e (SpecificHeat g) B_e InRhoSie o s s'.
Proof.
  destruct o as [fr ft fs fp fc fb]; destruct s as [r t e p c b]. cbn [f_rho f_sie]. intros -> ->.
  unfold FillEos, cond_upd. cbn. destruct ft, fp, fc, fb; cbn; intros H; injection H as <-;
    unfold fill_ok, fill_frame, fill_values; cbn; repeat split; auto; discriminate.
Qed.
Lemma fill_RT o s s' : mode_of o InRhoTemp -> tiny <= s_rho s -> tiny <= s_rho s * Cv g -> SMALL <= s_temp s -> FillEos g o s = Some s' ->
  fill_ok T_e P_e (SpecificHeat g) B_e InRhoTemp o s s'.
Proof.
  destruct o as [fr ft fs fp fc fb]; destruct s as [r t e p c b]. unfold mode_of. cbn [f_rho f_sie f_temp f_press s_temp s_rho].
  intros (-> & -> & -> & ->) H1 H2 HT. pose proof (roundtrip_T r t H1 H2 HT) as HH.
  unfold FillEos, cond_upd. cbn. destruct fc, fb; cbn; intros H; injection H as <-;
    unfold fill_ok, fill_frame, fill_values; cbn; repeat split; auto; discriminate.
Qed.
Lemma fill_PT o s s' : mode_of o InPressTemp -> SMALL <= s_temp s -> tiny <= s_press s + Pinf g -> tiny <= gm1 g * Cv g * s_temp s ->
  tiny <= (s_press s + Pinf g) / (gm1 g * Cv g * s_temp s) -> tiny <= (s_press s + Pinf g) / (gm1 g * Cv g * s_temp s) * Cv g ->
  FillEos g o s = Some s' ->
  fill_ok T_e P_e (SpecificHeat g) B_e InPressTemp o s s'.
Proof.
  destruct o as [fr ft fs fp fc fb]; destruct s as [r t e p c b]. unfold mode_of. cbn [f_rho f_sie f_temp f_press s_temp s_press].
  intros (-> & -> & -> & ->) HT H1 H2 H3 H4.
  assert (HS : 0 < SMALL) by (unfold SMALL; pose proof (bpow_gt_0 radix2 (-1022)); lra).
  assert (HT' : 0 < t) by lra. pose proof SMALL_lt_tiny.
  pose proof (PT_inverse p t HT' H1 H2 H3) as HI. unfold FillEos, cond_upd. cbn [andb orb f_rho f_sie f_press f_temp f_bmod f_cv s_press s_temp].
  assert (Er : fst (DensityEnergyFromPressureTemperature g p t) = (p + Pinf g) / (gm1 g * Cv g * t)).
  { unfold DensityEnergyFromPressureTemperature. cbn [fst]. rewrite ratio_pos by lra. apply Rmax_right. lra. }
  destruct (DensityEnergyFromPressureTemperature g p t) as [r1 e1]. cbn [fst] in Er. destruct HI as (I1 & I2 & I3 & I4 & _).
  assert (I5 : T_e r1 e1 = t) by (rewrite I4; apply roundtrip_T; rewrite ?Er; lra).
  destruct fc, fb; cbn; intros HH; injection HH as <-;
    unfold fill_ok, fill_frame, fill_values; cbn; repeat split; auto; discriminate.
Qed.
Lemma fill_RP o s s' : mode_of o InRhoPress -> tiny <= gm1 g * s_rho s -> 0 < s_rho s -> - Pinf g <= s_press s -> FillEos g o s = Some s' ->
  fill_ok T_e P_e (SpecificHeat g) B_e InRhoPress o s s'.
Proof.
  destruct o as [fr ft fs fp fc fb]; destruct s as [r t e p c b]. unfold mode_of. cbn [f_rho f_sie f_temp f_press s_rho s_press].
  intros (-> & -> & -> & ->) H1 Hr H2.
  assert (I : P_e r (ratio (p + (gm1 g + 1) * Pinf g) (gm1 g * r) + qq g) = p).
  { rewrite ratio_pos by lra. 
    replace (P_e r ((p + (gm1 g + 1) * Pinf g) / (gm1 g * r) + qq g)) with (Rmax (- Pinf g) p); [apply Rmax_right; lra|].
    unfold PressureFromDensityInternalEnergy. f_equal. field. lra. }
  unfold FillEos, cond_upd. cbn. destruct fc, fb; cbn; intros H; injection H as <-;
    unfold fill_ok, fill_frame, fill_values; cbn; repeat split; auto; discriminate.
Qed.
End Stiff.

Definition admissible (g : stiff) : Prop := 0 < Cv g /\ 0 < gm1 g /\ 0 <= Pinf g.
(** states strictly above the cold curve e = q + Pinf/rho; magnitudes not denormal-like *)
Definition above_cold (g : stiff) rho e : Prop :=
  tiny <= rho /\ tiny <= rho * Cv g /\ SMALL <= (rho * (e - qq g) - Pinf g) / (rho * Cv g).
Definition normal_T (g : stiff) rho T : Prop := tiny <= rho /\ tiny <= rho * Cv g /\ SMALL <= T.
Lemma SMALL_pos : 0 < SMALL.
Proof. unfold SMALL; pose proof (bpow_gt_0 radix2 (-1022)); lra. Qed.
Lemma above_pos g rho e : admissible g -> above_cold g rho e -> 0 < rho /\ 0 < rho * (e - qq g) - Pinf g.
Proof.
  intros (A & B & C) (H1 & H2 & H3). pose proof tiny_pos. pose proof SMALL_pos. split; [lra|].
  assert (0 < (rho * (e - qq g) - Pinf g) / (rho * Cv g)) by lra.
  replace (rho * (e - qq g) - Pinf g) with ((rho * (e - qq g) - Pinf g) / (rho * Cv g) * (rho * Cv g)) by (field; lra).
  apply Rmult_lt_0_compat; lra.
Qed.

Theorem C17_temperature_energy_round_trip : forall g rho, admissible g ->
  (forall T, normal_T g rho T -> TemperatureFromDensityInternalEnergy g rho (InternalEnergyFromDensityTemperature g rho T) = T) /\
  (forall e, above_cold g rho e -> InternalEnergyFromDensityTemperature g rho (TemperatureFromDensityInternalEnergy g rho e) = e).
Proof.
  intros g rho (A & B & C). split.
  - intros T (H1 & H2 & H3). apply roundtrip_T; assumption.
  - intros e (H1 & H2 & H3). apply roundtrip_e; assumption.
Qed.
Theorem C17_entry_points_agree : forall g rho T, admissible g -> tiny <= rho -> 0 <= T ->
  PressureFromDensityTemperature g rho T = PressureFromDensityInternalEnergy g rho (InternalEnergyFromDensityTemperature g rho T) /\
  BulkModulusFromDensityTemperature g rho T = BulkModulusFromDensityInternalEnergy g rho (InternalEnergyFromDensityTemperature g rho T).
Proof. intros g rho T (A & B & C) Hr HT. split; [apply P_agree|apply B_agree]; assumption. Qed.
(** the two entropy entry points agree for every constructed object *)
Theorem C17_entropy_entry_points_agree : forall gm Cv0 Pi q qp T00 P00 A Z g rho T,
  make gm Cv0 Pi q qp T00 P00 A Z = Some g -> admissible g ->
  tiny <= T00 -> tiny <= Cv0 * T00 -> tiny <= gm * Cv0 * T00 -> tiny <= P00 + Pi -> tiny <= gm * Cv0 * T00 / (P00 + Pi) ->
  tiny <= rho -> 0 <= T ->
  EntropyFromDensityTemperature g rho T = EntropyFromDensityInternalEnergy g rho (InternalEnergyFromDensityTemperature g rho T).
Proof.
  intros gm Cv0 Pi q qp T00 P00 A Z g rho T H (HA & HB & HC) H1 H2 H3 H4 H5 Hr HT. unfold make in H.
  destruct (CheckParams _); [|discriminate]. injection H as <-. pose proof tiny_pos. cbn in HA, HB, HC.
  apply S_agree; cbn; try assumption; rewrite ?ratio_pos by lra; try lra; try (field; lra).
Qed.
Theorem C17_PT_inversion : forall g P T rho e, admissible g -> 0 < T ->
  tiny <= P + Pinf g -> tiny <= gm1 g * Cv g * T -> tiny <= (P + Pinf g) / (gm1 g * Cv g * T) ->
  DensityEnergyFromPressureTemperature g P T = (rho, e) ->
  0 < rho /\ PressureFromDensityTemperature g rho T = P /\ PressureFromDensityInternalEnergy g rho e = P /\
  e = InternalEnergyFromDensityTemperature g rho T /\
  forall rho', 0 <= rho' -> PressureFromDensityTemperature g rho' T = P -> rho' = rho.
Proof. intros g P T rho e (A & B & C) HT H1 H2 H3 E. pose proof (PT_inverse g A B C P T HT H1 H2 H3) as H. rewrite E in H. exact H. Qed.
Theorem C17_derivatives : forall g rho e T, admissible g -> above_cold g rho e -> 0 < T ->
  is_gruneisen (PressureFromDensityInternalEnergy g) rho e (GruneisenParam g rho e) /\
  (SMALL <= gm1 g * (gm1 g + 1) * (rho * (e - qq g) - Pinf g) ->
   is_bulk_modulus (PressureFromDensityInternalEnergy g) rho e (BulkModulusFromDensityInternalEnergy g rho e)) /\
  is_specific_heat (InternalEnergyFromDensityTemperature g) rho T (SpecificHeat g rho T).
Proof.
  intros g rho e T HA Ha HT. destruct (above_pos g rho e HA Ha) as [Hr He]. destruct HA as (A & B & C). destruct Ha as [H1 _].
  refine (conj (gruneisen_ok g B rho e Hr He) (conj (bmod_ok g B rho e Hr He) (cv_ok g A C rho T H1 HT))).
Qed.
Theorem C17_first_law : forall g rho T, admissible g -> tiny <= T0 g -> tiny < rho -> 0 < T -> tiny < T / T0 g -> tiny < rho0 g / rho ->
  first_law (EntropyFromDensityTemperature g) (InternalEnergyFromDensityTemperature g) (PressureFromDensityTemperature g) rho T.
Proof. intros g rho T (A & B & C). exact (first_law_ok g A B C rho T). Qed.
(** floors *)
Theorem C17_floors : forall g rho x, - Pinf g <= PressureFromDensityTemperature g rho x /\ - Pinf g <= PressureFromDensityInternalEnergy g rho x /\
  0 < TemperatureFromDensityInternalEnergy g rho x /\ qq g <= InternalEnergyFromDensityTemperature g rho x /\
  0 < BulkModulusFromDensityTemperature g rho x /\ 0 < BulkModulusFromDensityInternalEnergy g rho x.
Proof.
  intros. assert (forall y, 0 < Rmax SMALL y) by (intros y; pose proof (Rmax_l SMALL y); pose proof SMALL_pos; lra).
  repeat split; try apply Rmax_l; apply H.
Qed.
Theorem C17_minimum_energy : forall g rho T, admissible g -> tiny <= rho -> 0 <= T ->
  MinInternalEnergyFromDensity g rho <= InternalEnergyFromDensityTemperature g rho T.
Proof.
  intros g rho T (A & B & C) Hr HT. unfold MinInternalEnergyFromDensity. rewrite !E_T_eq by (assumption || lra).
  assert (0 <= Cv g * T) by (apply Rmult_le_pos; lra). lra.
Qed.
(** stored reference state = queries at the reference state *)
Theorem C17_reference_state : forall gm Cv0 Pi q qp T00 P00 A Z g dvdt_in, make gm Cv0 Pi q qp T00 P00 A Z = Some g ->
  0 < gm -> 0 < Cv0 -> 0 <= Pi -> tiny <= T00 -> tiny <= gm * Cv0 * T00 -> tiny <= P00 + Pi ->
  tiny <= (P00 + Pi) / (gm * Cv0 * T00) -> SMALL <= gm * (gm + 1) * ((P00 + Pi) / (gm * Cv0 * T00)) * Cv0 * T00 ->
  exists rho T sie P cv bmod dpde,
    ValuesAtReferenceState g dvdt_in = (rho :: T :: sie :: P :: cv :: bmod :: dpde :: dvdt_in :: nil)%list /\
    PressureFromDensityTemperature g rho T = P /\ InternalEnergyFromDensityTemperature g rho T = sie /\
    SpecificHeat g rho T = cv /\ BulkModulusFromDensityTemperature g rho T = bmod /\
    is_derive (fun e => PressureFromDensityInternalEnergy g rho e) sie dpde /\
    EntropyFromDensityTemperature g rho T = qp.
Proof.
  intros gm Cv0 Pi q qp T00 P00 A Z g dv H Hgm HCv HPi HT H1 H2 H3 H4. unfold make in H. destruct (CheckParams _); [|discriminate]. injection H as <-.
  set (g := ctor gm Cv0 Pi q qp T00 P00 A Z). pose proof tiny_pos.
  assert (Ec : Cv g = Cv0) by reflexivity. assert (Eg : gm1 g = gm) by reflexivity. assert (EP : Pinf g = Pi) by reflexivity.
  assert (Er : rho0 g = (P00 + Pi) / (gm * Cv0 * T00)). { change (rho0 g) with (ratio (P00 + Pi) (gm * Cv0 * T00)). apply ratio_pos; lra. }
  assert (Es : sie0 g = (P00 + (gm + 1) * Pi) / (P00 + Pi) * Cv0 * T00 + q).
  { change (sie0 g) with (ratio (P00 + (gm + 1) * Pi) (P00 + Pi) * Cv0 * T00 + q). rewrite ratio_pos by lra. reflexivity. }
  assert (EE : InternalEnergyFromDensityTemperature g (rho0 g) T00 = sie0 g).
  { rewrite E_T_eq by (rewrite ?Ec, ?Eg, ?EP, ?Er; lra). rewrite Ec, EP, Es, Er. change (qq g) with q. field. lra. }
  exists (rho0 g), T00, (sie0 g), P00, (Cv g), (bmod0 g), (dpde0 g). split; [reflexivity|].
  refine (conj _ (conj EE (conj eq_refl (conj _ (conj _ _))))).
  - rewrite P_T_eq by (rewrite ?Ec, ?Eg, ?EP, ?Er; lra). rewrite Ec, EP, Er, Eg. field. lra.
  - unfold BulkModulusFromDensityTemperature. rewrite Ec, Eg, Er.
    change (bmod0 g) with (gm * (gm + 1) * ratio (P00 + Pi) (gm * Cv0 * T00) * Cv0 * T00). rewrite ratio_pos by lra. apply Rmax_right. exact H4.
  - apply (is_derive_eq _ _ (gm1 g * rho0 g)); [|change (dpde0 g) with (rho0 g * gm); rewrite Eg; ring].
    apply dP_de; rewrite ?Eg, ?Er; try lra. rewrite EP, Es. change (qq g) with q.
    replace ((P00 + Pi) / (gm * Cv0 * T00) * ((P00 + (gm + 1) * Pi) / (P00 + Pi) * Cv0 * T00 + q - q) - Pi) with ((P00 + Pi) / gm) by (field; lra).
    apply Rdiv_lt_0_compat; lra.
  - unfold EntropyFromDensityTemperature. change (T0 g) with T00. change (Stiff_Model.qp g) with qp.
    assert (HT' : tiny <= 1) by (pose proof tiny_lt_1; lra). rewrite !ratio_pos by lra.
    replace (T00 / T00) with 1 by (field; lra). replace (rho0 g / rho0 g) with 1 by (field; lra).
    rewrite plus_small_eq by exact HT'. rewrite ln_1. ring.
Qed.
(** Refuted: the reference state does not report (dV/dT)_P: the output is left as the caller passed it *)
Theorem C58_stiff_reference_dvdt_refuted : exists g, make (4/10) 1 1 0 0 293 1000000 29 14 = Some g /\
  forall x, last (ValuesAtReferenceState g x) 0 = x.
Proof.
  exists (ctor (4/10) 1 1 0 0 293 1000000 29 14). split; [|reflexivity].
  unfold make, CheckParams. cbn. rewrite !Rle_bool_true, !Rlt_bool_true by lra. reflexivity.
Qed.
Theorem C17_FillEos : forall g m o s s', admissible g -> mode_of o m ->
  match m with InRhoSie => True | InRhoTemp => normal_T g (s_rho s) (s_temp s)
   | InPressTemp => SMALL <= s_temp s /\ tiny <= s_press s + Pinf g /\ tiny <= gm1 g * Cv g * s_temp s /\
      normal_T g ((s_press s + Pinf g) / (gm1 g * Cv g * s_temp s)) (s_temp s)
   | InRhoPress => tiny <= gm1 g * s_rho s /\ 0 < s_rho s /\ - Pinf g <= s_press s end ->
  FillEos g o s = Some s' ->
  fill_ok (TemperatureFromDensityInternalEnergy g) (PressureFromDensityInternalEnergy g) (SpecificHeat g)
          (BulkModulusFromDensityInternalEnergy g) m o s s'.
Proof.
  intros g m o s s' (A & B & C) Hm Hs H. destruct m.
  - destruct Hm. apply fill_RE; assumption.
  - destruct Hs as (H1 & H2 & H3). apply fill_RT; assumption.
  - destruct Hs as (H1 & H2 & H3 & H4 & H5 & H6). apply fill_PT; assumption.
  - destruct Hs as (H1 & H2 & H3). apply fill_RP; assumption.
Qed.
(** a request that leaves fewer than two of density, temperature, energy, pressure as inputs, energy being requested, is refused
    (UNDEFINED_ERROR) and nothing is returned *)
Theorem C17_FillEos_refuses : forall g o s, (inputs o < 2)%nat -> f_sie o = true -> FillEos g o s = None.
Proof. intros g o s. destruct o as [[] [] [] [] fc fb]; unfold inputs, FillEos; cbn; intros H E; try reflexivity; try discriminate; lia. Qed.
(** Refuted: "every request is either filled or refused": whenever the density is requested and the energy is an input the call is
    accepted - even with the energy as the only input - and the density is left as it was *)
Theorem C58_stiff_FillEos_density_from_energy_refuted : forall g o s, f_rho o = true -> f_sie o = false ->
  exists s', FillEos g o s = Some s' /\ s_rho s' = s_rho s.
Proof. intros g o s. destruct o as [fr ft fs fp fc fb]; cbn; intros -> ->; unfold FillEos, cond_upd; cbn; destruct ft, fp, fc, fb; cbn; eexists; (split; [reflexivity|]); reflexivity. Qed.
Example C17_FillEos_refuses_instance : (inputs (mkF true false true true true true) < 2)%nat.
Proof. cbn. lia. Qed.
Theorem C17_FillEos_total : forall g m o s, mode_of o m -> exists s', FillEos g o s = Some s'.
Proof.
  intros g m [fr ft fs fp fc fb] s Hm. unfold FillEos, mode_of in *.
  destruct m; cbn [f_rho f_sie f_temp f_press] in Hm; intuition (subst; cbn; eauto).
  all: destruct ft, fp; cbn; eauto.
Qed.
Theorem C58_stiff_FillEos_energy_only_refuted : exists g o s s', admissible g /\ f_sie o = true /\ f_rho o = false /\ f_temp o = false /\
  FillEos g o s = Some s' /\ s_sie s' <> InternalEnergyFromDensityTemperature g (s_rho s') (s_temp s') /\ s_sie s' = s_sie s.
Proof.
  exists (ctor 1 1 0 0 0 1 1 1 1), (mkF false false true false false false), (mkS 1 1 7 1 0 0), (mkS 1 1 7 1 0 0).
  unfold admissible. split; [cbn; lra|]. repeat split; try reflexivity. pose proof tiny_lt_1.
  rewrite E_T_eq; cbn; lra.
Qed.
(** a water-like stiffened gas meets every hypothesis *)
Example C17_instance : exists g, make (135/100) 18160000 10000000000 (-11670000000) 0 293 1000000 18 10 = Some g /\ admissible g /\
  tiny <= T0 g /\ normal_T g 1 300 /\ above_cold g 1 0 /\ tiny < 300 / T0 g /\ tiny < rho0 g / 1 /\
  SMALL <= gm1 g * (gm1 g + 1) * (1 * (0 - qq g) - Pinf g) /\
  PressureFromDensityTemperature g 2 300 = 4709600000.
Proof.
  exists (ctor (135/100) 18160000 10000000000 (-11670000000) 0 293 1000000 18 10).
  pose proof tiny_lt_1. pose proof SMALL_lt_tiny. assert (HT : tiny < 1 / 100000).
  { unfold tiny. apply Rlt_le_trans with (bpow radix2 (-20)); [apply bpow_lt; lia|]. cbn. lra. }
  assert (HR : rho0 (ctor (135/100) 18160000 10000000000 (-11670000000) 0 293 1000000 18 10) = (1000000 + 10000000000) / (135/100 * 18160000 * 293)).
  { cbn. apply ratio_pos. lra. }
  unfold make, CheckParams, admissible, normal_T, above_cold. rewrite HR. cbn.
  rewrite !Rle_bool_true, !Rlt_bool_true by lra. repeat split; try lra.
  unfold PressureFromDensityTemperature. cbn. rewrite Rmax_right; lra.
Qed.
(** C44: CheckParams *)
Theorem C44_stiff_CheckParams : forall g, CheckParams g = true <-> 0 <= Cv g /\ 0 <= gm1 g /\ 0 < Abar g /\ 0 < Zbar g.
Proof.
  intros g. unfold CheckParams. rewrite !andb_true_iff.
  destruct (Rle_bool_spec 0 (Cv g)), (Rle_bool_spec 0 (gm1 g)), (Rlt_bool_spec 0 (Abar g)), (Rlt_bool_spec 0 (Zbar g));
    split; intros HH; try (exfalso; intuition (discriminate || lra); fail); intuition lra.
Qed.
(** the check does not constrain Pinf: with Pinf < 0 it accepts an object whose two pressure entry points disagree *)
Theorem C62_stiff_negative_Pinf_refuted : exists g rho T, CheckParams g = true /\ 0 < Cv g /\ 0 < gm1 g /\ tiny <= rho /\ tiny <= T /\
  PressureFromDensityTemperature g rho T <> PressureFromDensityInternalEnergy g rho (InternalEnergyFromDensityTemperature g rho T).
Proof.
  exists (ctor 1 1 (-10) 0 0 1 20 1 1), 1, 1. pose proof tiny_lt_1. split; [apply C44_stiff_CheckParams; cbn; lra|].
  cbn [ctor Cv gm1]. repeat split; try lra.
  unfold PressureFromDensityTemperature, PressureFromDensityInternalEnergy, InternalEnergyFromDensityTemperature. cbn [ctor Cv gm1 Pinf qq].
  rewrite ratio_pos by lra. rewrite (Rmax_right (- -10)) by lra. rewrite (Rmax_left 0) by lra. rewrite Rmax_right by lra. lra.
Qed.
Print Assumptions C17_temperature_energy_round_trip.
Print Assumptions C17_entry_points_agree.
Print Assumptions C17_entropy_entry_points_agree.
Print Assumptions C17_PT_inversion.
Print Assumptions C17_derivatives.
Print Assumptions C17_first_law.
Print Assumptions C17_floors.
Print Assumptions C17_minimum_energy.
Print Assumptions C17_reference_state.
Print Assumptions C58_stiff_reference_dvdt_refuted.
Print Assumptions C17_FillEos.
Print Assumptions C17_FillEos_refuses.
Print Assumptions C58_stiff_FillEos_density_from_energy_refuted.
Print Assumptions C17_FillEos_total.
Print Assumptions C58_stiff_FillEos_energy_only_refuted.
Print Assumptions C44_stiff_CheckParams.
Print Assumptions C62_stiff_negative_Pinf_refuted.
