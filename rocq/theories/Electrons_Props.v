(** C26: ideal electrons *)
From Coq Require Import Reals Bool Lra Lia List.
From Flocq Require Import Core.
From Coquelicot Require Import Coquelicot.
From Verif Require Import Robust_Model Robust_Proofs Thermo_Spec Thermo_Tools Electrons_Model.
From Verif Require TypeLists_Model TypeLists_Props Indexer_Model Ideal_Model Ideal_Props Fill_Proofs Fill_Model.
Local Open Scope R_scope.

(** the ideal gas with the same gamma - 1, the ionisation-dependent specific heat and the same entropy reference *)
Definition as_ideal (g : electrons) (Z : R) : Ideal_Model.ideal :=
  Ideal_Model.mkIdeal (Cv g Z) (gm1 g) (rho0 g) (Cv g Z * T0 g) 0 (dpde0 g) (dvdt0 g) (T0 g) (rho0 g) (Abar g) (Zbar g).
Lemma make_spec A Zb g : make A Zb = Some g -> 0 < A /\ 0 < Zb /\ Abar g = A /\ gm1 g = 5 / 3 - 1 /\ rho0 g = 1 /\ T0 g = 293 /\ P0 g = 1000000 /\ dpde0 g = 5 / 3 - 1 /\ Cvbase g = ratio kb ((5 / 3 - 1) * A * mp).
Proof.
  unfold make, CheckParams. cbv zeta. cbn [Abar Zbar]. destruct (Rlt_bool_spec 0 A), (Rlt_bool_spec 0 Zb); try discriminate. intros H1. injection H1 as <-. cbn. unfold ROOM_TEMPERATURE, ATMOSPHERIC_PRESSURE. repeat split; auto; lra.
Qed.
(** Cv = kb <Z> / ((gamma - 1) <A> mp) with gamma = 5/3 *)
Theorem C26_specific_heat_formula : forall A Zb g Z, make A Zb = Some g -> 1 / 10 ^ 6 <= A -> 0 <= Z ->
  SpecificHeatFromDensityTemperature g Z = (fun _ _ => kb * Z / ((5 / 3 - 1) * A * mp)) /\ SpecificHeatFromDensityInternalEnergy g Z = (fun _ _ => kb * Z / ((5 / 3 - 1) * A * mp)).
Proof.
  intros A Zb g Z H HA HZ. destruct (make_spec A Zb g H) as (H1 & _ & _ & _ & _ & _ & _ & _ & E).
  assert (HT : tiny < 1 / 10 ^ 31). { unfold tiny. eapply Rlt_le_trans; [apply (bpow_lt radix2 (-960) (-110)); lia|]. cbn. lra. }
  assert (Em : (5 / 3 - 1) * A * mp = A * (2 * 167262171 / (3 * 10 ^ 32))) by (unfold mp; field).
  assert (HD : tiny <= (5 / 3 - 1) * A * mp). { rewrite Em. assert (1 / 10 ^ 6 * (2 * 167262171 / (3 * 10 ^ 32)) <= A * (2 * 167262171 / (3 * 10 ^ 32))) by (apply Rmult_le_compat_r; lra). lra. }
  pose proof tiny_pos. assert (EC : Cv g Z = kb * Z / ((5 / 3 - 1) * A * mp)). { unfold Cv. rewrite E. rewrite ratio_pos by exact HD. rewrite Rmax_left by exact HZ. unfold Rdiv. ring. }
  unfold SpecificHeatFromDensityTemperature, SpecificHeatFromDensityInternalEnergy. rewrite EC. split; reflexivity.
Qed.
Lemma Cv_pos A Zb g Z : make A Zb = Some g -> 1 / 10 ^ 6 <= A -> 0 < Z -> 0 < Cv g Z /\ 0 < gm1 g.
Proof.
  intros H HA HZ. destruct (C26_specific_heat_formula A Zb g Z H HA ltac:(lra)) as (E & _). destruct (make_spec A Zb g H) as (_ & _ & _ & G & _).
  apply (f_equal (fun f => f 0 0)) in E. unfold SpecificHeatFromDensityTemperature in E. rewrite E, G. split; [|lra]. apply Rdiv_lt_0_compat; [apply Rmult_lt_0_compat; [unfold kb; lra|exact HZ]|]. apply Rmult_lt_0_compat; [lra|unfold mp; lra].
Qed.
(** for every ionisation Z > 0 the queries are those of a consistent ideal gas *)
Theorem C26_consistency : forall A Zb g Z rho T e, make A Zb = Some g -> 1 / 10 ^ 6 <= A -> 0 < Z ->
  (0 <= T -> TemperatureFromDensityInternalEnergy g Z rho (InternalEnergyFromDensityTemperature g Z rho T) = T) /\
  (0 <= e -> InternalEnergyFromDensityTemperature g Z rho (TemperatureFromDensityInternalEnergy g Z rho e) = e) /\
  (0 <= rho -> PressureFromDensityTemperature g Z rho T = PressureFromDensityInternalEnergy g rho (InternalEnergyFromDensityTemperature g Z rho T)) /\
  (0 <= rho -> 0 <= T -> BulkModulusFromDensityTemperature g Z rho T = BulkModulusFromDensityInternalEnergy g rho (InternalEnergyFromDensityTemperature g Z rho T)) /\
  (0 < rho -> 0 < e -> is_gruneisen (PressureFromDensityInternalEnergy g) rho e (GruneisenParamFromDensityInternalEnergy g rho e) /\
     is_bulk_modulus (PressureFromDensityInternalEnergy g) rho e (BulkModulusFromDensityInternalEnergy g rho e)) /\
  (0 < T -> is_specific_heat (InternalEnergyFromDensityTemperature g Z) rho T (SpecificHeatFromDensityTemperature g Z rho T)) /\
  (tiny < rho -> 0 < T -> first_law (EntropyFromDensityTemperature g Z) (InternalEnergyFromDensityTemperature g Z) (PressureFromDensityTemperature g Z) rho T).
Proof.
  intros A Zb g Z rho T e H HA HZ. destruct (Cv_pos A Zb g Z H HA HZ) as (HC & HG).
  assert (ADM : Ideal_Props.admissible (as_ideal g Z)) by (split; assumption).
  destruct (make_spec A Zb g H) as (_ & _ & _ & _ & R0 & ET & _).
  destruct (Ideal_Props.C16_temperature_energy_round_trip (as_ideal g Z) rho ADM) as (I1 & I2).
  refine (conj (I1 T) (conj (I2 e) (conj _ (conj _ (conj _ (conj _ _)))))).
  - intros Hr. exact (proj1 (Ideal_Props.C16_entry_points_agree (as_ideal g Z) rho T ADM Hr)).
  - intros Hr HT. exact (proj1 (proj2 (Ideal_Props.C16_entry_points_agree (as_ideal g Z) rho T ADM Hr)) HT).
  - intros Hr He. destruct (Ideal_Props.C16_derivatives (as_ideal g Z) rho e 1 ADM Hr He Rlt_0_1) as (D1 & D2 & _). split; [exact D1|exact D2].
  - intros HT. destruct (Ideal_Props.C16_derivatives (as_ideal g Z) 1 1 T ADM Rlt_0_1 Rlt_0_1 HT) as (_ & _ & D3). exact D3.
  - intros Hr HT. apply (Ideal_Props.C16_first_law (as_ideal g Z) rho T ADM); try assumption.
    + cbn. rewrite ET. pose proof tiny_lt_1. lra.
    + cbn. rewrite R0. lra.
Qed.
Theorem C26_PT_inversion : forall A Zb g Z P T rho e, make A Zb = Some g -> 1 / 10 ^ 6 <= A -> 0 < Z -> 0 <= P -> 0 < T ->
  DensityEnergyFromPressureTemperature g Z P T = (rho, e) ->
  0 <= rho /\ PressureFromDensityTemperature g Z rho T = P /\ PressureFromDensityInternalEnergy g rho e = P /\
  e = InternalEnergyFromDensityTemperature g Z rho T /\
  forall rho', 0 <= rho' -> PressureFromDensityTemperature g Z rho' T = P -> rho' = rho.
Proof.
  intros A Zb g Z P T rho e H HA HZ HP HT E. destruct (Cv_pos A Zb g Z H HA HZ) as (HC & HG).
  exact (Ideal_Props.C16_PT_inversion (as_ideal g Z) P T rho e (conj HC HG) HP HT E).
Qed.
(** all quantities are non-negative for every state and every ionisation, including negative and zero ones *)
Theorem C26_floors : forall g Z rho x,
  0 <= PressureFromDensityTemperature g Z rho x /\ 0 <= PressureFromDensityInternalEnergy g rho x /\
  0 <= TemperatureFromDensityInternalEnergy g Z rho x /\ MinInternalEnergyFromDensity rho <= InternalEnergyFromDensityTemperature g Z rho x /\
  0 <= BulkModulusFromDensityTemperature g Z rho x /\ 0 <= BulkModulusFromDensityInternalEnergy g rho x.
Proof. intros. repeat split; apply Rmax_l. Qed.
(** a negative ionisation behaves as zero; the electrons of a neutral gas carry no energy and no pressure *)
Theorem C26_neutral : forall g Z rho T, Z <= 0 ->
  SpecificHeatFromDensityTemperature g Z rho T = 0 /\ InternalEnergyFromDensityTemperature g Z rho T = 0 /\ PressureFromDensityTemperature g Z rho T = 0.
Proof.
  intros g Z rho T H. assert (E : Cv g Z = 0) by (unfold Cv; rewrite Rmax_right by exact H; ring).
  unfold SpecificHeatFromDensityTemperature, InternalEnergyFromDensityTemperature, PressureFromDensityTemperature. rewrite E. rewrite Rmult_0_l, Rmult_0_r, Rmult_0_l. rewrite Rmax_left by lra. auto.
Qed.
(** for fixed state, energy and pressure are proportional to the ionisation *)
Theorem C26_linear_in_Z : forall A Zb g Z a rho T, make A Zb = Some g -> 1 / 10 ^ 6 <= A -> 0 < Z -> 0 <= a -> 0 <= rho -> 0 <= T ->
  InternalEnergyFromDensityTemperature g (a * Z) rho T = a * InternalEnergyFromDensityTemperature g Z rho T /\
  PressureFromDensityTemperature g (a * Z) rho T = a * PressureFromDensityTemperature g Z rho T.
Proof.
  intros A Zb g Z a rho T H HA HZ Ha Hr HT. destruct (Cv_pos A Zb g Z H HA HZ) as (HC & HG).
  assert (E : Cv g (a * Z) = a * Cv g Z). { unfold Cv. rewrite (Rmax_left Z) by lra. rewrite Rmax_left by (apply Rmult_le_pos; lra). ring. }
  unfold InternalEnergyFromDensityTemperature, PressureFromDensityTemperature. rewrite E.
  assert (0 <= Cv g Z * T) by (apply Rmult_le_pos; lra). assert (0 <= gm1 g * rho) by (apply Rmult_le_pos; lra).
  assert (0 <= gm1 g * rho * Cv g Z * T) by (rewrite Rmult_assoc; apply Rmult_le_pos; assumption).
  assert (0 <= a * (Cv g Z * T)) by (apply Rmult_le_pos; assumption). assert (0 <= a * (gm1 g * rho * Cv g Z * T)) by (apply Rmult_le_pos; assumption).
  rewrite !Rmax_right; try assumption; [split; ring|..].
  - replace (gm1 g * rho * (a * Cv g Z) * T) with (a * (gm1 g * rho * Cv g Z * T)) by ring. assumption.
  - rewrite Rmult_assoc. assumption.
Qed.
Theorem C26_FillEos : forall A Zb g Z m o s s', make A Zb = Some g -> 1 / 10 ^ 6 <= A -> 0 < Z -> mode_of o m ->
  match m with InRhoSie => True | InRhoTemp => 0 <= s_temp s | InPressTemp => 0 <= s_press s /\ 0 < s_temp s
             | InRhoPress => 0 < s_rho s /\ 0 <= s_press s end ->
  FillEos g Z o s = Some s' ->
  fill_ok (TemperatureFromDensityInternalEnergy g Z) (PressureFromDensityInternalEnergy g) (SpecificHeatFromDensityInternalEnergy g Z)
          (BulkModulusFromDensityInternalEnergy g) m o s s'.
Proof.
  intros A Zb g Z m o s s' H HA HZ Hm Hs HF. destruct (Cv_pos A Zb g Z H HA HZ) as (HC & HG).
  exact (Ideal_Props.C16_FillEos (as_ideal g Z) m o s s' (conj HC HG) Hm Hs HF).
Qed.
(** a request that leaves fewer than two of density, temperature, energy, pressure as inputs, energy being requested, is refused
    (UNDEFINED_ERROR) and nothing is returned *)
Theorem C26_FillEos_refuses : forall g Z o s, (inputs o < 2)%nat -> f_sie o = true -> FillEos g Z o s = None.
Proof. intros g Z o s. exact (Fill_Proofs.fill_std_refuses _ _ _ _ _ _ _ o s). Qed.
(** Refuted: "every request is either filled or refused": whenever the density is requested and the energy is an input the call is
    accepted - even with the energy as the only input - and the density is left as it was *)
Theorem C58_electrons_FillEos_density_from_energy_refuted : forall g Z o s, f_rho o = true -> f_sie o = false ->
  exists s', FillEos g Z o s = Some s' /\ s_rho s' = s_rho s.
Proof. intros g Z o s. exact (Fill_Proofs.fill_std_silent _ _ _ _ _ _ _ o s). Qed.
Example C26_FillEos_refuses_instance : (inputs (mkF true false true true true true) < 2)%nat.
Proof. cbn. lia. Qed.
Theorem C26_FillEos_total : forall g Z m o s, mode_of o m -> exists s', FillEos g Z o s = Some s'.
Proof. intros g Z m o s Hm. exact (Fill_Proofs.fill_std_total _ _ _ _ _ _ _ m o s Hm). Qed.
(** the lookup: an indexer that declares itself type-indexable yields the ionisation wherever it is stored, a plain array yields element 0,
    a null lambda aborts *)
Theorem C26_ionisation_lookup : forall MIS (d : nat -> R),
  Z_slot MIS (Indexer_Model.pointer_indexer false d) = Indexer_Model.Slot 0 /\
  Z_slot MIS (Indexer_Model.pointer_indexer true d) = Indexer_Model.Abort /\
  (forall ts k, nth_error ts k = Some MIS -> (forall j, (j < k)%nat -> nth_error ts j <> Some MIS) ->
     Z_slot MIS (Indexer_Model.variadic_indexer ts d) = Indexer_Model.Slot k).
Proof.
  intros MIS d. refine (conj eq_refl (conj eq_refl _)). intros ts k H1 H2. unfold Z_slot, Indexer_Model.SafeMustSlot, Indexer_Model.variadic_indexer, Indexer_Model.variadic_slot.
  cbn [Indexer_Model.ix_flagged Indexer_Model.ix_slot Indexer_Model.ix_null Indexer_Model.k_type].
  replace (TypeLists_Model.contains MIS ts) with true. 2: { symmetry. apply TypeLists_Props.C09_contains. exact (nth_error_In ts k H1). }
  replace (TypeLists_Model.get_index MIS ts) with (Some k). 2: { symmetry. apply TypeLists_Props.C09_get_index. split; assumption. } reflexivity.
Qed.
(** Refuted: the reference state reports 1 atmosphere, but the pressure at its density and temperature is another *)
Theorem C58_electrons_reference_pressure_refuted : forall A Zb g Z, make A Zb = Some g -> 1 / 10 ^ 6 <= A <= 300 -> 1 <= Z ->
  nth 0 (ValuesAtReferenceState g Z) 0 = rho0 g /\ nth 1 (ValuesAtReferenceState g Z) 0 = T0 g /\
  nth 2 (ValuesAtReferenceState g Z) 0 = InternalEnergyFromDensityTemperature g Z (rho0 g) (T0 g) /\
  10 * nth 3 (ValuesAtReferenceState g Z) 0 < PressureFromDensityTemperature g Z (rho0 g) (T0 g) /\
  nth 5 (ValuesAtReferenceState g Z) 0 = BulkModulusFromDensityTemperature g Z (rho0 g) (T0 g).
Proof.
  intros A Zb g Z H HA HZ. destruct (make_spec A Zb g H) as (H1 & _ & _ & G & R0 & ET & EP & _). destruct (Cv_pos A Zb g Z H ltac:(lra) ltac:(lra)) as (HC & HG).
  destruct (C26_specific_heat_formula A Zb g Z H ltac:(lra) ltac:(lra)) as (E & _). apply (f_equal (fun f => f 0 0)) in E. unfold SpecificHeatFromDensityTemperature in E.
  refine (conj eq_refl (conj eq_refl (conj _ (conj _ eq_refl)))).
  - cbn [ValuesAtReferenceState nth]. unfold InternalEnergyFromDensityTemperature. rewrite ET. rewrite Rmax_right by lra. reflexivity.
  - cbn [ValuesAtReferenceState nth]. unfold PressureFromDensityTemperature. rewrite G, R0, ET, EP. rewrite Rmax_right by lra.
    assert (Em : (5 / 3 - 1) * A * mp = A * (2 * 167262171 / (3 * 10 ^ 32))) by (unfold mp; field).
    assert (L : 200000 <= Cv g Z).
    { rewrite E, Em. apply Rmult_le_reg_r with (A * (2 * 167262171 / (3 * 10 ^ 32))); [apply Rmult_lt_0_compat; lra|].
      replace (kb * Z / (A * (2 * 167262171 / (3 * 10 ^ 32))) * (A * (2 * 167262171 / (3 * 10 ^ 32)))) with (kb * Z) by (field; lra).
      apply Rle_trans with (200000 * (300 * (2 * 167262171 / (3 * 10 ^ 32)))); [apply Rmult_le_compat_l; [lra|]; apply Rmult_le_compat_r; lra|]. unfold kb. lra. }
    lra.
Qed.
(** an aluminium plasma meets the hypotheses *)
Example C26_instance : exists g, make 27 13 = Some g /\ 1 / 10 ^ 6 <= 27 <= 300 /\ PressureFromDensityTemperature g 3 1 0 = 0.
Proof.
  unfold make. replace (CheckParams _) with true. 2: { unfold CheckParams. cbn [Abar Zbar]. rewrite !Rlt_bool_true by lra. reflexivity. }
  eexists. split; [reflexivity|]. split; [lra|]. unfold PressureFromDensityTemperature. rewrite Rmult_0_r. apply Rmax_left. lra.
Qed.
Print Assumptions C26_specific_heat_formula.
Print Assumptions C26_consistency.
Print Assumptions C26_PT_inversion.
Print Assumptions C26_floors.
Print Assumptions C26_neutral.
Print Assumptions C26_linear_in_Z.
Print Assumptions C26_FillEos.
Print Assumptions C26_FillEos_refuses.
Print Assumptions C58_electrons_FillEos_density_from_energy_refuted.
Print Assumptions C26_FillEos_total.
Print Assumptions C26_ionisation_lookup.
Print Assumptions C58_electrons_reference_pressure_refuted.
