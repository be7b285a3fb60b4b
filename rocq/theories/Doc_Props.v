(** C82: the gas, explosive-product and Steinberg EOS evaluate the closed forms of the manual (Doc_Spec.v), parameter by parameter.
    C83: where the manual and the code differ. The hypotheses "tiny <= x" (tiny = 2^-960) exclude quantities whose quotient
    robust::ratio perturbs; the remaining sign hypotheses exclude the floors, which have their own theorems (C16-C19). *)
From Coq Require Import Reals Lra Lia Bool List.
From Flocq Require Import Core.
From Coquelicot Require Import Coquelicot.
From Verif Require Import Arith Robust_Model Thermo_Spec Thermo_Tools Doc_Spec.
From Verif Require Ideal_Model Stiff_Model NobleAbel_Model Carnahan_Model Electrons_Model JWL_Model Gruneisen_Model DavisProducts_Model.
Local Open Scope R_scope.

Lemma SMALL_pos : 0 < SMALL.
Proof. unfold SMALL; pose proof (bpow_gt_0 radix2 (-1022)); lra. Qed.
Lemma div_ge a b c : 0 < b -> c * b <= a -> c <= a / b.
Proof. intros H K. apply Rmult_le_reg_r with b; [exact H|]. replace (a / b * b) with a by (field; lra). exact K. Qed.

Lemma tiny_half : tiny < 1 / 2.
Proof. unfold tiny. replace (1 / 2) with (bpow radix2 (-1)) by (cbn; lra). apply bpow_lt. lia. Qed.

(** ** Ideal gas *)
Theorem C82_ideal_gas : forall gm1 Cv T0 rho0 A Z g rho, Ideal_Model.make gm1 Cv T0 rho0 A Z = Some g -> 0 < gm1 -> 0 < Cv -> tiny <= T0 -> tiny <= rho ->
  (forall e, 0 <= e -> Ideal_Model.PressureFromDensityInternalEnergy g rho e = ideal_P gm1 rho e /\
     e = ideal_e Cv (Ideal_Model.TemperatureFromDensityInternalEnergy g rho e)) /\
  (forall T, 0 <= T -> Ideal_Model.InternalEnergyFromDensityTemperature g rho T = ideal_e Cv T /\
     Ideal_Model.PressureFromDensityTemperature g rho T = ideal_P gm1 rho (ideal_e Cv T)) /\
  (forall T, Ideal_Model.EntropyFromDensityTemperature g rho T = ideal_S gm1 Cv rho0 T0 rho T) /\
  (forall x, Ideal_Model.SpecificHeat g rho x = Cv /\ Ideal_Model.GruneisenParam g rho x = gm1).
Proof.
  intros gm1 Cv T0 rho0 A Z g rho H HG HC HT0 Hr. unfold Ideal_Model.make in H. destruct (Ideal_Model.CheckParams _); [|discriminate]. injection H as <-.
  pose proof tiny_pos. unfold Ideal_Model.ctor5. refine (conj _ (conj _ (conj _ _))).
  - intros e He. unfold Ideal_Model.PressureFromDensityInternalEnergy, Ideal_Model.TemperatureFromDensityInternalEnergy, ideal_P, ideal_e. cbn [Ideal_Model.gm1 Ideal_Model.Cv].
    assert (0 <= gm1 * rho * e) by (apply Rmult_le_pos; [apply Rmult_le_pos|]; lra). assert (0 <= e / Cv) by (apply div_ge; lra).
    rewrite !Rmax_r_eq by assumption. split; [reflexivity|field; lra].
  - intros T HT. unfold Ideal_Model.InternalEnergyFromDensityTemperature, Ideal_Model.PressureFromDensityTemperature, ideal_P, ideal_e. cbn [Ideal_Model.gm1 Ideal_Model.Cv].
    assert (0 <= Cv * T) by (apply Rmult_le_pos; lra). assert (0 <= gm1 * rho * Cv * T) by (apply Rmult_le_pos; [apply Rmult_le_pos; [apply Rmult_le_pos|]|]; lra).
    rewrite !Rmax_r_eq by assumption. split; ring.
  - intros T. unfold Ideal_Model.EntropyFromDensityTemperature, ideal_S. cbn [Ideal_Model.gm1 Ideal_Model.Cv Ideal_Model.EntropyT0 Ideal_Model.EntropyRho0].
    rewrite !ratio_pos by assumption. reflexivity.
  - intros x. split; reflexivity.
Qed.
(** the reference state without entropy arguments: P0 = 1 bar and rho0 = P0/(Gamma Cv T0), where S = 0, with T0 = 293 K *)
Theorem C82_ideal_gas_defaults : forall gm1 Cv A Z g, Ideal_Model.make_default gm1 Cv A Z = Some g -> 0 < gm1 -> 0 < Cv ->
  tiny <= ideal_rho0 default_P0 gm1 Cv 293 ->
  firstn 4 (Ideal_Model.ValuesAtReferenceState g) = (ideal_rho0 default_P0 gm1 Cv 293 :: 293 :: ideal_e Cv 293 :: default_P0 :: nil)%list /\
  Ideal_Model.EntropyFromDensityTemperature g (ideal_rho0 default_P0 gm1 Cv 293) 293 = 0.
Proof.
  intros gm1 Cv A Z g H HG HC Hr. unfold Ideal_Model.make_default in H. destruct (Ideal_Model.CheckParams _); [|discriminate]. injection H as <-.
  pose proof tiny_pos. pose proof tiny_lt_1. unfold Ideal_Model.ctor5, Ideal_Model.ROOM_TEMPERATURE, Ideal_Model.ATMOSPHERIC_PRESSURE.
  assert (E : ideal_rho0 default_P0 gm1 Cv 293 = 1000000 / (gm1 * Cv * 293)). { unfold ideal_rho0, default_P0. f_equal. lra. }
  split.
  - unfold Ideal_Model.ValuesAtReferenceState. cbn [firstn Ideal_Model.rho0 Ideal_Model.sie0 Ideal_Model.Cv Ideal_Model.bmod0 Ideal_Model.dpde0 Ideal_Model.dvdt0].
    unfold Ideal_Model.ROOM_TEMPERATURE, Ideal_Model.ATMOSPHERIC_PRESSURE. rewrite E. replace default_P0 with 1000000 by (unfold default_P0; lra). unfold ideal_e. reflexivity.
  - unfold Ideal_Model.EntropyFromDensityTemperature. cbn [Ideal_Model.gm1 Ideal_Model.Cv Ideal_Model.EntropyT0 Ideal_Model.EntropyRho0].
    rewrite <- E. rewrite !ratio_pos by lra. replace (293 / 293) with 1 by field. replace (ideal_rho0 default_P0 gm1 Cv 293 / ideal_rho0 default_P0 gm1 Cv 293) with 1 by (field; lra).
    rewrite ln_1. ring.
Qed.
(** Refuted: the manual's default T0 = 298 K; the code's is 293 K, so the entropy at the documented reference state is positive *)
Theorem C83_ideal_default_temperature_refuted : forall gm1 Cv A Z g, Ideal_Model.make_default gm1 Cv A Z = Some g -> 0 < gm1 -> 0 < Cv ->
  tiny <= ideal_rho0 default_P0 gm1 Cv default_T0 ->
  Ideal_Model.EntropyFromDensityTemperature g (ideal_rho0 default_P0 gm1 Cv default_T0) default_T0 = (1 + gm1) * Cv * ln (298 / 293) /\
  0 < Ideal_Model.EntropyFromDensityTemperature g (ideal_rho0 default_P0 gm1 Cv default_T0) default_T0.
Proof.
  intros gm1 Cv A Z g H HG HC Hr. unfold Ideal_Model.make_default in H. destruct (Ideal_Model.CheckParams _); [|discriminate]. injection H as <-.
  pose proof tiny_pos. pose proof tiny_lt_1.
  assert (E : forall g', Ideal_Model.EntropyFromDensityTemperature (Ideal_Model.ctor5 gm1 Cv 293 (1000000 / (gm1 * Cv * 293)) A Z) (ideal_rho0 default_P0 gm1 Cv default_T0) default_T0 = g' ->
     g' = (1 + gm1) * Cv * ln (298 / 293)).
  { intros g' <-. unfold Ideal_Model.EntropyFromDensityTemperature, Ideal_Model.ctor5. cbn [Ideal_Model.gm1 Ideal_Model.Cv Ideal_Model.EntropyT0 Ideal_Model.EntropyRho0].
    rewrite !ratio_pos by lra. unfold default_T0, default_P0, ideal_rho0. replace (1000000 / (gm1 * Cv * 293) / (10 ^ 6 / (gm1 * Cv * 298))) with (298 / 293); [ring|]. field. split; lra. }
  unfold Ideal_Model.ROOM_TEMPERATURE, Ideal_Model.ATMOSPHERIC_PRESSURE. rewrite (E _ eq_refl). split; [reflexivity|].
  assert (0 < ln (298 / 293)) by (rewrite <- ln_1; apply ln_increasing; lra). apply Rmult_lt_0_compat; [|assumption]. apply Rmult_lt_0_compat; lra.
Qed.

(** ** Ideal electrons: kb and mp are the values of eos_electrons.hpp *)
Theorem C82_ideal_electrons : forall A Zb g Z rho T e, Electrons_Model.make A Zb = Some g -> tiny <= 2 / 3 * A * Electrons_Model.mp -> 0 < Z -> tiny <= rho -> 0 <= T -> 0 <= e ->
  Electrons_Model.PressureFromDensityTemperature g Z rho T = electron_P Electrons_Model.mp Electrons_Model.kb A Z rho T /\
  Electrons_Model.SpecificHeatFromDensityTemperature g Z rho T = electron_Cv Electrons_Model.mp Electrons_Model.kb A Z /\
  Electrons_Model.GruneisenParamFromDensityTemperature g rho T = 2 / 3 /\
  Electrons_Model.PressureFromDensityInternalEnergy g rho e = ideal_P (2 / 3) rho e /\
  Electrons_Model.InternalEnergyFromDensityTemperature g Z rho T = ideal_e (electron_Cv Electrons_Model.mp Electrons_Model.kb A Z) T /\
  Electrons_Model.EntropyFromDensityTemperature g Z rho T = ideal_S (2 / 3) (electron_Cv Electrons_Model.mp Electrons_Model.kb A Z) 1 293 rho T.
Proof.
  intros A Zb g Z rho T e H HA HZ Hr HT He. unfold Electrons_Model.make in H. destruct (Electrons_Model.CheckParams _) eqn:EC; [|discriminate]. injection H as <-.
  unfold Electrons_Model.CheckParams in EC. cbn [Electrons_Model.Abar Electrons_Model.Zbar] in EC. apply andb_prop in EC. destruct EC as (EA & _).
  destruct (Rlt_bool_spec 0 A) as [HA0|]; [|discriminate].
  pose proof tiny_pos. pose proof tiny_lt_1. assert (Hmp : 0 < Electrons_Model.mp) by (unfold Electrons_Model.mp; lra). assert (Hkb : 0 < Electrons_Model.kb) by (unfold Electrons_Model.kb; lra).
  set (g := Electrons_Model.mkEl _ _ _ _ _ _ _ _ _).
  assert (EC : Electrons_Model.Cv g Z = electron_Cv Electrons_Model.mp Electrons_Model.kb A Z).
  { unfold Electrons_Model.Cv, g, electron_Cv. cbn [Electrons_Model.Cvbase]. rewrite Rmax_left by lra.
    rewrite ratio_pos by (replace ((5 / 3 - 1) * A * Electrons_Model.mp) with (2 / 3 * A * Electrons_Model.mp) by field; exact HA). field. split; lra. }
  assert (PC : 0 < electron_Cv Electrons_Model.mp Electrons_Model.kb A Z).
  { unfold electron_Cv. apply Rdiv_lt_0_compat; [apply Rmult_lt_0_compat; lra|]. apply Rmult_lt_0_compat; [|lra]. apply Rmult_lt_0_compat; lra. }
  refine (conj _ (conj _ (conj _ (conj _ (conj _ _))))).
  - unfold Electrons_Model.PressureFromDensityTemperature. rewrite EC. unfold g. cbn [Electrons_Model.gm1]. rewrite Rmax_r_eq.
    + unfold electron_Cv, electron_P. field. split; lra.
    + apply Rmult_le_pos; [apply Rmult_le_pos; [apply Rmult_le_pos|]|]; lra.
  - unfold Electrons_Model.SpecificHeatFromDensityTemperature. exact EC.
  - unfold Electrons_Model.GruneisenParamFromDensityTemperature, g. cbn [Electrons_Model.gm1]. field.
  - unfold Electrons_Model.PressureFromDensityInternalEnergy, g, ideal_P. cbn [Electrons_Model.gm1]. rewrite Rmax_r_eq; [field|].
    apply Rmult_le_pos; [apply Rmult_le_pos|]; lra.
  - unfold Electrons_Model.InternalEnergyFromDensityTemperature. rewrite EC. unfold ideal_e. rewrite Rmax_r_eq; [reflexivity|]. apply Rmult_le_pos; lra.
  - unfold Electrons_Model.EntropyFromDensityTemperature. rewrite EC. unfold g, ideal_S, Electrons_Model.ROOM_TEMPERATURE. cbn [Electrons_Model.gm1 Electrons_Model.T0 Electrons_Model.rho0].
    rewrite !ratio_pos by lra. field.
Qed.

(** ** Stiffened gas *)
Theorem C82_stiff_gas : forall gm1 Cv Pinf q qp T0 P0 A Z g rho, Stiff_Model.make gm1 Cv Pinf q qp T0 P0 A Z = Some g ->
  0 < gm1 -> 0 < Cv -> 0 <= Pinf -> tiny <= T0 -> tiny <= gm1 * Cv * T0 -> tiny <= rho -> tiny <= rho * Cv ->
  (forall e, - Pinf <= stiff_P gm1 Pinf q rho e -> Stiff_Model.PressureFromDensityInternalEnergy g rho e = stiff_P gm1 Pinf q rho e) /\
  (forall T, 0 < T -> let P := Stiff_Model.PressureFromDensityTemperature g rho T in
     Stiff_Model.InternalEnergyFromDensityTemperature g rho T = stiff_e gm1 Cv Pinf q P T /\
     P = stiff_P gm1 Pinf q rho (stiff_e gm1 Cv Pinf q P T)) /\
  (forall P T, 0 < T -> tiny <= P + Pinf -> tiny <= gm1 * Cv * T -> SMALL <= (P + Pinf) / (gm1 * Cv * T) -> 0 <= P + (gm1 + 1) * Pinf ->
     snd (Stiff_Model.DensityEnergyFromPressureTemperature g P T) = stiff_e gm1 Cv Pinf q P T /\
     P = stiff_P gm1 Pinf q (fst (Stiff_Model.DensityEnergyFromPressureTemperature g P T)) (stiff_e gm1 Cv Pinf q P T)) /\
  (forall T, tiny <= T / T0 -> tiny <= stiff_rho0 P0 Pinf gm1 Cv T0 / rho ->
     Stiff_Model.EntropyFromDensityTemperature g rho T = stiff_S gm1 Cv qp (stiff_rho0 P0 Pinf gm1 Cv T0) T0 rho T) /\
  (forall x, Stiff_Model.SpecificHeat g rho x = Cv /\ Stiff_Model.GruneisenParam g rho x = gm1).
Proof.
  intros gm1 Cv Pinf q qp T0 P0 A Z g rho H HG HC HPi HT0 Hd0 Hr HrC. unfold Stiff_Model.make in H. destruct (Stiff_Model.CheckParams _); [|discriminate]. injection H as <-.
  pose proof tiny_pos. unfold Stiff_Model.ctor. cbv zeta. refine (conj _ (conj _ (conj _ (conj _ _)))).
  - intros e He. unfold Stiff_Model.PressureFromDensityInternalEnergy. cbn [Stiff_Model.gm1 Stiff_Model.Pinf Stiff_Model.qq]. apply Rmax_r_eq. exact He.
  - intros T HT. assert (PT : 0 < gm1 * rho * Cv * T) by (apply Rmult_lt_0_compat; [apply Rmult_lt_0_compat; [apply Rmult_lt_0_compat|]|]; lra).
    assert (EP : Stiff_Model.PressureFromDensityTemperature
      (Stiff_Model.mkStiff Cv gm1 Pinf q T0 P0 qp (ratio (P0 + Pinf) (gm1 * Cv * T0)) (ratio (gm1 * Cv * T0) (P0 + Pinf))
         (ratio (P0 + (gm1 + 1) * Pinf) (P0 + Pinf) * Cv * T0 + q) (gm1 * (gm1 + 1) * ratio (P0 + Pinf) (gm1 * Cv * T0) * Cv * T0)
         (ratio (P0 + Pinf) (gm1 * Cv * T0) * gm1) A Z) rho T = gm1 * rho * Cv * T - Pinf).
    { unfold Stiff_Model.PressureFromDensityTemperature. cbn [Stiff_Model.gm1 Stiff_Model.Pinf Stiff_Model.Cv]. apply Rmax_r_eq. lra. }
    cbv zeta. rewrite EP. unfold Stiff_Model.InternalEnergyFromDensityTemperature. cbn [Stiff_Model.qq Stiff_Model.Cv Stiff_Model.Pinf]. rewrite ratio_pos by assumption.
    assert (0 < rho * Cv * T) by (apply Rmult_lt_0_compat; [apply Rmult_lt_0_compat|]; lra).
    assert (0 <= (rho * Cv * T + Pinf) / rho) by (apply div_ge; lra). rewrite Rmax_r_eq by lra. unfold stiff_e, stiff_P. split; field; lra.
  - intros P T HT H1 H2 H3 H4. unfold Stiff_Model.DensityEnergyFromPressureTemperature. cbn [Stiff_Model.gm1 Stiff_Model.Pinf Stiff_Model.Cv Stiff_Model.qq fst snd].
    rewrite !ratio_pos by assumption. rewrite (Rmax_r_eq SMALL) by assumption.
    assert (0 <= (P + (gm1 + 1) * Pinf) / (P + Pinf)) by (apply div_ge; lra).
    assert (0 <= (P + (gm1 + 1) * Pinf) / (P + Pinf) * Cv * T) by (apply Rmult_le_pos; [apply Rmult_le_pos|]; lra).
    rewrite Rmax_r_eq by lra. unfold stiff_e, stiff_P. split; [reflexivity|]. field. lra.
  - intros T H1 H2. unfold Stiff_Model.EntropyFromDensityTemperature. cbn [Stiff_Model.gm1 Stiff_Model.Cv Stiff_Model.T0 Stiff_Model.rho0 Stiff_Model.qp].
    rewrite !ratio_pos by assumption. rewrite !plus_small_eq by assumption. reflexivity.
  - intros x. split; reflexivity.
Qed.

(** ** Noble-Abel *)
Theorem C82_noble_abel : forall gm1 Cv b q qp T0 P0 A Z g rho, NobleAbel_Model.make gm1 Cv b q qp T0 P0 A Z = Some g ->
  0 < gm1 -> 0 < Cv -> 0 <= b -> tiny <= T0 -> tiny <= P0 -> tiny <= gm1 * Cv * T0 / P0 -> tiny <= rho -> tiny <= 1 - b * rho ->
  let rho0 := noble_rho0 P0 gm1 Cv b T0 in
  (forall e, SMALL <= noble_P gm1 b q rho e -> NobleAbel_Model.PressureFromDensityInternalEnergy g rho e = noble_P gm1 b q rho e) /\
  (forall T, 0 <= T -> NobleAbel_Model.InternalEnergyFromDensityTemperature g rho T = noble_e Cv q T /\
     (SMALL <= noble_P gm1 b q rho (noble_e Cv q T) -> NobleAbel_Model.PressureFromDensityTemperature g rho T = noble_P gm1 b q rho (noble_e Cv q T))) /\
  (forall T, tiny <= T / T0 -> tiny <= (1 / rho - b) / (1 / rho0 - b) ->
     NobleAbel_Model.EntropyFromDensityTemperature g rho T = noble_S gm1 Cv b qp rho0 T0 rho T) /\
  (forall x, NobleAbel_Model.SpecificHeat g rho x = Cv /\ NobleAbel_Model.GruneisenParam g rho x = gm1 / (1 - b * rho)) /\
  (tiny <= gm1 * Cv * T0 + b * P0 -> forall dvdt, firstn 4 (NobleAbel_Model.ValuesAtReferenceState g dvdt) = (rho0 :: T0 :: noble_e Cv q T0 :: P0 :: nil)%list).
Proof.
  intros gm1 Cv b q qp T0 P0 A Z g rho H HG HC Hb HT0 HP0 Hv0 Hr Hbr rho0. unfold NobleAbel_Model.make in H. destruct (NobleAbel_Model.CheckParams _); [|discriminate]. injection H as <-.
  pose proof tiny_pos. unfold NobleAbel_Model.ctor. cbv zeta. refine (conj _ (conj _ (conj _ (conj _ _)))).
  - intros e He. unfold NobleAbel_Model.PressureFromDensityInternalEnergy. cbn [NobleAbel_Model.gm1 NobleAbel_Model.bb NobleAbel_Model.qq]. rewrite ratio_pos by assumption.
    assert (E : gm1 * rho * (e - q) / (1 - b * rho) = noble_P gm1 b q rho e) by (unfold noble_P; f_equal; ring). rewrite E. apply Rmax_r_eq. exact He.
  - intros T HT. split.
    + unfold NobleAbel_Model.InternalEnergyFromDensityTemperature, noble_e. cbn [NobleAbel_Model.qq NobleAbel_Model.Cv]. apply Rmax_r_eq. assert (0 <= Cv * T) by (apply Rmult_le_pos; lra). lra.
    + intros He. unfold NobleAbel_Model.PressureFromDensityTemperature. cbn [NobleAbel_Model.gm1 NobleAbel_Model.bb NobleAbel_Model.Cv]. rewrite ratio_pos by assumption.
      assert (E : gm1 * rho * Cv * T / (1 - b * rho) = noble_P gm1 b q rho (noble_e Cv q T)) by (unfold noble_P, noble_e; f_equal; ring). rewrite E. apply Rmax_r_eq. exact He.
  - intros T H1 H2. unfold NobleAbel_Model.EntropyFromDensityTemperature. cbv zeta. cbn [NobleAbel_Model.gm1 NobleAbel_Model.bb NobleAbel_Model.Cv NobleAbel_Model.T0 NobleAbel_Model.vol0 NobleAbel_Model.qp].
    assert (PK : 0 < gm1 * Cv * T0) by (apply Rmult_lt_0_compat; [apply Rmult_lt_0_compat|]; lra). assert (0 <= b * P0) by (apply Rmult_le_pos; lra).
    assert (EV : ratio (gm1 * Cv * T0 + b * P0) P0 = 1 / rho0). { rewrite ratio_pos by assumption. unfold rho0, noble_rho0. field. split; lra. }
    assert (EB : 1 / rho0 - b = gm1 * Cv * T0 / P0). { unfold rho0, noble_rho0. field. split; lra. }
    rewrite EV. rewrite (ratio_pos 1 rho), (ratio_pos T T0) by assumption. rewrite (ratio_pos (1 / rho - b)) by (rewrite EB; assumption).
    rewrite !plus_small_eq by assumption. unfold noble_S. ring.
  - intros x. split; [reflexivity|]. unfold NobleAbel_Model.GruneisenParam. cbn [NobleAbel_Model.gm1 NobleAbel_Model.bb]. apply ratio_pos. assumption.
  - intros HD dvdt. unfold NobleAbel_Model.ValuesAtReferenceState. cbn [firstn NobleAbel_Model.rho0 NobleAbel_Model.T0 NobleAbel_Model.sie0 NobleAbel_Model.P0].
    rewrite (ratio_pos P0) by exact HD. replace (P0 / (gm1 * Cv * T0 + b * P0)) with rho0 by (unfold rho0, noble_rho0; f_equal; ring). reflexivity.
Qed.

(** ** Carnahan-Starling; rho0 is the stored reference density (found by a root search, C19_reference_state) *)
Theorem C82_carnahan_starling : forall gm1 Cv b q qp T0 P0 A Z g rho, Carnahan_Model.make gm1 Cv b q qp T0 P0 A Z = Some g ->
  0 < gm1 -> 0 < Cv -> 0 <= b -> tiny <= T0 -> tiny <= rho -> b * rho < 1 -> tiny <= (1 - b * rho) ^ 3 ->
  let rho0 := nth 0 (Carnahan_Model.ValuesAtReferenceState g 0) 0 in
  (forall e, SMALL <= carnahan_P gm1 b q rho e -> Carnahan_Model.PressureFromDensityInternalEnergy g rho e = carnahan_P gm1 b q rho e) /\
  (forall T, 0 <= T -> Carnahan_Model.InternalEnergyFromDensityTemperature g rho T = noble_e Cv q T /\
     (SMALL <= carnahan_P gm1 b q rho (noble_e Cv q T) -> Carnahan_Model.PressureFromDensityTemperature g rho T = carnahan_P gm1 b q rho (noble_e Cv q T))) /\
  (forall T, tiny <= rho0 -> tiny <= 1 / rho0 -> tiny <= T / T0 -> tiny <= (1 / rho) / (1 / rho0) -> tiny <= 1 / rho - b -> tiny <= 1 / rho0 - b ->
     Carnahan_Model.EntropyFromDensityTemperature g rho T = carnahan_S gm1 Cv b qp rho0 T0 rho T) /\
  (forall x, Carnahan_Model.SpecificHeat g rho x = Cv /\ Carnahan_Model.GruneisenParam g rho x = carnahan_Z b rho * gm1).
Proof.
  intros gm1 Cv b q qp T0 P0 A Z g rho H HG HC Hb HT0 Hr Hbr Hd rho0. unfold Carnahan_Model.make in H.
  destruct (Carnahan_Model.ctor _ _ _ _ _ _ _ _ _) as [g'|] eqn:EC; [|discriminate]. destruct (Carnahan_Model.CheckParams _); [|discriminate]. injection H as ->.
  unfold Carnahan_Model.ctor in EC. destruct (Carnahan_Model.DensityFromPT _ _ _ _ _) as [r0|]; [|discriminate]. injection EC as <-. cbn [nth Carnahan_Model.ValuesAtReferenceState Carnahan_Model.rho0] in rho0. subst rho0.
  pose proof tiny_pos.
  assert (EZ : Carnahan_Model.Zed b rho = carnahan_Z b rho).
  { unfold Carnahan_Model.Zed, carnahan_Z. cbv zeta. rewrite ratio_pos by assumption. field. intros K. replace (1 - b * rho) with 0 in Hd by lra. cbn in Hd. lra. }
  refine (conj _ (conj _ (conj _ _))).
  - intros e He. unfold Carnahan_Model.PressureFromDensityInternalEnergy, Carnahan_Model.ZedFromDensity. cbn [Carnahan_Model.gm1 Carnahan_Model.bb Carnahan_Model.qq]. rewrite EZ.
    apply Rmax_r_eq. exact He.
  - intros T HT. split.
    + unfold Carnahan_Model.InternalEnergyFromDensityTemperature, noble_e. cbn [Carnahan_Model.qq Carnahan_Model.Cv]. apply Rmax_r_eq. assert (0 <= Cv * T) by (apply Rmult_le_pos; lra). lra.
    + intros He. unfold Carnahan_Model.PressureFromDensityTemperature, Carnahan_Model.ZedFromDensity. cbn [Carnahan_Model.gm1 Carnahan_Model.bb Carnahan_Model.Cv]. rewrite EZ.
      assert (E : carnahan_Z b rho * rho * T * Cv * gm1 = carnahan_P gm1 b q rho (noble_e Cv q T)) by (unfold carnahan_P, noble_e; ring). rewrite E. apply Rmax_r_eq. exact He.
  - intros T H0 H0' H1 H2 H3 H4. unfold Carnahan_Model.EntropyFromDensityTemperature, Carnahan_Model.entropy_tail. cbv zeta.
    cbn [Carnahan_Model.gm1 Carnahan_Model.bb Carnahan_Model.Cv Carnahan_Model.T0 Carnahan_Model.vol0 Carnahan_Model.qp].
    rewrite (ratio_pos 1 rho), (ratio_pos 1 r0), (ratio_pos T T0) by assumption. rewrite (ratio_pos (1 / rho)) by assumption. rewrite !ratio_pos by assumption.
    rewrite !plus_small_eq by assumption. unfold carnahan_S, carnahan_S_CS. set (u := 1 / rho - b) in *. set (u0 := 1 / r0 - b) in *. set (L1 := ln _). set (L2 := ln _).
    clearbody u u0 L1 L2. field. split; lra.
  - intros x. split; [reflexivity|]. unfold Carnahan_Model.GruneisenParam, Carnahan_Model.ZedFromDensity. cbn [Carnahan_Model.gm1 Carnahan_Model.bb]. rewrite EZ. reflexivity.
Qed.

(** ** JWL. The exponentials underflow to 0 below 2^-1022, nothing else differs *)
Lemma sexp_near x : x <= 0 -> Rabs (JWL_Model.sexp x - exp x) <= bpow radix2 (-1022).
Proof.
  intros Hx. assert (L2 : 0 < ln 2) by (rewrite <- ln_1; apply ln_increasing; lra).
  assert (EB : exp min_exp_arg = bpow radix2 (-1022)).
  { rewrite bpow_exp. f_equal. unfold min_exp_arg. cbn [radix_val radix2]. replace (IZR (-1022)) with (-1021 - 1) by lra. reflexivity. }
  unfold JWL_Model.sexp, safe_arg_exp. destruct (Rlt_bool_spec x min_exp_arg) as [H|H].
  - rewrite Rminus_0_l, Rabs_Ropp, Rabs_pos_eq by apply Rlt_le, exp_pos. rewrite <- EB. apply Rlt_le, exp_increasing, H.
  - rewrite Rlt_bool_false by (unfold max_exp_arg; lra). rewrite Rminus_eq_0, Rabs_R0. apply bpow_ge_0.
Qed.
Lemma lin2 a b x y x' y' d : Rabs (x - x') <= d -> Rabs (y - y') <= d -> Rabs (a * x + b * y - (a * x' + b * y')) <= (Rabs a + Rabs b) * d.
Proof.
  intros H1 H2. replace (a * x + b * y - (a * x' + b * y')) with (a * (x - x') + b * (y - y')) by ring.
  eapply Rle_trans; [apply Rabs_triang|]. rewrite !Rabs_mult. pose proof (Rabs_pos a). pose proof (Rabs_pos b).
  rewrite Rmult_plus_distr_r. apply Rplus_le_compat; apply Rmult_le_compat_l; assumption.
Qed.
Theorem C82_jwl : forall A B R1 R2 w rho0 Cv Ab Zb g rho, JWL_Model.make A B R1 R2 w rho0 Cv Ab Zb = Some g ->
  0 < R1 -> 0 < R2 -> tiny <= rho0 * R1 -> tiny <= rho0 * R2 -> tiny <= Cv -> tiny <= rho ->
  exists PS eS, Rabs (PS - jwl_P_S A B R1 R2 rho0 rho) <= (Rabs A + Rabs B) * bpow radix2 (-1022) /\
    Rabs (eS - jwl_e_S A B R1 R2 rho0 rho) <= (Rabs (A / (rho0 * R1)) + Rabs (B / (rho0 * R2))) * bpow radix2 (-1022) /\
    (R1 * (rho0 / rho) <= 511 -> R2 * (rho0 / rho) <= 511 -> PS = jwl_P_S A B R1 R2 rho0 rho /\ eS = jwl_e_S A B R1 R2 rho0 rho) /\
    (forall e, JWL_Model.PressureFromDensityInternalEnergy g rho e = mie_gruneisen PS eS w rho e) /\
    (forall T, JWL_Model.InternalEnergyFromDensityTemperature g rho T = eS + Cv * T) /\
    (forall e, e = eS + Cv * JWL_Model.TemperatureFromDensityInternalEnergy g rho e) /\
    (forall x, JWL_Model.GruneisenParamFromDensityTemperature g rho x = w /\ JWL_Model.SpecificHeatFromDensityInternalEnergy g rho x = Cv).
Proof.
  intros A B R1 R2 w rho0 Cv Ab Zb g rho H HR1 HR2 Hd1 Hd2 HC Hr. unfold JWL_Model.make in H. destruct (JWL_Model.CheckParams _) eqn:EC; [|discriminate]. injection H as <-.
  unfold JWL_Model.CheckParams, JWL_Model.ctor in EC. cbn [JWL_Model.w JWL_Model.rho0] in EC. apply andb_prop in EC. destruct EC as (EC & _). apply andb_prop in EC. destruct EC as (EC & _).
  apply andb_prop in EC. destruct EC as (EC & _). apply andb_prop in EC. destruct EC as (_ & EC). destruct (Rlt_bool_spec 0 rho0) as [H0|]; [|discriminate].
  pose proof tiny_pos. set (g := JWL_Model.ctor _ _ _ _ _ _ _ _ _). assert (HX : 0 < rho0 / rho) by (apply Rdiv_lt_0_compat; lra).
  assert (X1 : - R1 * (rho0 / rho) <= 0) by nra. assert (X2 : - R2 * (rho0 / rho) <= 0) by nra.
  exists (JWL_Model.ReferencePressure g rho), (JWL_Model.ReferenceEnergy g rho).
  assert (EP : JWL_Model.ReferencePressure g rho = A * JWL_Model.sexp (- R1 * (rho0 / rho)) + B * JWL_Model.sexp (- R2 * (rho0 / rho))).
  { unfold JWL_Model.ReferencePressure, g, JWL_Model.ctor. cbv zeta. cbn [JWL_Model.A JWL_Model.B JWL_Model.R1 JWL_Model.R2 JWL_Model.rho0]. rewrite ratio_pos by assumption. reflexivity. }
  assert (EE : JWL_Model.ReferenceEnergy g rho = A / (rho0 * R1) * JWL_Model.sexp (- R1 * (rho0 / rho)) + B / (rho0 * R2) * JWL_Model.sexp (- R2 * (rho0 / rho))).
  { unfold JWL_Model.ReferenceEnergy, g, JWL_Model.ctor. cbv zeta. cbn [JWL_Model.c1 JWL_Model.c2 JWL_Model.R1 JWL_Model.R2 JWL_Model.rho0]. rewrite !ratio_pos by assumption. reflexivity. }
  refine (conj _ (conj _ (conj _ (conj _ (conj _ (conj _ _)))))).
  - rewrite EP. unfold jwl_P_S. apply lin2; apply sexp_near; assumption.
  - rewrite EE. unfold jwl_e_S. apply lin2; apply sexp_near; assumption.
  - intros K1 K2. assert (M : min_exp_arg <= - (511)).
    { unfold min_exp_arg. pose proof ln_lt_2. lra. }
    assert (S : forall x, - (511) <= x <= 0 -> JWL_Model.sexp x = exp x).
    { intros x Hx. unfold JWL_Model.sexp, safe_arg_exp. rewrite Rlt_bool_false by lra. rewrite Rlt_bool_false; [reflexivity|]. unfold max_exp_arg.
      assert (0 < ln 2) by (rewrite <- ln_1; apply ln_increasing; lra). lra. }
    rewrite EP, EE, !S by lra. split; reflexivity.
  - intros e. unfold JWL_Model.PressureFromDensityInternalEnergy, mie_gruneisen. change (JWL_Model.w g) with w. ring.
  - intros T. unfold JWL_Model.InternalEnergyFromDensityTemperature. reflexivity.
  - intros e. unfold JWL_Model.TemperatureFromDensityInternalEnergy. change (JWL_Model.Cv g) with Cv. rewrite ratio_pos by assumption. field. lra.
  - intros x. split; reflexivity.
Qed.

(** ** Steinberg's Mie-Gruneisen EOS, at every positive density: above rho_max the density is pinned to rho_max *)
Definition pinned (rho_max : option R) (rho : R) : R := match rho_max with Some m => Rmin rho m | None => rho end.
Theorem C82_gruneisen : forall C0 s1 s2 s3 G0 b rho0 T0 P0 Cv rho_max A Z rho, 0 < rho0 -> 0 < Cv -> 0 < rho ->
  (match rho_max with Some m => 0 < m | None => True end) ->
  let g := Gruneisen_Model.mkGrun C0 s1 s2 s3 G0 b rho0 T0 P0 Cv rho_max A Z in
  let r := pinned rho_max rho in
  let Gamma := steinberg_Gamma G0 b (compression rho0 r) in
  let P_H := steinberg_P_H C0 s1 s2 s3 rho0 P0 r in
  let E_H := steinberg_E_H C0 s1 s2 s3 rho0 P0 r in
  (forall e, Gruneisen_Model.PressureFromDensityInternalEnergy g rho e = mie_gruneisen P_H E_H Gamma r e /\
     Gruneisen_Model.TemperatureFromDensityInternalEnergy g rho e = steinberg_T Cv T0 e /\
     Gruneisen_Model.GruneisenParamFromDensityInternalEnergy g rho e = Gamma /\ Gruneisen_Model.SpecificHeatFromDensityInternalEnergy g rho e = Cv) /\
  (forall T, T = steinberg_T Cv T0 (Gruneisen_Model.InternalEnergyFromDensityTemperature g rho T) /\
     Gruneisen_Model.PressureFromDensityTemperature g rho T = mie_gruneisen P_H E_H Gamma r (Gruneisen_Model.InternalEnergyFromDensityTemperature g rho T)).
Proof.
  intros C0 s1 s2 s3 G0 b rho0 T0 P0 Cv rho_max A Z rho H0 HC Hr Hm g r Gamma P_H E_H.
  assert (Ecap : forall x, Gruneisen_Model.cap g x = pinned rho_max x) by reflexivity.
  assert (Idem : pinned rho_max r = r). { unfold r, pinned. destruct rho_max; [|reflexivity]. apply Rmin_left, Rmin_r. }
  assert (Pr : 0 < r). { unfold r, pinned. destruct rho_max; [|assumption]. apply Rmin_glb_lt; assumption. }
  assert (CMP : (r < rho0 -> compression rho0 r < 0) /\ (rho0 < r -> 0 < compression rho0 r) /\ (r = rho0 -> compression rho0 r = 0)).
  { unfold compression. refine (conj _ (conj _ _)); intros K.
    - apply Rmult_lt_reg_r with r; [exact Pr|]. replace ((1 - rho0 / r) * r) with (r - rho0) by (field; lra). lra.
    - apply Rmult_lt_reg_r with r; [exact Pr|]. replace ((1 - rho0 / r) * r) with (r - rho0) by (field; lra). lra.
    - rewrite K. field. lra. }
  destruct CMP as (C1 & C2 & C3).
  assert (EG : Gruneisen_Model.Gamma g r = Gamma).
  { unfold Gruneisen_Model.Gamma. rewrite Ecap, Idem. unfold g. cbn [Gruneisen_Model.rho0 Gruneisen_Model.G0 Gruneisen_Model.b]. cbv zeta. unfold Gamma, steinberg_Gamma.
    destruct (Rlt_bool_spec r rho0) as [K|K].
    - destruct (Rle_dec _ 0) as [|N]; [reflexivity|]. specialize (C1 K). lra.
    - destruct (Rle_dec _ 0) as [L|L].
      + destruct K as [K|K]; [specialize (C2 K); lra|]. rewrite K. field. lra.
      + unfold compression. field. lra. }
  assert (EP : forall x e, pinned rho_max x = r -> Gruneisen_Model.PressureFromDensityInternalEnergy g x e = mie_gruneisen P_H E_H Gamma r e).
  { intros x e Ex. unfold Gruneisen_Model.PressureFromDensityInternalEnergy. rewrite Ecap, Ex. cbv zeta. rewrite EG. unfold mie_gruneisen, P_H, E_H, steinberg_E_H, steinberg_P_H, g.
    cbn [Gruneisen_Model.rho0 Gruneisen_Model.C0 Gruneisen_Model.s1 Gruneisen_Model.s2 Gruneisen_Model.s3 Gruneisen_Model.P0]. cbv zeta.
    destruct (Rle_bool_spec rho0 r) as [K|K].
    - destruct (Rlt_dec r rho0) as [L|L]; [lra|]. unfold compression. set (eta := 1 - rho0 / r).
      replace (1 - (s1 * eta + s2 * eta ^ 2 + s3 * eta ^ 3)) with (1 - s1 * eta - s2 * eta ^ 2 - s3 * eta ^ 3) by ring.
      set (D := (1 - s1 * eta - s2 * eta ^ 2 - s3 * eta ^ 3) ^ 2). unfold Rdiv. set (iD := / D). clearbody iD eta. field. lra.
    - destruct (Rlt_dec r rho0) as [L|L]; [|lra]. unfold compression. field. lra. }
  split.
  - intros e. refine (conj (EP _ _ eq_refl) (conj _ (conj _ eq_refl))).
    + unfold Gruneisen_Model.TemperatureFromDensityInternalEnergy, steinberg_T. cbn. ring.
    + unfold Gruneisen_Model.GruneisenParamFromDensityInternalEnergy. rewrite Ecap. exact EG.
  - intros T. split.
    + unfold Gruneisen_Model.InternalEnergyFromDensityTemperature, steinberg_T, g. cbn [Gruneisen_Model.Cv Gruneisen_Model.T0]. field. lra.
    + unfold Gruneisen_Model.PressureFromDensityTemperature. cbv zeta. rewrite Ecap. apply EP. exact Idem.
Qed.

(** ** Davis products *)
Lemma Rpower_inv x y : 0 < x -> Rpower (1 / x) y = Rpower x (- y).
Proof. intros H. unfold Rpower. f_equal. replace (1 / x) with (/ x) by (field; lra). rewrite ln_Rinv by exact H. ring. Qed.
Theorem C82_davis_products : forall a b k n vc pc Cv A Z rho, tiny <= n -> 0 < vc -> 0 < pc -> tiny <= Cv -> tiny <= k - 1 + a -> tiny <= rho * vc -> 0 < rho ->
  tiny <= Rpower (rho * vc) (- (k + a)) -> tiny <= Rpower (rho * vc) (- (k - 1 + a)) ->
  let g := DavisProducts_Model.ctor a b k n vc pc Cv A Z in
  let P_S := davisp_P_S a k n vc pc rho in let e_S := davisp_e_S a k n vc pc rho in let Gamma := davisp_Gamma a b k n vc rho in
  (forall e, DavisProducts_Model.PressureFromDensityInternalEnergy g rho e = mie_gruneisen P_S e_S Gamma rho e /\
     DavisProducts_Model.GruneisenParamFromDensityInternalEnergy g rho e = Gamma /\ DavisProducts_Model.SpecificHeatFromDensityInternalEnergy g rho e = Cv) /\
  exists T_S, forall T, DavisProducts_Model.InternalEnergyFromDensityTemperature g rho T = e_S + Cv * (T - T_S) /\
    DavisProducts_Model.PressureFromDensityTemperature g rho T = mie_gruneisen P_S e_S Gamma rho (e_S + Cv * (T - T_S)).
Proof.
  intros a b k n vc pc Cv A Z rho Hn Hv Hp HC Hk Hrv Hr HD1 HD2 g P_S e_S Gamma. pose proof tiny_pos. set (x := rho * vc) in *. assert (Hx : 0 < x) by lra.
  assert (EV : ratio 1 (rho * vc) = 1 / x) by (apply ratio_pos; exact Hrv). assert (Hvv : 0 < 1 / x) by (apply Rdiv_lt_0_compat; lra).
  assert (CP : forall z y, 0 < z -> DavisProducts_Model.cpow z y = Rpower z y) by (intros z y Hz; unfold DavisProducts_Model.cpow; rewrite Rlt_bool_true by exact Hz; reflexivity).
  assert (PP : forall y, 0 < Rpower x y) by (intros; unfold Rpower; apply exp_pos).
  assert (EF : DavisProducts_Model.F g rho = davisp_F a n vc rho).
  { unfold DavisProducts_Model.F, g, DavisProducts_Model.ctor. cbn [DavisProducts_Model.vc DavisProducts_Model.a DavisProducts_Model.n]. rewrite Rle_bool_false by lra. cbv zeta. rewrite EV, CP by exact Hvv.
    rewrite Rpower_inv by exact Hx. pose proof (PP (- (2 * n))). rewrite ratio_pos by (pose proof tiny_lt_1; lra). unfold davisp_F. fold x.
    replace (Rpower x (- (2 * n))) with (Rpower x (- n) * Rpower x (- n)) by (rewrite <- Rpower_plus; f_equal; ring).
    rewrite (Rpower_Ropp x n). pose proof (PP n). field. pose proof (PP n). split; nra. }
  assert (EM : forall m, 1 / 2 * (DavisProducts_Model.cpow (1 / x) m + DavisProducts_Model.cpow (1 / x) (- m)) = 1 / 2 * Rpower x (- m) + 1 / 2 * Rpower x m).
  { intros m. rewrite !CP by exact Hvv. rewrite !Rpower_inv by exact Hx. replace (- - m) with m by ring. ring. }
  assert (PM : 0 < 1 / 2 * Rpower x (- n) + 1 / 2 * Rpower x n) by (pose proof (PP n); pose proof (PP (- n)); lra).
  assert (EPs : DavisProducts_Model.Ps g rho = P_S).
  { unfold DavisProducts_Model.Ps. rewrite Rle_bool_false by lra. rewrite EF. cbv zeta. unfold g, DavisProducts_Model.ctor. cbn [DavisProducts_Model.vc DavisProducts_Model.a DavisProducts_Model.n DavisProducts_Model.k DavisProducts_Model.pc DavisProducts_Model.aon].
    rewrite EV, EM. rewrite !CP by assumption. rewrite Rpower_inv by exact Hx. rewrite !ratio_pos by assumption. unfold P_S, davisp_P_S, davisp_G. fold x. reflexivity. }
  assert (EEs : DavisProducts_Model.Es g rho = e_S).
  { unfold DavisProducts_Model.Es. rewrite Rle_bool_false by lra. cbv zeta. unfold g, DavisProducts_Model.ctor. cbn [DavisProducts_Model.vc DavisProducts_Model.a DavisProducts_Model.n DavisProducts_Model.k DavisProducts_Model.pc DavisProducts_Model.aon].
    rewrite EV, EM. rewrite !CP by assumption. rewrite Rpower_inv by exact Hx. rewrite !ratio_pos by assumption. unfold e_S, davisp_e_S, davisp_G. fold x.
    replace (Rpower x (- (k - 1 + a))) with (Rpower x (- (k + a)) * x) by (rewrite <- (Rpower_1 x Hx) at 2; rewrite <- Rpower_plus; f_equal; ring).
    pose proof (PP (- (k + a))). field. repeat split; lra. }
  assert (EG : DavisProducts_Model.Gamma g rho = Gamma) by (unfold DavisProducts_Model.Gamma; rewrite EF; reflexivity).
  assert (EP : forall e, DavisProducts_Model.PressureFromDensityInternalEnergy g rho e = mie_gruneisen P_S e_S Gamma rho e) by (intros e; unfold DavisProducts_Model.PressureFromDensityInternalEnergy; rewrite EPs, EEs, EG; reflexivity).
  split; [intros e; refine (conj (EP e) (conj EG eq_refl))|]. exists (DavisProducts_Model.Ts g rho). intros T.
  assert (ET : DavisProducts_Model.InternalEnergyFromDensityTemperature g rho T = e_S + Cv * (T - DavisProducts_Model.Ts g rho)).
  { unfold DavisProducts_Model.InternalEnergyFromDensityTemperature. rewrite EEs. change (DavisProducts_Model.Cv g) with Cv. ring. }
  split; [exact ET|]. unfold DavisProducts_Model.PressureFromDensityTemperature. rewrite ET. apply EP.
Qed.
(** Refuted: no constant T_C makes the manual's T_S = T_C G(rho) (rho Vc)^-(ba+1) the temperature of zero thermal energy that the code uses,
    unless a b = 0: the manual raises the bracket in G to a/n, the code (and Gamma) require a(1-b)/n *)
Theorem C83_davis_products_T_S_refuted : forall a b k n vc pc Cv A Z T_C, 0 < n -> 0 < vc -> 0 < pc -> tiny <= Cv -> tiny <= k - 1 + a -> tiny <= Cv * (k - 1 + a) -> a * b <> 0 ->
  tiny <= 1 / 2 -> tiny <= Rpower 2 (- (k - 1 + a * (1 - b))) ->
  let g := DavisProducts_Model.ctor a b k n vc pc Cv A Z in
  DavisProducts_Model.Ts g (1 / vc) <> davisp_T_S T_C a b k n vc (1 / vc) \/ DavisProducts_Model.Ts g (2 / vc) <> davisp_T_S T_C a b k n vc (2 / vc).
Proof.
  intros a b k n vc pc Cv A Z T_C Hn Hv Hp HC Hk HCk Hab Hh HD g. pose proof tiny_pos. pose proof tiny_lt_1.
  assert (CP : forall z y, 0 < z -> DavisProducts_Model.cpow z y = Rpower z y) by (intros z y Hz; unfold DavisProducts_Model.cpow; rewrite Rlt_bool_true by exact Hz; reflexivity).
  set (K := Rpower 2 (- a * ratio b n) * pc * ratio vc (Cv * (k - 1 + a))).
  assert (HK : 0 < K). { unfold K. rewrite (ratio_pos vc) by assumption. apply Rmult_lt_0_compat; [apply Rmult_lt_0_compat; [apply exp_pos|assumption]|]. apply Rdiv_lt_0_compat; lra. }
  assert (ET : forall x, 0 < x -> tiny <= x -> tiny <= Rpower x (- (k - 1 + a * (1 - b))) ->
     DavisProducts_Model.Ts g (x / vc) = K * (Rpower (1 / 2 * Rpower x (- n) + 1 / 2 * Rpower x n) (a / n * (1 - b)) * Rpower x (k - 1 + a * (1 - b)))).
  { intros x Hx Hx' HxD. assert (Hxv : 0 < x / vc) by (apply Rdiv_lt_0_compat; assumption). unfold DavisProducts_Model.Ts. rewrite Rle_bool_false by lra. cbv zeta.
    unfold g, DavisProducts_Model.ctor. cbn [DavisProducts_Model.vc DavisProducts_Model.a DavisProducts_Model.b DavisProducts_Model.n DavisProducts_Model.k DavisProducts_Model.pc DavisProducts_Model.aon DavisProducts_Model.Cv].
    replace (x / vc * vc) with x by (field; lra). rewrite (ratio_pos 1 x) by assumption. assert (0 < 1 / x) by (apply Rdiv_lt_0_compat; lra).
    rewrite (CP 2) by lra. rewrite (CP (1 / x) n), (CP (1 / x) (- n)), (CP (1 / x) (k - 1 + a * (1 - b))) by assumption. rewrite !Rpower_inv by assumption. replace (- - n) with n by ring.
    assert (0 < Rpower x n) by apply exp_pos. assert (0 < Rpower x (- n)) by apply exp_pos. rewrite CP by lra.
    replace (1 / 2 * (Rpower x (- n) + Rpower x n)) with (1 / 2 * Rpower x (- n) + 1 / 2 * Rpower x n) by ring.
    rewrite (ratio_pos (Rpower _ _)) by assumption. fold K. rewrite (Rpower_Ropp x (k - 1 + a * (1 - b))). field. pose proof (exp_pos ((k - 1 + a * (1 - b)) * ln x)) as E. fold (Rpower x (k - 1 + a * (1 - b))) in E. lra. }
  assert (ED : forall x, 0 < x -> davisp_T_S T_C a b k n vc (x / vc) = T_C * (Rpower (1 / 2 * Rpower x (- n) + 1 / 2 * Rpower x n) (a / n) * Rpower x (k - 1 + a * (1 - b)))).
  { intros x Hx. unfold davisp_T_S, davisp_G. replace (x / vc * vc) with x by (field; lra).
    replace (Rpower x (k - 1 + a * (1 - b))) with (Rpower x (k + a) * Rpower x (- (b * a + 1))) by (rewrite <- Rpower_plus; f_equal; ring).
    rewrite (Rpower_Ropp x (k + a)), (Rpower_Ropp x (b * a + 1)). assert (0 < Rpower x (k + a)) by apply exp_pos. assert (0 < Rpower x (b * a + 1)) by apply exp_pos. field. lra. }
  assert (R1 : forall y, Rpower 1 y = 1) by (intros; unfold Rpower; rewrite ln_1, Rmult_0_r, exp_0; reflexivity).
  assert (E1 : DavisProducts_Model.Ts g (1 / vc) = K). { rewrite ET by (try rewrite R1; lra). rewrite !R1. replace (1 / 2 * 1 + 1 / 2 * 1) with 1 by field. rewrite R1. ring. }
  assert (D1 : davisp_T_S T_C a b k n vc (1 / vc) = T_C). { rewrite ED by lra. rewrite !R1. replace (1 / 2 * 1 + 1 / 2 * 1) with 1 by field. rewrite R1. ring. }
  destruct (Req_dec K T_C) as [EK|NK]; [right|left; rewrite E1, D1; exact NK]. rewrite ET by (try exact HD; lra). rewrite ED by lra. rewrite <- EK.
  set (m := 1 / 2 * Rpower 2 (- n) + 1 / 2 * Rpower 2 n). intros E. assert (0 < Rpower 2 (k - 1 + a * (1 - b))) by apply exp_pos.
  assert (E2 : Rpower m (a / n * (1 - b)) = Rpower m (a / n)).
  { apply Rmult_eq_reg_r with (Rpower 2 (k - 1 + a * (1 - b))); [|lra]. apply Rmult_eq_reg_l with K; lra. }
  assert (Hm : 1 < m). { unfold m. rewrite Rpower_Ropp. set (t := Rpower 2 n). assert (Ht : 1 < t). { unfold t. rewrite <- (Rpower_O 2) by lra. apply Rpower_lt; lra. }
    apply Rmult_lt_reg_r with (2 * t); [lra|]. replace ((1 / 2 * / t + 1 / 2 * t) * (2 * t)) with (1 + t * t) by (field; lra). nra. }
  unfold Rpower in E2. apply exp_inv in E2. assert (0 < ln m) by (rewrite <- ln_1; apply ln_increasing; lra).
  apply Rmult_eq_reg_r in E2; [|lra]. apply Hab. apply Rmult_eq_compat_r with (r := n) in E2. replace (a / n * (1 - b) * n) with (a - a * b) in E2 by (field; lra). replace (a / n * n) with a in E2 by (field; lra). lra.
Qed.
(** Refuted: "if the entropy reference conditions are given, the return values of ValuesAtReferenceState() will not be the same" (as the entropy
    reference): for these three EOS they are exactly the entropy reference T0, P0 *)
Theorem C83_reference_state_is_entropy_reference_refuted : forall gm1 Cv p q qp T0 P0 A Z,
  (forall g d, Stiff_Model.make gm1 Cv p q qp T0 P0 A Z = Some g -> nth 1 (Stiff_Model.ValuesAtReferenceState g d) 0 = T0 /\ nth 3 (Stiff_Model.ValuesAtReferenceState g d) 0 = P0) /\
  (forall g d, NobleAbel_Model.make gm1 Cv p q qp T0 P0 A Z = Some g -> nth 1 (NobleAbel_Model.ValuesAtReferenceState g d) 0 = T0 /\ nth 3 (NobleAbel_Model.ValuesAtReferenceState g d) 0 = P0) /\
  (forall g d, Carnahan_Model.make gm1 Cv p q qp T0 P0 A Z = Some g -> nth 1 (Carnahan_Model.ValuesAtReferenceState g d) 0 = T0 /\ nth 3 (Carnahan_Model.ValuesAtReferenceState g d) 0 = P0).
Proof.
  intros gm1 Cv p q qp T0 P0 A Z. refine (conj _ (conj _ _)); intros g d H.
  - unfold Stiff_Model.make in H. destruct (Stiff_Model.CheckParams _); [|discriminate]. injection H as <-. split; reflexivity.
  - unfold NobleAbel_Model.make in H. destruct (NobleAbel_Model.CheckParams _); [|discriminate]. injection H as <-. split; reflexivity.
  - unfold Carnahan_Model.make, Carnahan_Model.ctor in H. destruct (Carnahan_Model.DensityFromPT _ _ _ _ _) as [r0|]; [|discriminate]. destruct (Carnahan_Model.CheckParams _); [|discriminate]. injection H as <-. split; reflexivity.
Qed.

(** non-vacuity: parameters meeting the hypotheses *)
Example C82_ideal_nonvacuous : exists g, Ideal_Model.make (4/10) 7000000 298 1 14 7 = Some g /\ tiny <= 298 /\ tiny <= 1 /\ 0 < Ideal_Model.PressureFromDensityTemperature g 1 300.
Proof.
  eexists. unfold Ideal_Model.make, Ideal_Model.CheckParams. cbn [Ideal_Model.Cv Ideal_Model.gm1 Ideal_Model.EntropyT0 Ideal_Model.EntropyRho0 Ideal_Model.Abar Ideal_Model.Zbar Ideal_Model.ctor5].
  rewrite !Rle_bool_true, !Rlt_bool_true by lra. split; [reflexivity|]. pose proof tiny_lt_1. split; [lra|]. split; [lra|]. unfold Ideal_Model.PressureFromDensityTemperature. cbn. rewrite Rmax_r_eq; lra.
Qed.
Example C82_stiff_nonvacuous : exists g, Stiff_Model.make (13/10) 20000000 8000000000 0 0 298 1000000 18 10 = Some g /\ tiny <= (13/10) * 20000000 * 298 /\ tiny <= 1 * 20000000.
Proof.
  eexists. unfold Stiff_Model.make, Stiff_Model.CheckParams, Stiff_Model.ctor. cbv zeta. cbn [Stiff_Model.Cv Stiff_Model.gm1 Stiff_Model.Abar Stiff_Model.Zbar].
  rewrite !Rle_bool_true, !Rlt_bool_true by lra. split; [reflexivity|]. pose proof tiny_lt_1. split; lra.
Qed.
Example C82_noble_nonvacuous : exists g, NobleAbel_Model.make (4/10) 7000000 1 0 0 298 1000000 14 7 = Some g /\ tiny <= (4/10) * 7000000 * 298 / 1000000 /\ tiny <= 1 - 1 * (1/10).
Proof.
  eexists. unfold NobleAbel_Model.make, NobleAbel_Model.CheckParams, NobleAbel_Model.ctor. cbv zeta. cbn [NobleAbel_Model.Cv NobleAbel_Model.gm1 NobleAbel_Model.bb NobleAbel_Model.Abar NobleAbel_Model.Zbar].
  rewrite !Rle_bool_true, !Rlt_bool_true by lra. split; [reflexivity|]. pose proof tiny_half. split; lra.
Qed.
Example C82_carnahan_nonvacuous : exists g, Carnahan_Model.make (4/10) 7000000 0 0 0 298 1000000 14 7 = Some g /\ tiny <= (1 - 0 * 1) ^ 3 /\ 0 * 1 < 1.
Proof.
  unfold Carnahan_Model.make, Carnahan_Model.ctor, Carnahan_Model.DensityFromPT. assert (HD : 0 < Carnahan_Model.DBL_MIN < 1).
  { unfold Carnahan_Model.DBL_MIN. split; [apply bpow_gt_0|]. change 1 with (bpow radix2 0). apply bpow_lt. lia. }
  rewrite (Rle_bool_false 298) by lra. rewrite Rle_bool_true by lra. eexists. unfold Carnahan_Model.CheckParams. cbn [Carnahan_Model.Cv Carnahan_Model.gm1 Carnahan_Model.bb Carnahan_Model.Abar Carnahan_Model.Zbar].
  rewrite !Rle_bool_true, !Rlt_bool_true by lra. split; [reflexivity|]. pose proof tiny_lt_1. split; [|lra]. replace ((1 - 0 * 1) ^ 3) with 1 by ring. lra.
Qed.
Example C82_jwl_nonvacuous : exists g, JWL_Model.make 6321 (-4472 / 100) (11 / 2) 2 (1/3) (187 / 100) 10 1 1 = Some g /\ (11/2) * ((187/100) / 2) <= 511.
Proof.
  eexists. unfold JWL_Model.make, JWL_Model.CheckParams, JWL_Model.ctor. cbn [JWL_Model.w JWL_Model.rho0 JWL_Model.Cv JWL_Model.Abar JWL_Model.Zbar]. rewrite !Rlt_bool_true by lra. split; [reflexivity|lra].
Qed.
Print Assumptions C82_ideal_gas.
Print Assumptions C82_ideal_gas_defaults.
Print Assumptions C83_ideal_default_temperature_refuted.
Print Assumptions C82_ideal_electrons.
Print Assumptions C82_stiff_gas.
Print Assumptions C82_noble_abel.
Print Assumptions C82_carnahan_starling.
Print Assumptions C82_jwl.
Print Assumptions C82_gruneisen.
Print Assumptions C82_davis_products.
Print Assumptions C83_davis_products_T_S_refuted.
Print Assumptions C83_reference_state_is_entropy_reference_refuted.
