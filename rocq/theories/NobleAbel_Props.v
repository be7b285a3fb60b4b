(** C18: Noble-Abel gas *)
From Coq Require Import Reals Bool Lra Lia List.
From Flocq Require Import Core.
From Coquelicot Require Import Coquelicot.
From Verif Require Import Robust_Model Robust_Proofs Thermo_Spec Thermo_Tools Fill_Model Fill_Proofs NobleAbel_Model.
Local Open Scope R_scope.

Definition admissible (g : noble) : Prop := 0 < Cv g /\ 0 < gm1 g /\ 0 <= bb g.
(** densities below the covolume limit 1/b, not denormal-like *)
Definition ok_rho (g : noble) rho : Prop := tiny < rho /\ tiny < 1 - bb g * rho /\ tiny < (1 - bb g * rho) * (1 - bb g * rho).
Lemma SMALL_pos : 0 < SMALL.
Proof. unfold SMALL; pose proof (bpow_gt_0 radix2 (-1022)); lra. Qed.

Section Noble.
Variable g : noble.
Hypothesis HCv : 0 < Cv g.
Hypothesis Hg : 0 < gm1 g.
Hypothesis Hb : 0 <= bb g.
Notation T_e := (TemperatureFromDensityInternalEnergy g).
Notation E_T := (InternalEnergyFromDensityTemperature g).
Notation P_T := (PressureFromDensityTemperature g).
Notation P_e := (PressureFromDensityInternalEnergy g).
Notation S_T := (EntropyFromDensityTemperature g).
Notation S_e := (EntropyFromDensityInternalEnergy g).
Notation B_e := (BulkModulusFromDensityInternalEnergy g).
Notation B_T := (BulkModulusFromDensityTemperature g).

Lemma E_T_eq rho T : 0 <= T -> E_T rho T = Cv g * T + qq g.
Proof. intros HT. unfold InternalEnergyFromDensityTemperature. apply Rmax_right. assert (0 <= Cv g * T) by (apply Rmult_le_pos; lra). lra. Qed.
Lemma roundtrip_T rho T : SMALL <= T -> T_e rho (E_T rho T) = T.
Proof.
  intros HT. pose proof SMALL_pos. rewrite E_T_eq by lra. unfold TemperatureFromDensityInternalEnergy.
  replace ((Cv g * T + qq g - qq g) / Cv g) with T by (field; lra). apply Rmax_right. exact HT.
Qed.
Lemma roundtrip_e rho e : SMALL <= (e - qq g) / Cv g -> E_T rho (T_e rho e) = e.
Proof.
  intros He. pose proof SMALL_pos. unfold TemperatureFromDensityInternalEnergy. rewrite Rmax_right by exact He.
  rewrite E_T_eq by lra. field. lra.
Qed.
Lemma P_agree rho T : 0 <= T -> P_T rho T = P_e rho (E_T rho T).
Proof.
  intros HT. rewrite E_T_eq by exact HT. unfold PressureFromDensityTemperature, PressureFromDensityInternalEnergy.
  f_equal. f_equal. ring.
Qed.
Lemma B_agree rho T : 0 <= T -> B_T rho T = B_e rho (E_T rho T).
Proof.
  intros HT. rewrite E_T_eq by exact HT. unfold BulkModulusFromDensityTemperature, BulkModulusFromDensityInternalEnergy.
  f_equal. f_equal. ring.
Qed.
Lemma S_agree rho T : 0 <= T -> tiny <= T0 g -> tiny <= Cv g * T0 g -> sie0 g = Cv g * T0 g + qq g -> S_T rho T = S_e rho (E_T rho T).
Proof.
  intros HT H0 H1 Hs. pose proof tiny_pos. rewrite E_T_eq by exact HT. unfold EntropyFromDensityTemperature, EntropyFromDensityInternalEnergy. rewrite Hs.
  replace (Cv g * T0 g + qq g - qq g) with (Cv g * T0 g) by ring. rewrite (ratio_pos T), (ratio_pos _ (Cv g * T0 g)) by lra.
  replace ((Cv g * T + qq g - qq g) / (Cv g * T0 g)) with (T / T0 g) by (field; lra). reflexivity.
Qed.
Lemma P_T_eq rho T : tiny <= 1 - bb g * rho -> SMALL <= gm1 g * rho * Cv g * T / (1 - bb g * rho) -> P_T rho T = gm1 g * rho * Cv g * T / (1 - bb g * rho).
Proof. intros H1 H2. unfold PressureFromDensityTemperature. rewrite ratio_pos by exact H1. apply Rmax_right. exact H2. Qed.
Lemma P_e_eq rho e : tiny <= 1 - bb g * rho -> SMALL <= gm1 g * rho * (e - qq g) / (1 - bb g * rho) -> P_e rho e = gm1 g * rho * (e - qq g) / (1 - bb g * rho).
Proof. intros H1 H2. unfold PressureFromDensityInternalEnergy. rewrite ratio_pos by exact H1. apply Rmax_right. exact H2. Qed.
Lemma PT_inverse P T : 0 < T -> SMALL <= P -> tiny <= gm1 g * Cv g * T + bb g * P -> tiny <= P / (gm1 g * Cv g * T + bb g * P) ->
  tiny <= gm1 g * Cv g * T / (gm1 g * Cv g * T + bb g * P) ->
  let (rho, e) := DensityEnergyFromPressureTemperature g P T in
  0 < rho /\ bb g * rho < 1 /\ P_T rho T = P /\ P_e rho e = P /\ e = E_T rho T /\
  (forall rho', tiny <= 1 - bb g * rho' -> SMALL < P -> P_T rho' T = P -> rho' = rho).
Proof.
  intros HT HP H1 H2 H3. unfold DensityEnergyFromPressureTemperature. pose proof tiny_pos. pose proof SMALL_lt_tiny. pose proof SMALL_pos.
  rewrite ratio_pos by exact H1. set (D := gm1 g * Cv g * T + bb g * P) in *. rewrite Rmax_right by lra.
  set (rho := P / D) in *. assert (EX : 1 - bb g * rho = gm1 g * Cv g * T / D) by (unfold rho; assert (D <> 0) by lra; unfold D in *; field; lra).
  assert (HcT : 0 < gm1 g * Cv g * T) by (repeat apply Rmult_lt_0_compat; lra).
  assert (EP : gm1 g * rho * Cv g * T / (1 - bb g * rho) = P). { rewrite EX. unfold rho. field. repeat split; try lra. }
  assert (PP : P_T rho T = P). { rewrite P_T_eq; rewrite ?EP; lra. }
  change (Rmax (qq g) (Cv g * T + qq g)) with (E_T rho T).
  refine (conj _ (conj _ (conj PP (conj _ (conj eq_refl _))))).
  - lra.
  - lra.
  - rewrite <- P_agree by lra. exact PP.
  - intros r' Hr' HPs HP'. unfold PressureFromDensityTemperature in HP'. rewrite ratio_pos in HP' by exact Hr'.
    assert (EP' : gm1 g * r' * Cv g * T / (1 - bb g * r') = P).
    { destruct (Rle_dec (gm1 g * r' * Cv g * T / (1 - bb g * r')) SMALL) as [C|C].
      - rewrite Rmax_left in HP' by exact C. lra.
      - rewrite Rmax_right in HP' by lra. exact HP'. }
    assert (E2 : gm1 g * r' * Cv g * T = P * (1 - bb g * r')). { rewrite <- EP'. field. lra. }
    assert (E3 : r' * D = P). { unfold D. lra. } unfold rho. rewrite <- E3. field. lra.
Qed.
(** derivatives *)
Lemma dP_de rho e : tiny <= 1 - bb g * rho -> SMALL < gm1 g * rho * (e - qq g) / (1 - bb g * rho) ->
  is_derive (fun s => P_e rho s) e (gm1 g * rho / (1 - bb g * rho)).
Proof.
  intros Hr He. pose proof tiny_pos. unfold PressureFromDensityInternalEnergy.
  apply (derive_loc _ (fun s => Rmax SMALL (gm1 g * rho * (s - qq g) / (1 - bb g * rho)))).
  - apply filter_forall. intros s. rewrite ratio_pos by exact Hr. reflexivity.
  - apply is_derive_max_left; [auto_derive; [exact I|field; lra]|exact He].
Qed.
Lemma dP_dr rho e : ok_rho g rho -> SMALL < gm1 g * rho * (e - qq g) / (1 - bb g * rho) ->
  is_derive (fun r => P_e r e) rho (gm1 g * (e - qq g) / ((1 - bb g * rho) * (1 - bb g * rho))).
Proof.
  intros (H0 & Hr & _) He. pose proof tiny_pos. unfold PressureFromDensityInternalEnergy.
  apply (derive_loc _ (fun r => Rmax SMALL (gm1 g * r * (e - qq g) / (1 - bb g * r)))).
  - apply (loc_imp _ (fun y => tiny < 1 - bb g * y)).
    + intros y Hy. rewrite ratio_pos by lra. reflexivity.
    + apply (loc_gt_f (fun y => 1 - bb g * y)); [|exact Hr]. apply (derive_cont _ _ (- bb g)). auto_derive; [exact I|ring].
  - apply is_derive_max_left; [auto_derive; [lra|field; lra]|exact He].
Qed.
Lemma gruneisen_ok rho e : tiny <= 1 - bb g * rho -> SMALL < gm1 g * rho * (e - qq g) / (1 - bb g * rho) -> is_gruneisen P_e rho e (GruneisenParam g rho e).
Proof.
  intros Hr He. unfold is_gruneisen, GruneisenParam. rewrite ratio_pos by exact Hr.
  apply (is_derive_eq _ _ (gm1 g * rho / (1 - bb g * rho))); [apply dP_de; assumption|]. pose proof tiny_pos. field. lra.
Qed.
Lemma bmod_ok rho e : ok_rho g rho -> SMALL < gm1 g * rho * (e - qq g) / (1 - bb g * rho) -> is_bulk_modulus P_e rho e (B_e rho e).
Proof.
  intros Hok He. assert (Hok' := Hok). destruct Hok as (H0 & H1 & H2). assert (H1' : tiny <= 1 - bb g * rho) by lra. pose proof tiny_pos.
  eexists _, _. refine (conj (dP_dr _ _ Hok' He) (conj (dP_de _ _ H1' He) _)).
  rewrite P_e_eq by lra. unfold BulkModulusFromDensityInternalEnergy. rewrite ratio_pos by lra.
  assert (HX : 0 < 1 - bb g * rho <= 1). { split; [lra|]. assert (0 <= bb g * rho) by (apply Rmult_le_pos; lra). lra. }
  assert (EB : gm1 g * (gm1 g + 1) * rho * (e - qq g) / ((1 - bb g * rho) * (1 - bb g * rho)) =
               (gm1 g * rho * (e - qq g) / (1 - bb g * rho)) * ((gm1 g + 1) * / (1 - bb g * rho))) by (field; lra).
  assert (H3 : 1 <= / (1 - bb g * rho)). { rewrite <- Rinv_1 at 1. apply Rinv_le_contravar; lra. }
  rewrite Rmax_right; [field; lra|]. rewrite EB. pose proof SMALL_pos.
  apply Rle_trans with ((gm1 g * rho * (e - qq g) / (1 - bb g * rho)) * 1); [lra|]. apply Rmult_le_compat_l; [lra|].
  replace 1 with (1 * 1) at 1 by ring. apply Rmult_le_compat; lra.
Qed.
Lemma cv_ok rho T : 0 < T -> is_specific_heat E_T rho T (SpecificHeat g rho T).
Proof.
  intros HT. unfold is_specific_heat, SpecificHeat, InternalEnergyFromDensityTemperature. apply is_derive_max_left; [auto_derive; [exact I|ring]|].
  assert (0 < Cv g * T) by (apply Rmult_lt_0_compat; lra). lra.
Qed.
Lemma first_law_ok rho T : ok_rho g rho -> 0 < T -> tiny <= T0 g -> tiny <= vol0 g - bb g ->
  tiny < T / T0 g -> tiny < (1 / rho - bb g) / (vol0 g - bb g) -> SMALL <= gm1 g * rho * Cv g * T / (1 - bb g * rho) ->
  first_law S_T E_T P_T rho T.
Proof.
  intros Hok HT HT0 Hv H1 H2 HPp. destruct Hok as (Hr & Hx & _). assert (Htp := tiny_pos).
  exists (Cv g), 0. refine (conj (cv_ok rho T HT) (conj _ (conj _ _))).
  - unfold InternalEnergyFromDensityTemperature. auto_derive; [exact I|reflexivity].
  - unfold EntropyFromDensityTemperature. cbv zeta. set (K := gm1 g * Cv g * ln (plus_small (ratio (ratio 1 rho - bb g) (vol0 g - bb g)))).
    apply (derive_loc _ (fun t => Cv g * ln (t / T0 g) + K + qp g)).
    + apply (loc_imp _ (fun y => tiny < y / T0 g)); [|apply (loc_gt_f (fun y => y / T0 g)); [|exact H1]].
      * intros y Hy. rewrite (ratio_pos y) by lra. rewrite (plus_small_eq (y / T0 g)) by lra. reflexivity.
      * apply (derive_cont _ _ (/ T0 g)). auto_derive; [exact I|ring].
    + auto_derive; [apply Rdiv_lt_0_compat; lra|]. field. lra.
  - unfold EntropyFromDensityTemperature. cbv zeta. set (K := Cv g * ln (plus_small (ratio T (T0 g)))).
    apply (derive_loc _ (fun r => K + gm1 g * Cv g * ln ((1 / r - bb g) / (vol0 g - bb g)) + qp g)).
    + apply (loc_imp _ (fun y => tiny < y /\ tiny < (1 / y - bb g) / (vol0 g - bb g))); [|apply loc_and; [apply loc_gt; exact Hr|
        apply (loc_gt_f (fun y => (1 / y - bb g) / (vol0 g - bb g))); [|exact H2]]].
      * intros y [Hy1 Hy2]. rewrite (ratio_pos 1 y) by lra. rewrite (ratio_pos (1 / y - bb g)) by lra. rewrite (plus_small_eq ((1 / y - bb g) / _)) by lra. reflexivity.
      * eapply derive_cont. auto_derive; [lra|reflexivity].
    + rewrite P_T_eq by lra. assert (0 < / rho - bb g). { replace (/ rho - bb g) with ((1 - bb g * rho) / rho) by (field; lra). apply Rdiv_lt_0_compat; lra. }
      auto_derive.
      * split; [lra|]. split; [|exact I]. unfold Rdiv. rewrite Rmult_1_l. apply Rmult_lt_0_compat; [lra|]. apply Rinv_0_lt_compat. lra.
      * field. repeat split; lra.
Qed.
End Noble.

Theorem C18_temperature_energy_round_trip : forall g rho, admissible g ->
  (forall T, SMALL <= T -> TemperatureFromDensityInternalEnergy g rho (InternalEnergyFromDensityTemperature g rho T) = T) /\
  (forall e, SMALL <= (e - qq g) / Cv g -> InternalEnergyFromDensityTemperature g rho (TemperatureFromDensityInternalEnergy g rho e) = e).
Proof. intros g rho (A & B & C). split; intros; [apply roundtrip_T|apply roundtrip_e]; assumption. Qed.
Theorem C18_entry_points_agree : forall g rho T, admissible g -> 0 <= T ->
  PressureFromDensityTemperature g rho T = PressureFromDensityInternalEnergy g rho (InternalEnergyFromDensityTemperature g rho T) /\
  BulkModulusFromDensityTemperature g rho T = BulkModulusFromDensityInternalEnergy g rho (InternalEnergyFromDensityTemperature g rho T).
Proof. intros g rho T (A & B & C) HT. split; [apply P_agree|apply B_agree]; assumption. Qed.
Theorem C18_entropy_entry_points_agree : forall gm Cv0 b q qp T00 P00 A Z g rho T,
  make gm Cv0 b q qp T00 P00 A Z = Some g -> admissible g -> tiny <= T00 -> tiny <= Cv0 * T00 -> 0 <= T ->
  EntropyFromDensityTemperature g rho T = EntropyFromDensityInternalEnergy g rho (InternalEnergyFromDensityTemperature g rho T).
Proof.
  intros gm Cv0 b q qp T00 P00 A Z g rho T H (HA & HB & HC) H1 H2 HT. unfold make in H. destruct (CheckParams _); [|discriminate].
  injection H as <-. apply S_agree; try assumption; reflexivity.
Qed.
(** (P,T) -> (rho,e): below the covolume limit, inverts the forward calls, unique *)
Theorem C18_PT_inversion : forall g P T rho e, admissible g -> 0 < T -> SMALL <= P ->
  tiny <= gm1 g * Cv g * T + bb g * P -> tiny <= P / (gm1 g * Cv g * T + bb g * P) -> tiny <= gm1 g * Cv g * T / (gm1 g * Cv g * T + bb g * P) ->
  DensityEnergyFromPressureTemperature g P T = (rho, e) ->
  0 < rho /\ bb g * rho < 1 /\ PressureFromDensityTemperature g rho T = P /\ PressureFromDensityInternalEnergy g rho e = P /\
  e = InternalEnergyFromDensityTemperature g rho T /\
  forall rho', tiny <= 1 - bb g * rho' -> SMALL < P -> PressureFromDensityTemperature g rho' T = P -> rho' = rho.
Proof. intros g P T rho e (A & B & C) H0 H1 H2 H3 H4 E. pose proof (PT_inverse g A B P T H0 H1 H2 H3 H4) as H. rewrite E in H. exact H. Qed.
Theorem C18_derivatives : forall g rho e T, admissible g -> ok_rho g rho -> SMALL < gm1 g * rho * (e - qq g) / (1 - bb g * rho) -> 0 < T ->
  is_gruneisen (PressureFromDensityInternalEnergy g) rho e (GruneisenParam g rho e) /\
  is_bulk_modulus (PressureFromDensityInternalEnergy g) rho e (BulkModulusFromDensityInternalEnergy g rho e) /\
  is_specific_heat (InternalEnergyFromDensityTemperature g) rho T (SpecificHeat g rho T).
Proof.
  intros g rho e T (A & B & C) Hok He HT. assert (H1 : tiny <= 1 - bb g * rho) by (destruct Hok as (_ & H & _); lra).
  exact (conj (gruneisen_ok g rho e H1 He) (conj (bmod_ok g B C rho e Hok He) (cv_ok g A rho T HT))).
Qed.
Theorem C18_first_law : forall g rho T, admissible g -> ok_rho g rho -> 0 < T -> tiny <= T0 g -> tiny <= vol0 g - bb g ->
  tiny < T / T0 g -> tiny < (1 / rho - bb g) / (vol0 g - bb g) -> SMALL <= gm1 g * rho * Cv g * T / (1 - bb g * rho) ->
  first_law (EntropyFromDensityTemperature g) (InternalEnergyFromDensityTemperature g) (PressureFromDensityTemperature g) rho T.
Proof. intros g rho T (A & B & C). exact (first_law_ok g A rho T). Qed.
Theorem C18_floors : forall g rho x, 0 < PressureFromDensityTemperature g rho x /\ 0 < PressureFromDensityInternalEnergy g rho x /\
  0 < TemperatureFromDensityInternalEnergy g rho x /\ MinInternalEnergyFromDensity g rho <= InternalEnergyFromDensityTemperature g rho x /\
  0 < BulkModulusFromDensityTemperature g rho x /\ 0 < BulkModulusFromDensityInternalEnergy g rho x.
Proof.
  intros. assert (forall y, 0 < Rmax SMALL y) by (intros y; pose proof (Rmax_l SMALL y); pose proof SMALL_pos; lra).
  repeat split; try apply Rmax_l; apply H.
Qed.
Theorem C18_reference_state : forall gm Cv0 b q qp T00 P00 A Z g dvdt_in, make gm Cv0 b q qp T00 P00 A Z = Some g ->
  0 < gm -> 0 < Cv0 -> 0 <= b -> tiny <= T00 -> tiny <= P00 -> SMALL < P00 -> tiny <= gm * Cv0 * T00 + b * P00 ->
  tiny <= P00 / (gm * Cv0 * T00 + b * P00) -> ok_rho g (rho0 g) ->
  exists rho T sie P cv bmod dpde,
    ValuesAtReferenceState g dvdt_in = (rho :: T :: sie :: P :: cv :: bmod :: dpde :: dvdt_in :: nil)%list /\
    PressureFromDensityTemperature g rho T = P /\ InternalEnergyFromDensityTemperature g rho T = sie /\
    SpecificHeat g rho T = cv /\ BulkModulusFromDensityTemperature g rho T = bmod /\
    is_derive (fun e => PressureFromDensityInternalEnergy g rho e) sie dpde.
Proof.
  intros gm Cv0 b q qp T00 P00 A Z g dv H Hgm HCv Hb HT HP0 HP H1 H2 Hok. unfold make in H. destruct (CheckParams _); [|discriminate].
  injection H as <-. set (g := ctor gm Cv0 b q qp T00 P00 A Z) in *. pose proof tiny_pos.
  assert (Ec : Cv g = Cv0) by reflexivity. assert (Eg : gm1 g = gm) by reflexivity. assert (Eb : bb g = b) by reflexivity.
  assert (Er : rho0 g = P00 / (gm * Cv0 * T00 + b * P00)). { change (rho0 g) with (ratio P00 (gm * Cv0 * T00 + b * P00)). apply ratio_pos; lra. }
  assert (EE : InternalEnergyFromDensityTemperature g (rho0 g) T00 = sie0 g).
  { rewrite E_T_eq by (rewrite ?Ec; lra). reflexivity. }
  assert (Hok' := Hok). destruct Hok as (K1 & K2 & K3).
  assert (EX : 1 - bb g * rho0 g = gm * Cv0 * T00 / (gm * Cv0 * T00 + b * P00)). { rewrite Eb, Er. field. lra. }
  assert (HcT : 0 < gm * Cv0 * T00) by (repeat apply Rmult_lt_0_compat; lra).
  assert (EPP : gm1 g * rho0 g * Cv g * T00 / (1 - bb g * rho0 g) = P00). { rewrite EX, Er, Ec, Eg. field. repeat split; try lra. }
  assert (PP : PressureFromDensityTemperature g (rho0 g) T00 = P00). { rewrite P_T_eq; rewrite ?EPP; lra. }
  exists (rho0 g), T00, (sie0 g), P00, (Cv g), (bmod0 g), (dpde0 g). split; [reflexivity|].
  assert (Es : gm1 g * rho0 g * (sie0 g - qq g) / (1 - bb g * rho0 g) = P00).
  { rewrite <- EPP. change (sie0 g - qq g) with (Cv0 * T00 + q - q). rewrite Ec. field. lra. }
  refine (conj PP (conj EE (conj eq_refl (conj _ _)))).
  - unfold BulkModulusFromDensityTemperature. change (bmod0 g) with (ratio (rho0 g * Cv0 * T00 * gm * (gm + 1)) ((1 - bb g * rho0 g) * (1 - bb g * rho0 g))).
    rewrite Ec, Eg. replace (gm * (gm + 1) * rho0 g * Cv0 * T00) with (rho0 g * Cv0 * T00 * gm * (gm + 1)) by ring.
    apply Rmax_right. rewrite ratio_pos by lra.
    assert (EB : rho0 g * Cv0 * T00 * gm * (gm + 1) / ((1 - bb g * rho0 g) * (1 - bb g * rho0 g)) = P00 * ((gm + 1) * / (1 - bb g * rho0 g))).
    { rewrite <- EPP at 1. rewrite Ec, Eg. field. lra. }
    rewrite EB. assert (HX : 0 < 1 - bb g * rho0 g <= 1). { split; [lra|]. assert (0 <= bb g * rho0 g) by (rewrite Eb; apply Rmult_le_pos; lra). lra. }
    assert (H3 : 1 <= / (1 - bb g * rho0 g)). { rewrite <- Rinv_1 at 1. apply Rinv_le_contravar; lra. }
    apply Rle_trans with (P00 * 1); [lra|]. apply Rmult_le_compat_l; [lra|]. replace 1 with (1 * 1) at 1 by ring. apply Rmult_le_compat; lra.
  - apply (is_derive_eq _ _ (gm1 g * rho0 g / (1 - bb g * rho0 g))).
    + apply dP_de; rewrite ?Es; lra.
    + change (dpde0 g) with (ratio (rho0 g * gm) (1 - bb g * rho0 g)). rewrite ratio_pos by lra. rewrite Eg. field. lra.
Qed.
Theorem C58_noble_reference_dvdt_refuted : exists g, make (4/10) 1 0 0 0 293 1000000 29 14 = Some g /\
  forall x, last (ValuesAtReferenceState g x) 0 = x.
Proof.
  exists (ctor (4/10) 1 0 0 0 293 1000000 29 14). split; [|reflexivity].
  unfold make, CheckParams. cbn. rewrite !Rle_bool_true, !Rlt_bool_true by lra. reflexivity.
Qed.
(** FillEos from (rho,e), (rho,T), (P,T) agrees with the scalar queries; the (rho,P) mode does not, see below *)
Theorem C18_FillEos : forall g m o s s', admissible g -> mode_of o m ->
  match m with InRhoSie => True | InRhoTemp => SMALL <= s_temp s
   | InPressTemp => SMALL <= s_temp s /\ SMALL <= s_press s /\ tiny <= gm1 g * Cv g * s_temp s + bb g * s_press s /\
      tiny <= s_press s / (gm1 g * Cv g * s_temp s + bb g * s_press s) /\ tiny <= gm1 g * Cv g * s_temp s / (gm1 g * Cv g * s_temp s + bb g * s_press s)
   | InRhoPress => False end ->
  FillEos g o s = Some s' ->
  fill_ok (TemperatureFromDensityInternalEnergy g) (PressureFromDensityInternalEnergy g) (SpecificHeat g)
          (BulkModulusFromDensityInternalEnergy g) m o s s'.
Proof.
  intros g m o s s' (A & B & C) Hm Hs H. refine (fill_std_ok _ _ _ _ _ _ _ m o s s' Hm _ H). destruct m; [exact I| | |contradiction].
  - apply roundtrip_T; assumption.
  - destruct Hs as (H1 & H2 & H3 & H4 & H5). pose proof SMALL_pos. assert (HT : 0 < s_temp s) by lra.
    pose proof (PT_inverse g A B (s_press s) (s_temp s) HT H2 H3 H4 H5) as HI.
    destruct (DensityEnergyFromPressureTemperature g (s_press s) (s_temp s)) as [r e]. destruct HI as (_ & _ & _ & I1 & I2 & _).
    split; [exact I1|]. rewrite I2. apply roundtrip_T; assumption.
Qed.
(** Refuted: asked for temperature and energy from density and pressure, FillEos returns an energy whose pressure is rho times
    the input pressure (the formula lacks a division by rho, eos_noble_abel.hpp:233) *)
Theorem C58_noble_FillEos_rho_press_refuted : exists g o s s', admissible g /\ mode_of o InRhoPress /\ ok_rho g (s_rho s) /\ SMALL < s_press s /\
  FillEos g o s = Some s' /\ PressureFromDensityInternalEnergy g (s_rho s') (s_sie s') = s_rho s * s_press s /\ s_rho s <> 1.
Proof.
  pose proof tiny_lt_1. pose proof SMALL_lt_tiny. assert (HT : tiny < 1 / 1000000). { unfold tiny. apply Rlt_le_trans with (bpow radix2 (-20)); [apply bpow_lt; lia|]. cbn. lra. }
  exists (ctor 1 1 (1/4) 0 0 1 1 1 1), (mkF false true true false false false), (mkS 2 0 0 1 0 0). eexists.
  unfold admissible, ok_rho. cbn [ctor Cv gm1 bb s_rho s_press]. refine (conj _ (conj _ (conj _ (conj _ (conj eq_refl _))))); try lra.
  - repeat split.
  - cbn [s_rho s_sie FillEos fill_std cond_upd upd_sie upd_temp f_rho f_sie f_press f_temp f_bmod f_cv andb orb].
    split; [|lra]. unfold PressureFromDensityInternalEnergy, fill_sie_from_rho_press. cbn [ctor Cv gm1 bb qq s_rho s_press].
    rewrite ratio_pos by lra. rewrite Rmax_right; lra.
Qed.
(** a request that leaves fewer than two of density, temperature, energy, pressure as inputs, energy being requested, is refused
    (UNDEFINED_ERROR) and nothing is returned *)
Theorem C18_FillEos_refuses : forall g o s, (inputs o < 2)%nat -> f_sie o = true -> FillEos g o s = None.
Proof. intros g o s. exact (Fill_Proofs.fill_std_refuses _ _ _ _ _ _ _ o s). Qed.
(** Refuted: "every request is either filled or refused": whenever the density is requested and the energy is an input the call is
    accepted - even with the energy as the only input - and the density is left as it was *)
Theorem C58_noble_FillEos_density_from_energy_refuted : forall g o s, f_rho o = true -> f_sie o = false ->
  exists s', FillEos g o s = Some s' /\ s_rho s' = s_rho s.
Proof. intros g o s. exact (Fill_Proofs.fill_std_silent _ _ _ _ _ _ _ o s). Qed.
Example C18_FillEos_refuses_instance : (inputs (mkF true false true true true true) < 2)%nat.
Proof. cbn. lia. Qed.
Theorem C18_FillEos_total : forall g m o s, mode_of o m -> exists s', FillEos g o s = Some s'.
Proof. intros g m o s Hm. exact (fill_std_total _ _ _ _ _ _ _ m o s Hm). Qed.
(** a powder-gas-like instance meets the hypotheses *)
Example C18_instance : exists g, make (2/5) 10000000 (1/2) 1000 0 300 1000000 29 14 = Some g /\ admissible g /\ ok_rho g 1 /\
  tiny <= T0 g /\ tiny <= vol0 g - bb g /\ tiny < 400 / T0 g /\ tiny < (1 / 1 - bb g) / (vol0 g - bb g) /\
  SMALL < gm1 g * 1 * (5000 - qq g) / (1 - bb g * 1) /\ SMALL <= gm1 g * 1 * Cv g * 400 / (1 - bb g * 1) /\
  PressureFromDensityTemperature g 1 400 = 3200000000.
Proof.
  exists (ctor (2/5) 10000000 (1/2) 1000 0 300 1000000 29 14).
  assert (HT : tiny < 1 / 1000000). { unfold tiny. apply Rlt_le_trans with (bpow radix2 (-20)); [apply bpow_lt; lia|]. cbn. lra. }
  pose proof SMALL_lt_tiny.
  assert (HV : vol0 (ctor (2/5) 10000000 (1/2) 1000 0 300 1000000 29 14) = (2/5 * 10000000 * 300 + 1/2 * 1000000) / 1000000).
  { cbn. apply ratio_pos. lra. }
  unfold make, CheckParams, admissible, ok_rho. rewrite HV. cbn. rewrite !Rle_bool_true, !Rlt_bool_true by lra. repeat split; try lra.
  unfold PressureFromDensityTemperature. cbn. rewrite ratio_pos by lra. rewrite Rmax_right; lra.
Qed.
Theorem C44_noble_CheckParams : forall g, CheckParams g = true <-> 0 < Cv g /\ 0 <= gm1 g /\ 0 <= bb g /\ 0 < Abar g /\ 0 < Zbar g.
Proof.
  intros g. unfold CheckParams. rewrite !andb_true_iff.
  destruct (Rlt_bool_spec 0 (Cv g)), (Rle_bool_spec 0 (gm1 g)), (Rle_bool_spec 0 (bb g)), (Rlt_bool_spec 0 (Abar g)), (Rlt_bool_spec 0 (Zbar g));
    split; intros HH; try (exfalso; intuition (discriminate || lra); fail); intuition lra.
Qed.
Print Assumptions C18_temperature_energy_round_trip.
Print Assumptions C18_entry_points_agree.
Print Assumptions C18_entropy_entry_points_agree.
Print Assumptions C18_PT_inversion.
Print Assumptions C18_derivatives.
Print Assumptions C18_first_law.
Print Assumptions C18_floors.
Print Assumptions C18_reference_state.
Print Assumptions C58_noble_reference_dvdt_refuted.
Print Assumptions C18_FillEos.
Print Assumptions C58_noble_FillEos_rho_press_refuted.
Print Assumptions C18_FillEos_refuses.
Print Assumptions C58_noble_FillEos_density_from_energy_refuted.
Print Assumptions C18_FillEos_total.
Print Assumptions C44_noble_CheckParams.
