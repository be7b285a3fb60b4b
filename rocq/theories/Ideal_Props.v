(** C16: ideal gas *)
From Coq Require Import Reals Bool Lra Lia List.
From Flocq Require Import Core.
From Coquelicot Require Import Coquelicot.
From Verif Require Import Robust_Model Robust_Proofs Thermo_Spec Thermo_Tools Ideal_Model.
Local Open Scope R_scope.

Section Ideal.
Variable g : ideal.
Hypothesis HCv : 0 < Cv g.
Hypothesis Hg : 0 < gm1 g.
Notation T_e := (TemperatureFromDensityInternalEnergy g).
Notation E_T := (InternalEnergyFromDensityTemperature g).
Notation P_T := (PressureFromDensityTemperature g).
Notation P_e := (PressureFromDensityInternalEnergy g).
Notation S_T := (EntropyFromDensityTemperature g).

Lemma E_T_pos rho T : 0 <= T -> E_T rho T = Cv g * T.
Proof. intros H. unfold InternalEnergyFromDensityTemperature. apply Rmax_right. apply Rmult_le_pos; lra. Qed.
Lemma T_e_pos rho e : 0 <= e -> T_e rho e = e / Cv g.
Proof. intros H. unfold TemperatureFromDensityInternalEnergy. apply Rmax_right. apply Rle_mult_inv_pos; lra. Qed.
Lemma P_e_pos rho e : 0 <= rho -> 0 <= e -> P_e rho e = gm1 g * rho * e.
Proof. intros H H'. unfold PressureFromDensityInternalEnergy. apply Rmax_right. apply Rmult_le_pos; [apply Rmult_le_pos; lra|lra]. Qed.
Lemma P_T_pos rho T : 0 <= rho -> 0 <= T -> P_T rho T = gm1 g * rho * Cv g * T.
Proof. intros H H'. unfold PressureFromDensityTemperature. apply Rmax_right. apply Rmult_le_pos; [apply Rmult_le_pos; [apply Rmult_le_pos|]; lra|lra]. Qed.

Lemma roundtrip_T rho T : 0 <= T -> T_e rho (E_T rho T) = T.
Proof. intros H. rewrite E_T_pos by exact H. rewrite T_e_pos by (apply Rmult_le_pos; lra). field. lra. Qed.
Lemma roundtrip_e rho e : 0 <= e -> E_T rho (T_e rho e) = e.
Proof. intros H. rewrite T_e_pos by exact H. rewrite E_T_pos by (apply Rle_mult_inv_pos; lra). field. lra. Qed.
Lemma P_agree rho T : 0 <= rho -> P_T rho T = P_e rho (E_T rho T).
Proof.
  intros H. destruct (Rle_dec 0 T) as [HT|HT].
  - rewrite E_T_pos, P_T_pos by lra. rewrite P_e_pos by (try apply Rmult_le_pos; lra). ring.
  - assert (A : gm1 g * rho * Cv g * T <= 0).
    { assert (0 <= gm1 g * rho * Cv g * - T). { apply Rmult_le_pos; [apply Rmult_le_pos; [apply Rmult_le_pos|]; lra|lra]. } lra. }
    assert (B : Cv g * T <= 0). { assert (0 <= Cv g * - T) by (apply Rmult_le_pos; lra). lra. }
    unfold PressureFromDensityTemperature, InternalEnergyFromDensityTemperature, PressureFromDensityInternalEnergy.
    rewrite (Rmax_left 0 (Cv g * T)) by lra. rewrite Rmult_0_r. rewrite !Rmax_left by lra. reflexivity.
Qed.
Lemma P_agree_e rho e : 0 <= rho -> 0 <= e -> P_e rho e = P_T rho (T_e rho e).
Proof. intros H He. rewrite P_agree by exact H. rewrite roundtrip_e by exact He. reflexivity. Qed.

Lemma PT_inverse P T : 0 <= P -> 0 < T ->
  let (rho, e) := DensityEnergyFromPressureTemperature g P T in
  0 <= rho /\ P_T rho T = P /\ P_e rho e = P /\ e = E_T rho T /\
  forall rho', 0 <= rho' -> P_T rho' T = P -> rho' = rho.
Proof.
  intros HP HT. unfold DensityEnergyFromPressureTemperature.
  assert (HX : 0 < Cv g * T) by (apply Rmult_lt_0_compat; lra).
  rewrite (Rmax_right 0 (Cv g * T)) by lra.
  assert (HD : 0 < gm1 g * (Cv g * T)) by (apply Rmult_lt_0_compat; lra).
  assert (HR : 0 <= P / (gm1 g * (Cv g * T))) by (apply Rle_mult_inv_pos; lra).
  rewrite Rmax_right by exact HR.
  split; [exact HR|]. split; [|split; [|split]].
  - rewrite P_T_pos by lra. field. split; [lra|split; lra].
  - rewrite P_e_pos by lra. field. split; [lra|split; lra].
  - rewrite E_T_pos by lra. reflexivity.
  - intros r Hr HPr. rewrite P_T_pos in HPr by lra. rewrite <- HPr. field. split; [lra|split; lra].
Qed.
Lemma RP_inverse rho P : 0 < rho -> 0 <= P ->
  0 <= InternalEnergyFromDensityPressure g rho P /\ P_e rho (InternalEnergyFromDensityPressure g rho P) = P.
Proof.
  intros Hr HP. unfold InternalEnergyFromDensityPressure. assert (HD : 0 < gm1 g * rho) by (apply Rmult_lt_0_compat; lra).
  assert (HR : 0 <= P / (gm1 g * rho)) by (apply Rle_mult_inv_pos; lra). split; [exact HR|].
  rewrite P_e_pos by lra. field. split; lra.
Qed.

(** derivatives *)
Lemma dP_de rho e : 0 < rho -> 0 < e -> is_derive (fun s => P_e rho s) e (gm1 g * rho).
Proof.
  intros Hr He. unfold PressureFromDensityInternalEnergy. apply is_derive_max_left; [auto_derive; [exact I|ring]|].
  apply Rmult_lt_0_compat; [apply Rmult_lt_0_compat; lra|lra].
Qed.
Lemma dP_dr rho e : 0 < rho -> 0 < e -> is_derive (fun r => P_e r e) rho (gm1 g * e).
Proof.
  intros Hr He. unfold PressureFromDensityInternalEnergy. apply is_derive_max_left; [auto_derive; [exact I|ring]|].
  apply Rmult_lt_0_compat; [apply Rmult_lt_0_compat; lra|lra].
Qed.
Lemma gruneisen_ok rho e : 0 < rho -> 0 < e -> is_gruneisen P_e rho e (GruneisenParam g rho e).
Proof. intros Hr He. unfold is_gruneisen, GruneisenParam. rewrite Rmult_comm. apply dP_de; assumption. Qed.
Lemma bmod_ok rho e : 0 < rho -> 0 < e -> is_bulk_modulus P_e rho e (BulkModulusFromDensityInternalEnergy g rho e).
Proof.
  intros Hr He. exists (gm1 g * e), (gm1 g * rho). refine (conj (dP_dr _ _ Hr He) (conj (dP_de _ _ Hr He) _)).
  rewrite P_e_pos by lra. unfold BulkModulusFromDensityInternalEnergy. rewrite Rmax_right; [field; lra|].
  apply Rmult_le_pos; [apply Rmult_le_pos; [apply Rmult_le_pos|]; lra|lra].
Qed.
Lemma bmod_agree rho T : 0 <= rho -> 0 <= T -> BulkModulusFromDensityTemperature g rho T = BulkModulusFromDensityInternalEnergy g rho (E_T rho T).
Proof.
  intros Hr HT. unfold BulkModulusFromDensityTemperature, BulkModulusFromDensityInternalEnergy. rewrite E_T_pos by exact HT. f_equal. ring.
Qed.
Lemma cv_ok rho T : 0 < T -> is_specific_heat E_T rho T (SpecificHeat g rho T).
Proof.
  intros HT. unfold is_specific_heat, SpecificHeat, InternalEnergyFromDensityTemperature.
  apply is_derive_max_left; [auto_derive; [exact I|ring]|]. apply Rmult_lt_0_compat; lra.
Qed.
Lemma first_law_ok rho T : tiny <= EntropyT0 g -> 0 < EntropyRho0 g -> tiny < rho -> 0 < T -> first_law S_T E_T P_T rho T.
Proof.
  intros HT0 HR0 Hr HT. assert (Htp := tiny_pos). exists (Cv g), 0. refine (conj (cv_ok rho T HT) (conj _ (conj _ _))).
  - unfold InternalEnergyFromDensityTemperature. auto_derive; [exact I|reflexivity].
  - unfold EntropyFromDensityTemperature. rewrite (ratio_pos _ rho) by lra.
    apply (derive_loc _ (fun t => Cv g * ln (t / EntropyT0 g) + gm1 g * Cv g * ln (EntropyRho0 g / rho))).
    + apply filter_forall. intros t. rewrite ratio_pos by lra. reflexivity.
    + auto_derive; [apply Rdiv_lt_0_compat; lra|]. field. lra.
  - unfold EntropyFromDensityTemperature. rewrite (ratio_pos T) by lra.
    apply (derive_loc _ (fun r => Cv g * ln (T / EntropyT0 g) + gm1 g * Cv g * ln (EntropyRho0 g / r))).
    + apply (loc_imp _ (fun y => tiny < y)); [|apply loc_gt; exact Hr]. intros y Hy. rewrite (ratio_pos _ y) by lra. reflexivity.
    + rewrite P_T_pos by lra. auto_derive; [split; [lra|split; [|exact I]; apply Rdiv_lt_0_compat; lra]|]. field. lra.
Qed.
Lemma PTd_ok rho T : tiny <= gm1 g * (Cv g * T) -> tiny <= gm1 g * Cv g * T * T -> 0 < rho -> 0 < T ->
  let '(dedP, drdP, dedT, drdT) := PTDerivatives g rho (E_T rho T) (P_T rho T) T in
  is_PT_derivatives (fun p t => fst (DensityEnergyFromPressureTemperature g p t)) (fun p t => snd (DensityEnergyFromPressureTemperature g p t))
    (P_T rho T) T drdP dedP drdT dedT.
Proof.
  intros H1 H2 Hr HT. unfold PTDerivatives. rewrite E_T_pos by lra. rewrite !ratio_pos by assumption. assert (Htp := tiny_pos).
  assert (HX : 0 < Cv g * T) by (apply Rmult_lt_0_compat; lra).
  assert (HD : 0 < gm1 g * (Cv g * T)) by (apply Rmult_lt_0_compat; lra).
  assert (HP : 0 < P_T rho T). { rewrite P_T_pos by lra. repeat apply Rmult_lt_0_compat; lra. }
  set (P := P_T rho T) in *. unfold is_PT_derivatives, DensityEnergyFromPressureTemperature. cbn [fst snd].
  refine (conj _ (conj _ (conj _ _))).
  - rewrite (Rmax_right 0 (Cv g * T)) by lra. apply is_derive_max_left; [|apply Rdiv_lt_0_compat; lra].
    auto_derive; [exact I|]. field. repeat split; lra.
  - auto_derive; [exact I|reflexivity].
  - apply is_derive_max_left.
    2: { rewrite (Rmax_right 0 (Cv g * T)) by lra. apply Rdiv_lt_0_compat; lra. }
    apply (derive_loc _ (fun t => P / (gm1 g * (Cv g * t)))).
    + apply (loc_imp _ (fun y => 0 < y)); [|apply loc_gt; exact HT]. intros y Hy. rewrite (Rmax_right 0 (Cv g * y)); [reflexivity|].
      apply Rmult_le_pos; lra.
    + auto_derive; [repeat split; lra|]. field. repeat split; lra.
  - apply is_derive_max_left; [auto_derive; [exact I|ring]|exact HX].
Qed.

(** FillEos *)
Lemma fill_RE o s s' : f_rho o = false -> f_sie o = false -> FillEos g o s = Some s' ->
  fill_ok T_e P_e (SpecificHeat g) (BulkModulusFromDensityInternalEnergy g) InRhoSie o s s'.
Proof.
  destruct o as [fr ft fs fp fc fb]; destruct s as [r t e p c b]. cbn [f_rho f_sie]. intros -> ->.
  unfold FillEos, cond_upd. cbn. destruct ft, fp, fc, fb; cbn; intros H; injection H as <-;
    unfold fill_ok, fill_frame, fill_values; cbn; repeat split; auto; discriminate.
Qed.
Lemma fill_RT o s s' : mode_of o InRhoTemp -> 0 <= s_temp s -> FillEos g o s = Some s' ->
  fill_ok T_e P_e (SpecificHeat g) (BulkModulusFromDensityInternalEnergy g) InRhoTemp o s s' /\ s_sie s' = E_T (s_rho s) (s_temp s).
Proof.
  destruct o as [fr ft fs fp fc fb]; destruct s as [r t e p c b]. unfold mode_of. cbn [f_rho f_sie f_temp f_press s_temp].
  intros (-> & -> & -> & ->) HT.
  unfold FillEos, cond_upd. cbn. destruct fc, fb; cbn; intros H; injection H as <-;
    unfold fill_ok, fill_frame, fill_values; cbn; repeat split; auto; try discriminate; apply roundtrip_T; exact HT.
Qed.
Lemma fill_PT o s s' : mode_of o InPressTemp -> 0 <= s_press s -> 0 < s_temp s -> FillEos g o s = Some s' ->
  fill_ok T_e P_e (SpecificHeat g) (BulkModulusFromDensityInternalEnergy g) InPressTemp o s s' /\
  P_T (s_rho s') (s_temp s) = s_press s.
Proof.
  destruct o as [fr ft fs fp fc fb]; destruct s as [r t e p c b]. unfold mode_of. cbn [f_rho f_sie f_temp f_press s_temp s_press].
  intros (-> & -> & -> & ->) HP HT.
  pose proof (PT_inverse p t HP HT) as HI. unfold FillEos, cond_upd. cbn [andb orb f_rho f_sie f_press f_temp f_bmod f_cv s_press s_temp].
  destruct (DensityEnergyFromPressureTemperature g p t) as [r1 e1]. destruct HI as (I1 & I2 & I3 & I4 & _).
  assert (I5 : T_e r1 e1 = t) by (rewrite I4; apply roundtrip_T; lra).
  destruct fc, fb; cbn; intros H; injection H as <-;
    unfold fill_ok, fill_frame, fill_values; cbn; repeat split; auto; discriminate.
Qed.
Lemma fill_RP o s s' : mode_of o InRhoPress -> 0 < s_rho s -> 0 <= s_press s -> FillEos g o s = Some s' ->
  fill_ok T_e P_e (SpecificHeat g) (BulkModulusFromDensityInternalEnergy g) InRhoPress o s s'.
Proof.
  destruct o as [fr ft fs fp fc fb]; destruct s as [r t e p c b]. unfold mode_of. cbn [f_rho f_sie f_temp f_press s_rho s_press].
  intros (-> & -> & -> & ->) Hr HP. destruct (RP_inverse r p Hr HP) as [_ I]. unfold InternalEnergyFromDensityPressure in I.
  unfold FillEos, cond_upd. cbn. destruct fc, fb; cbn; intros H; injection H as <-;
    unfold fill_ok, fill_frame, fill_values; cbn; repeat split; auto; discriminate.
Qed.
End Ideal.

Definition admissible (g : ideal) : Prop := 0 < Cv g /\ 0 < gm1 g.

(** T <-> e round trips *)
Theorem C16_temperature_energy_round_trip : forall g rho, admissible g ->
  (forall T, 0 <= T -> TemperatureFromDensityInternalEnergy g rho (InternalEnergyFromDensityTemperature g rho T) = T) /\
  (forall e, 0 <= e -> InternalEnergyFromDensityTemperature g rho (TemperatureFromDensityInternalEnergy g rho e) = e).
Proof. intros g rho [A B]. split; [exact (roundtrip_T g A rho)|exact (roundtrip_e g A rho)]. Qed.
(** both pressure (and bulk modulus) entry points agree *)
Theorem C16_entry_points_agree : forall g rho T, admissible g -> 0 <= rho ->
  PressureFromDensityTemperature g rho T = PressureFromDensityInternalEnergy g rho (InternalEnergyFromDensityTemperature g rho T) /\
  (0 <= T -> BulkModulusFromDensityTemperature g rho T = BulkModulusFromDensityInternalEnergy g rho (InternalEnergyFromDensityTemperature g rho T)) /\
  EntropyFromDensityInternalEnergy g rho (InternalEnergyFromDensityTemperature g rho (Rmax 0 T)) = EntropyFromDensityTemperature g rho (Rmax 0 T).
Proof.
  intros g rho T [A B] Hr. refine (conj (P_agree g A B rho T Hr) (conj (fun HT => bmod_agree g A rho T Hr HT) _)).
  unfold EntropyFromDensityInternalEnergy. rewrite roundtrip_T; [reflexivity|exact A|apply Rmax_l].
Qed.
(** (P,T) -> (rho,e) inverts the forward calls and the density is unique *)
Theorem C16_PT_inversion : forall g P T rho e, admissible g -> 0 <= P -> 0 < T ->
  DensityEnergyFromPressureTemperature g P T = (rho, e) ->
  0 <= rho /\ PressureFromDensityTemperature g rho T = P /\ PressureFromDensityInternalEnergy g rho e = P /\
  e = InternalEnergyFromDensityTemperature g rho T /\
  forall rho', 0 <= rho' -> PressureFromDensityTemperature g rho' T = P -> rho' = rho.
Proof. intros g P T rho e [A B] HP HT E. pose proof (PT_inverse g A B P T HP HT) as H. rewrite E in H. exact H. Qed.
Theorem C16_RP_inversion : forall g rho P, admissible g -> 0 < rho -> 0 <= P ->
  PressureFromDensityInternalEnergy g rho (InternalEnergyFromDensityPressure g rho P) = P.
Proof. intros g rho P [A B] Hr HP. exact (proj2 (RP_inverse g B rho P Hr HP)). Qed.
(** derivatives of the pressure and the energy *)
Theorem C16_derivatives : forall g rho e T, admissible g -> 0 < rho -> 0 < e -> 0 < T ->
  is_gruneisen (PressureFromDensityInternalEnergy g) rho e (GruneisenParam g rho e) /\
  is_bulk_modulus (PressureFromDensityInternalEnergy g) rho e (BulkModulusFromDensityInternalEnergy g rho e) /\
  is_specific_heat (InternalEnergyFromDensityTemperature g) rho T (SpecificHeat g rho T).
Proof.
  intros g rho e T [A B] Hr He HT.
  exact (conj (gruneisen_ok g B rho e Hr He) (conj (bmod_ok g B rho e Hr He) (cv_ok g A rho T HT))).
Qed.
(** T ds = de - P/rho^2 drho *)
Theorem C16_first_law : forall g rho T, admissible g -> tiny <= EntropyT0 g -> 0 < EntropyRho0 g -> tiny < rho -> 0 < T ->
  first_law (EntropyFromDensityTemperature g) (InternalEnergyFromDensityTemperature g) (PressureFromDensityTemperature g) rho T.
Proof. intros g rho T [A B]. exact (first_law_ok g A B rho T). Qed.
Theorem C16_PT_derivatives : forall g rho T, admissible g -> 0 < rho -> 0 < T ->
  tiny <= gm1 g * (Cv g * T) -> tiny <= gm1 g * Cv g * T * T ->
  let '(dedP, drdP, dedT, drdT) := PTDerivatives g rho (InternalEnergyFromDensityTemperature g rho T) (PressureFromDensityTemperature g rho T) T in
  is_PT_derivatives (fun p t => fst (DensityEnergyFromPressureTemperature g p t)) (fun p t => snd (DensityEnergyFromPressureTemperature g p t))
    (PressureFromDensityTemperature g rho T) T drdP dedP drdT dedT.
Proof. intros g rho T [A B] Hr HT H1 H2. exact (PTd_ok g A B rho T H1 H2 Hr HT). Qed.
(** sign and floor: pressure, energy, temperature, bulk modulus are never negative and the minimum energy is a lower bound *)
Theorem C16_floors : forall g rho x,
  0 <= PressureFromDensityTemperature g rho x /\ 0 <= PressureFromDensityInternalEnergy g rho x /\
  0 <= TemperatureFromDensityInternalEnergy g rho x /\ MinInternalEnergyFromDensity rho <= InternalEnergyFromDensityTemperature g rho x /\
  0 <= BulkModulusFromDensityTemperature g rho x /\ 0 <= BulkModulusFromDensityInternalEnergy g rho x.
Proof. intros. repeat split; apply Rmax_l. Qed.
(** the values stored at construction are those the queries return at the reference state *)
Theorem C16_reference_state : forall gm Cv0 ET0 Er0 A Z g, 0 < gm -> 0 < Cv0 -> make gm Cv0 ET0 Er0 A Z = Some g ->
  exists rho T sie P cv bmod dpde dvdt,
    ValuesAtReferenceState g = (rho :: T :: sie :: P :: cv :: bmod :: dpde :: dvdt :: nil)%list /\
    0 < rho /\ 0 < T /\ PressureFromDensityTemperature g rho T = P /\ InternalEnergyFromDensityTemperature g rho T = sie /\
    SpecificHeat g rho T = cv /\ BulkModulusFromDensityTemperature g rho T = bmod /\
    is_derive (fun e => PressureFromDensityInternalEnergy g rho e) sie dpde /\
    is_derive (fun t => 1 / fst (DensityEnergyFromPressureTemperature g P t)) T dvdt.
Proof.
  intros gm Cv0 ET0 Er0 A Z g Hgm HCv H. unfold make in H. destruct (CheckParams _); [|discriminate]. injection H as <-.
  set (g := ctor5 gm Cv0 ET0 Er0 A Z).
  assert (H1 : Cv g = Cv0) by reflexivity. assert (H2 : gm1 g = gm) by reflexivity.
  assert (HD : 0 < gm * Cv0 * 293) by (apply Rmult_lt_0_compat; [apply Rmult_lt_0_compat|]; lra).
  assert (Hr : 0 < rho0 g). { change (0 < 1000000 / (gm * Cv0 * 293)). apply Rdiv_lt_0_compat; lra. }
  assert (Er : rho0 g = 1000000 / (gm * Cv0 * 293)) by reflexivity.
  exists (rho0 g), 293, (sie0 g), 1000000, (Cv g), (bmod0 g), (dpde0 g), (dvdt0 g).
  split; [reflexivity|]. split; [exact Hr|]. split; [lra|].
  split. { rewrite P_T_pos by (rewrite ?H1, ?H2; lra). rewrite H1, H2, Er. field. lra. }
  split. { rewrite E_T_pos by (rewrite ?H1; lra). reflexivity. }
  split; [reflexivity|].
  split. { unfold BulkModulusFromDensityTemperature. rewrite Rmax_right; [rewrite H1, H2; reflexivity|].
           rewrite H1, H2. apply Rmult_le_pos; [apply Rmult_le_pos; [apply Rmult_le_pos; [apply Rmult_le_pos|]|]|]; lra. }
  assert (Hs : 0 < sie0 g) by (change (0 < Cv0 * 293); apply Rmult_lt_0_compat; lra).
  split. { apply (is_derive_eq _ _ (gm1 g * rho0 g)); [apply dP_de; rewrite ?H2; assumption|reflexivity]. }
  assert (HX : 0 < Cv0 * 293) by (apply Rmult_lt_0_compat; lra).
  apply (derive_loc _ (fun t => gm * (Cv0 * t) / 1000000)).
  - apply (loc_imp _ (fun y => 0 < y)); [|apply loc_gt; lra]. intros y Hy. unfold DensityEnergyFromPressureTemperature. cbn [fst].
    rewrite H1, H2. assert (0 < Cv0 * y) by (apply Rmult_lt_0_compat; lra). rewrite (Rmax_right 0 (Cv0 * y)) by lra.
    assert (0 < gm * (Cv0 * y)) by (apply Rmult_lt_0_compat; lra).
    rewrite Rmax_right. 2: { apply Rlt_le, Rdiv_lt_0_compat; lra. } field. lra.
  - auto_derive; [exact I|]. change (dvdt0 g) with (1 / (rho0 g * 293)). rewrite Er. field. lra.
Qed.
(** FillEos agrees with the scalar queries in all four input modes *)
Theorem C16_FillEos : forall g m o s s', admissible g -> mode_of o m ->
  match m with InRhoSie => True | InRhoTemp => 0 <= s_temp s | InPressTemp => 0 <= s_press s /\ 0 < s_temp s
             | InRhoPress => 0 < s_rho s /\ 0 <= s_press s end ->
  FillEos g o s = Some s' ->
  fill_ok (TemperatureFromDensityInternalEnergy g) (PressureFromDensityInternalEnergy g) (SpecificHeat g)
          (BulkModulusFromDensityInternalEnergy g) m o s s'.
Proof.
  intros g m o s s' [A B] Hm Hs H. destruct m.
  - destruct Hm. apply fill_RE; assumption.
  - exact (proj1 (fill_RT g A o s s' Hm Hs H)).
  - destruct Hs as [H1 H2]. exact (proj1 (fill_PT g A B o s s' Hm H1 H2 H)).
  - destruct Hs. apply fill_RP; assumption.
Qed.
(** and it never raises an error in those modes *)
Theorem C16_FillEos_total : forall g m o s, mode_of o m -> exists s', FillEos g o s = Some s'.
Proof.
  intros g m [fr ft fs fp fc fb] s Hm. unfold FillEos, mode_of in *.
  destruct m; cbn [f_rho f_sie f_temp f_press] in Hm; intuition (subst; cbn; eauto).
  all: destruct ft, fp; cbn; eauto.
Qed.
(** a request that leaves fewer than two of density, temperature, energy, pressure as inputs, energy being requested, is refused
    (UNDEFINED_ERROR) and nothing is returned *)
Theorem C16_FillEos_refuses : forall g o s, (inputs o < 2)%nat -> f_sie o = true -> FillEos g o s = None.
Proof. intros g o s. destruct o as [[] [] [] [] fc fb]; unfold inputs, FillEos; cbn; intros H E; try reflexivity; try discriminate; lia. Qed.
(** Refuted: "every request is either filled or refused": whenever the density is requested and the energy is an input the call is
    accepted - even with the energy as the only input - and the density is left as it was *)
Theorem C58_ideal_FillEos_density_from_energy_refuted : forall g o s, f_rho o = true -> f_sie o = false ->
  exists s', FillEos g o s = Some s' /\ s_rho s' = s_rho s.
Proof. intros g o s. destruct o as [fr ft fs fp fc fb]; cbn; intros -> ->; unfold FillEos, cond_upd; cbn; destruct ft, fp, fc, fb; cbn; eexists; (split; [reflexivity|]); reflexivity. Qed.
Example C16_FillEos_refuses_instance : (inputs (mkF true false true true true true) < 2)%nat.
Proof. cbn. lia. Qed.
(** Refuted: "FillEos sets all parameters requested": a request for the energy alone (density, temperature and pressure
    being inputs) leaves the energy untouched. *)
Theorem C58_ideal_FillEos_energy_only_refuted : exists g o s s', admissible g /\ f_sie o = true /\ f_rho o = false /\ f_temp o = false /\
  FillEos g o s = Some s' /\ s_sie s' <> InternalEnergyFromDensityTemperature g (s_rho s') (s_temp s') /\ s_sie s' = s_sie s.
Proof.
  exists (ctor5 1 1 1 1 1 1), (mkF false false true false false false), (mkS 1 1 7 1 0 0), (mkS 1 1 7 1 0 0).
  unfold admissible. repeat split; try reflexivity; try (cbn; lra). cbn. unfold InternalEnergyFromDensityTemperature. cbn. rewrite Rmax_right; lra.
Qed.

(** instance: air *)
Example C16_instance : exists g, make (4/10) 7180000 293 1 29 14 = Some g /\ admissible g /\ tiny <= EntropyT0 g /\ 0 < EntropyRho0 g /\
  PressureFromDensityTemperature g 2 300 = 1723200000.
Proof.
  eexists. unfold make, CheckParams. cbn [ctor5 Cv gm1 EntropyT0 EntropyRho0 Abar Zbar].
  rewrite !Rle_bool_true, !Rlt_bool_true by lra. cbn [andb]. split; [reflexivity|]. unfold admissible. cbn [ctor5 Cv gm1 EntropyT0 EntropyRho0].
  pose proof tiny_lt_1. repeat split; try lra. unfold PressureFromDensityTemperature. cbn [ctor5 Cv gm1]. rewrite Rmax_right; lra.
Qed.

(** C44 for IdealGas: CheckParams accepts exactly non-negative parameters; in particular Cv = 0 and gm1 = 0 pass although
    the messages say "must be positive" and both are used as denominators *)
Theorem C44_ideal_CheckParams : forall g, CheckParams g = true <->
  0 <= Cv g /\ 0 <= gm1 g /\ 0 <= EntropyT0 g /\ 0 <= EntropyRho0 g /\ 0 < Abar g /\ 0 < Zbar g.
Proof.
  intros g. unfold CheckParams. rewrite !andb_true_iff.
  destruct (Rle_bool_spec 0 (Cv g)), (Rle_bool_spec 0 (gm1 g)), (Rle_bool_spec 0 (EntropyT0 g)), (Rle_bool_spec 0 (EntropyRho0 g)),
    (Rlt_bool_spec 0 (Abar g)), (Rlt_bool_spec 0 (Zbar g)); split; intros HH; try (exfalso; intuition (discriminate || lra); fail); intuition lra.
Qed.
Theorem C62_ideal_zero_denominator_refuted : exists g, CheckParams g = true /\ Cv g = 0 /\ gm1 g * Cv g * ROOM_TEMPERATURE = 0.
Proof.
  exists (mkIdeal 0 1 0 0 0 0 0 1 1 1 1). repeat split; [apply C44_ideal_CheckParams; cbn; lra|cbn; lra].
Qed.
Print Assumptions C16_temperature_energy_round_trip.
Print Assumptions C16_entry_points_agree.
Print Assumptions C16_PT_inversion.
Print Assumptions C16_RP_inversion.
Print Assumptions C16_derivatives.
Print Assumptions C16_first_law.
Print Assumptions C16_PT_derivatives.
Print Assumptions C16_floors.
Print Assumptions C16_reference_state.
Print Assumptions C16_FillEos.
Print Assumptions C16_FillEos_total.
Print Assumptions C16_FillEos_refuses.
Print Assumptions C58_ideal_FillEos_density_from_energy_refuted.
Print Assumptions C58_ideal_FillEos_energy_only_refuted.
Print Assumptions C44_ideal_CheckParams.
Print Assumptions C62_ideal_zero_denominator_refuted.
