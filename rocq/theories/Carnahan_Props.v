(** C19: Carnahan-Starling gas *)
From Coq Require Import Reals Bool Lra Lia List Ranalysis1 Psatz.
From Flocq Require Import Core.
From Coquelicot Require Import Coquelicot.
From Verif Require Import Arith RootFinding_Model RootFinding_Proofs Robust_Model Robust_Proofs Thermo_Spec Thermo_Tools Fill_Model Fill_Proofs Carnahan_Model.
Local Open Scope R_scope.

Definition admissible (g : carnahan) : Prop := 0 < Cv g /\ 0 < gm1 g /\ 0 <= bb g.
(** densities below the covolume limit 1/b (packing fraction eta = b rho < 1), not denormal-like *)
Definition ok_rho (g : carnahan) rho : Prop := tiny < rho /\ bb g * rho < 1 /\ tiny < (1 - bb g * rho) ^ 3 /\ tiny < (1 - bb g * rho) ^ 4.
Lemma SMALL_pos : 0 < SMALL.
Proof. unfold SMALL; pose proof (bpow_gt_0 radix2 (-1022)); lra. Qed.
Lemma DBL_MIN_pos : 0 < DBL_MIN.
Proof. apply bpow_gt_0. Qed.

(** compressibility factor in closed form *)
Definition Zc (eta : R) : R := (1 + eta + eta * eta - eta * eta * eta) / (1 - eta) ^ 3.
Lemma Zed_eq b rho : tiny <= (1 - b * rho) ^ 3 -> Zed b rho = Zc (b * rho).
Proof.
  intros H. pose proof tiny_pos. unfold Zed. cbv zeta. rewrite ratio_pos by exact H. unfold Zc.
  assert (1 - b * rho <> 0). { intros E. rewrite E in H. cbn in H. lra. } field. assumption.
Qed.
Lemma Zc_pos eta : 0 <= eta < 1 -> 1 <= Zc eta.
Proof.
  intros H. unfold Zc. assert (H3 : 0 < (1 - eta) ^ 3) by (apply pow_lt; lra).
  apply Rmult_le_reg_r with ((1 - eta) ^ 3); [exact H3|]. unfold Rdiv. rewrite Rmult_assoc, Rinv_l by lra. nra.
Qed.

Section Carnahan.
Variable g : carnahan.
Hypothesis HCv : 0 < Cv g.
Hypothesis Hg : 0 < gm1 g.
Hypothesis Hb : 0 <= bb g.
Notation T_e := (TemperatureFromDensityInternalEnergy g).
Notation E_T := (InternalEnergyFromDensityTemperature g).
Notation P_T := (PressureFromDensityTemperature g).
Notation P_e := (PressureFromDensityInternalEnergy g).
Notation S_T := (EntropyFromDensityTemperature g).
Notation S_e := (EntropyFromDensityInternalEnergy g).
Notation B_e := (BulkModulusFromDensityInternalEnergy g).
Notation B_T := (BulkModulusFromDensityTemperature g).
Notation eta r := (bb g * r).

Lemma E_T_eq rho T : 0 <= T -> E_T rho T = Cv g * T + qq g.
Proof. intros HT. unfold InternalEnergyFromDensityTemperature. apply Rmax_right. assert (0 <= Cv g * T) by (apply Rmult_le_pos; lra). lra. Qed.
Lemma roundtrip_T rho T : SMALL <= T -> T_e rho (E_T rho T) = T.
Proof.
  intros HT. pose proof SMALL_pos. rewrite E_T_eq by lra. unfold TemperatureFromDensityInternalEnergy.
  replace ((Cv g * T + qq g - qq g) / Cv g) with T by (field; lra). apply Rmax_right. exact HT.
Qed.
Lemma roundtrip_e rho e : SMALL <= (e - qq g) / Cv g -> E_T rho (T_e rho e) = e.
Proof.
  intros He. pose proof SMALL_pos. unfold TemperatureFromDensityInternalEnergy. rewrite Rmax_right by exact He.
  rewrite E_T_eq by lra. field. lra.
Qed.
Lemma P_agree rho T : 0 <= T -> P_T rho T = P_e rho (E_T rho T).
Proof. intros HT. rewrite E_T_eq by exact HT. unfold PressureFromDensityTemperature, PressureFromDensityInternalEnergy. f_equal. ring. Qed.
Lemma B_agree rho T : 0 <= T -> B_T rho T = B_e rho (E_T rho T).
Proof. intros HT. rewrite E_T_eq by exact HT. unfold BulkModulusFromDensityTemperature, BulkModulusFromDensityInternalEnergy. f_equal. ring. Qed.
Lemma S_agree rho T : 0 <= T -> tiny <= T0 g -> tiny <= Cv g * T0 g -> sie0 g = Cv g * T0 g + qq g -> S_T rho T = S_e rho (E_T rho T).
Proof.
  intros HT H0 H1 Hs. pose proof tiny_pos. rewrite E_T_eq by exact HT. unfold EntropyFromDensityTemperature, EntropyFromDensityInternalEnergy. rewrite Hs.
  replace (Cv g * T0 g + qq g - qq g) with (Cv g * T0 g) by ring. rewrite (ratio_pos T), (ratio_pos _ (Cv g * T0 g)) by lra.
  replace ((Cv g * T + qq g - qq g) / (Cv g * T0 g)) with (T / T0 g) by (field; lra). reflexivity.
Qed.
(** *** derivatives *)
Lemma loc3 rho : tiny < (1 - eta rho) ^ 3 -> locally rho (fun y => tiny < (1 - eta y) ^ 3).
Proof. intros H. apply (loc_gt_f (fun y => (1 - eta y) ^ 3)); [|exact H]. eapply derive_cont. auto_derive; [exact I|reflexivity]. Qed.
Lemma eta_ne rho : tiny < (1 - eta rho) ^ 3 -> 1 - eta rho <> 0.
Proof. intros H E. rewrite E in H. pose proof tiny_pos. cbn in H. lra. Qed.
Lemma dP_de rho e : tiny < (1 - eta rho) ^ 3 -> SMALL < Zc (eta rho) * rho * (e - qq g) * gm1 g ->
  is_derive (fun s => P_e rho s) e (Zc (eta rho) * rho * gm1 g).
Proof.
  intros Hr He. unfold PressureFromDensityInternalEnergy, ZedFromDensity. rewrite Zed_eq by lra.
  apply is_derive_max_left; [auto_derive; [exact I|ring]|exact He].
Qed.
Lemma dP_dr rho e : tiny < (1 - eta rho) ^ 3 -> tiny < (1 - eta rho) ^ 4 -> SMALL < Zc (eta rho) * rho * (e - qq g) * gm1 g ->
  is_derive (fun r => P_e r e) rho (PartialRhoZed (bb g) rho * (e - qq g) * gm1 g).
Proof.
  intros Hr Hr4 He. pose proof (eta_ne rho Hr) as Hne. unfold PressureFromDensityInternalEnergy, ZedFromDensity.
  apply (derive_loc _ (fun r => Rmax SMALL (Zc (eta r) * r * (e - qq g) * gm1 g))).
  - apply (loc_imp _ (fun y => tiny < (1 - eta y) ^ 3)); [|apply loc3; exact Hr]. intros y Hy. rewrite Zed_eq by lra. reflexivity.
  - apply is_derive_max_left; [|exact He]. unfold Zc. auto_derive; [apply Rmult_integral_contrapositive; split; [exact Hne|]; apply Rmult_integral_contrapositive; split; [exact Hne|]; rewrite Rmult_1_r; exact Hne|].
    unfold PartialRhoZed. cbv zeta. rewrite ratio_pos by lra. field. exact Hne.
Qed.
Lemma gruneisen_ok rho e : tiny < (1 - eta rho) ^ 3 -> SMALL < Zc (eta rho) * rho * (e - qq g) * gm1 g -> is_gruneisen P_e rho e (GruneisenParam g rho e).
Proof.
  intros Hr He. unfold is_gruneisen, GruneisenParam, ZedFromDensity. rewrite Zed_eq by lra.
  apply (is_derive_eq _ _ (Zc (eta rho) * rho * gm1 g)); [apply dP_de; assumption|ring].
Qed.
Lemma bmod_ok rho e : ok_rho g rho -> SMALL < Zc (eta rho) * rho * (e - qq g) * gm1 g ->
  SMALL <= rho * (e - qq g) * gm1 g * (PartialRhoZed (bb g) rho + Zc (eta rho) * Zc (eta rho) * gm1 g) ->
  is_bulk_modulus P_e rho e (B_e rho e).
Proof.
  intros (H0 & H1 & H3 & H4) He HB. pose proof tiny_pos.
  eexists _, _. refine (conj (dP_dr _ _ H3 H4 He) (conj (dP_de _ _ H3 He) _)).
  unfold BulkModulusFromDensityInternalEnergy, PressureFromDensityInternalEnergy, ZedFromDensity, PartialRhoZedFromDensity. rewrite Zed_eq by lra.
  rewrite !Rmax_right by lra. field. lra.
Qed.
Lemma cv_ok rho T : 0 < T -> is_specific_heat E_T rho T (SpecificHeat g rho T).
Proof.
  intros HT. unfold is_specific_heat, SpecificHeat, InternalEnergyFromDensityTemperature. apply is_derive_max_left; [auto_derive; [exact I|ring]|].
  assert (0 < Cv g * T) by (apply Rmult_lt_0_compat; lra). lra.
Qed.
Lemma first_law_ok rho T : ok_rho g rho -> 0 < T -> tiny <= T0 g -> tiny <= vol0 g -> tiny < 1 / rho - bb g ->
  tiny < T / T0 g -> tiny < 1 / rho / vol0 g -> SMALL <= Zc (eta rho) * rho * T * Cv g * gm1 g ->
  first_law S_T E_T P_T rho T.
Proof.
  intros (Hr & Hx & H3 & H4) HT HT0 Hv Hvb H1 H2 HPp. assert (Htp := tiny_pos). pose proof (eta_ne rho H3) as Hne.
  exists (Cv g), 0. refine (conj (cv_ok rho T HT) (conj _ (conj _ _))).
  - unfold InternalEnergyFromDensityTemperature. auto_derive; [exact I|reflexivity].
  - unfold EntropyFromDensityTemperature. set (K := entropy_tail g rho).
    apply (derive_loc _ (fun t => Cv g * ln (t / T0 g) + K)).
    + apply (loc_imp _ (fun y => tiny < y / T0 g)); [|apply (loc_gt_f (fun y => y / T0 g)); [|exact H1]].
      * intros y Hy. rewrite (ratio_pos y) by lra. rewrite (plus_small_eq (y / T0 g)) by lra. reflexivity.
      * apply (derive_cont _ _ (/ T0 g)). auto_derive; [exact I|ring].
    + auto_derive; [apply Rdiv_lt_0_compat; lra|]. field. lra.
  - unfold EntropyFromDensityTemperature, entropy_tail. cbv zeta. set (K := Cv g * ln (plus_small (ratio T (T0 g)))). set (w := ratio 1 (vol0 g - bb g)).
    apply (derive_loc _ (fun r => K + (gm1 g * Cv g * ln (1 / r / vol0 g) - gm1 g * Cv g * bb g * (1 / (1 / r - bb g) - w) * (4 + bb g * (1 / (1 / r - bb g) + w)) + qp g))).
    + apply (loc_imp _ (fun y => tiny < y /\ tiny < 1 / y / vol0 g /\ tiny < 1 / y - bb g)).
      * intros y (Hy1 & Hy2 & Hy3). rewrite (ratio_pos 1 y) by lra. rewrite (ratio_pos (1 / y)) by lra. rewrite (plus_small_eq (1 / y / _)) by lra.
        rewrite (ratio_pos 1 (1 / y - bb g)) by lra. reflexivity.
      * apply loc_and; [apply loc_gt; exact Hr|apply loc_and].
        -- apply (loc_gt_f (fun y => 1 / y / vol0 g)); [|exact H2]. eapply derive_cont. auto_derive; [lra|reflexivity].
        -- apply (loc_gt_f (fun y => 1 / y - bb g)); [|exact Hvb]. eapply derive_cont. auto_derive; [lra|reflexivity].
    + unfold PressureFromDensityTemperature, ZedFromDensity. rewrite Zed_eq by lra. rewrite Rmax_right by exact HPp. unfold Zc.
      replace (1 / rho) with (/ rho) in * by (field; lra).
      assert (HI : 0 < / rho) by (apply Rinv_0_lt_compat; lra).
      auto_derive.
      * replace (1 * / rho) with (/ rho) by ring. repeat split; lra.
      * assert (Hrb : 1 - rho * bb g <> 0) by (rewrite (Rmult_comm rho); exact Hne). field. repeat split; try lra.
Qed.
End Carnahan.

(** *** the density solve *)
Lemma np x y : x <= 0 -> 0 <= y -> x * y <= 0.
Proof. intros. assert (0 <= - x * y) by (apply Rmult_le_pos; lra). lra. Qed.
Section Solve.
Variables c g1 b P T : R.   (* Cv, gm1, b, pressure, temperature *)
Hypothesis Hb : 0 < b.
Hypothesis HP : 0 < P.
Hypothesis HcgT : tiny <= c * g1 * T.
Notation f := (density_residual c g1 b P T).
Lemma f_eq x : f x = x * (1 + b * x + b * x * (b * x) - b * x * (b * x) * (b * x)) - P * (1 - b * x) ^ 3 / (c * g1 * T).
Proof. unfold density_residual. cbv zeta. rewrite ratio_pos by exact HcgT. f_equal. ring. Qed.
Lemma poly_inc u v : 0 <= u -> u < v -> v <= 1 -> u * (1 + u + u * u - u * u * u) < v * (1 + v + v * v - v * v * v).
Proof.
  intros H0 H1 H2. assert (E : v * (1 + v + v * v - v * v * v) - u * (1 + u + u * u - u * u * u) =
    (v - u) * (1 + (u + v) + (u * u + u * v + v * v) - (u * u * u + u * u * v + u * v * v + v * v * v))) by ring.
  assert (A1 : u * u * u <= u * u). { rewrite <- (Rmult_1_r (u * u)) at 2. apply Rmult_le_compat_l; [apply Rle_0_sqr|lra]. }
  assert (A2 : v * v * v <= v * v). { rewrite <- (Rmult_1_r (v * v)) at 2. apply Rmult_le_compat_l; [apply Rle_0_sqr|lra]. }
  assert (A3 : u * u * v <= u * v). { replace (u * u * v) with (u * (u * v)) by ring. rewrite <- (Rmult_1_l (u * v)) at 2. apply Rmult_le_compat_r; [apply Rmult_le_pos; lra|lra]. }
  assert (A4 : u * v * v <= u). { replace (u * v * v) with (u * (v * v)) by ring. rewrite <- (Rmult_1_r u) at 2. apply Rmult_le_compat_l; [lra|]. 
    rewrite <- (Rmult_1_l 1). apply Rmult_le_compat; lra. }
  assert (A5 : 0 < (v - u) * (1 + (u + v) + (u * u + u * v + v * v) - (u * u * u + u * u * v + u * v * v + v * v * v))).
  { apply Rmult_lt_0_compat; lra. }
  lra.
Qed.
Lemma f_inc x y : 0 <= x -> x < y -> b * y <= 1 -> f x < f y.
Proof.
  intros H0 H1 H2. rewrite !f_eq. pose proof tiny_pos.
  assert (B0 : 0 <= b * x) by (apply Rmult_le_pos; lra).
  assert (B1 : b * x < b * y) by (apply Rmult_lt_compat_l; lra).
  pose proof (poly_inc (b * x) (b * y) B0 B1 H2) as HP1.
  assert (A : x * (1 + b * x + b * x * (b * x) - b * x * (b * x) * (b * x)) < y * (1 + b * y + b * y * (b * y) - b * y * (b * y) * (b * y))).
  { apply Rmult_lt_reg_l with b; [exact Hb|]. lra. }
  assert (B : (1 - b * y) ^ 3 <= (1 - b * x) ^ 3) by (apply pow_incr; lra).
  assert (C : P * (1 - b * y) ^ 3 / (c * g1 * T) <= P * (1 - b * x) ^ 3 / (c * g1 * T)).
  { unfold Rdiv. apply Rmult_le_compat_r; [apply Rlt_le, Rinv_0_lt_compat; lra|]. apply Rmult_le_compat_l; lra. }
  lra.
Qed.
Lemma f_0 : f 0 < 0.
Proof.
  rewrite f_eq. pose proof tiny_pos. rewrite Rmult_0_l, Rmult_0_r, !Rminus_0_r, pow1, Rmult_1_r.
  assert (0 < P / (c * g1 * T)) by (apply Rdiv_lt_0_compat; lra). lra.
Qed.
Lemma f_1 : 0 < f (1 / b).
Proof.
  rewrite f_eq. pose proof tiny_pos. set (K := c * g1 * T) in *. replace (b * (1 / b)) with 1 by (field; lra).
  replace (1 / b * (1 + 1 + 1 * 1 - 1 * 1 * 1) - P * (1 - 1) ^ 3 / K) with (2 / b) by (field; lra). apply Rdiv_lt_0_compat; lra.
Qed.
Lemma f_cont x : continuity_pt f x.
Proof.
  apply (continuity_pt_ext (fun x => x * (1 + b * x + b * x * (b * x) - b * x * (b * x) * (b * x)) - P * (1 - b * x) ^ 3 / (c * g1 * T))).
  { intros y. symmetry. apply f_eq. }
  apply derivable_continuous_pt. eexists. apply is_derive_Reals. auto_derive; [exact I|reflexivity].
Qed.
(** a root is exactly a density with the requested pressure *)
Lemma root_iff r : 0 < r -> b * r < 1 -> f r = 0 <-> Zc (b * r) * r * T * c * g1 = P.
Proof.
  intros Hr Hx. rewrite f_eq. unfold Zc. pose proof tiny_pos. assert (1 - b * r <> 0) by lra.
  assert (H3 : 0 < (1 - b * r) ^ 3) by (apply pow_lt; lra).
  set (X := (1 - b * r) ^ 3) in *. set (N := 1 + b * r + b * r * (b * r) - b * r * (b * r) * (b * r)) in *.
  replace (N / X * r * T * c * g1) with (r * N * (c * g1 * T) / X) by (field; lra). set (K := c * g1 * T) in *. split; intros E.
  - assert (E' : r * N = P * X / K) by lra. rewrite E'. field. lra.
  - rewrite <- E. field. lra.
Qed.
Lemma solve_ok rho n : SMALL <= 1 / b ->
  @regula_falsi RArith f 0 SMALL 0 (1 / b) (1 / 1000000000) (1 / 1000000000) = RFDone SUCCESS (Some rho) n ->
  0 <= rho <= 1 / b /\
  exists r, 0 < r < 1 / b /\ f r = 0 /\
    (Rabs (rho - r) <= 1 / 1000000000 \/
     exists u v, 0 <= u <= r /\ r <= v <= 1 / b /\ u <= rho <= v /\ Rmin (Rabs (f u)) (Rabs (f v)) <= 1 / 1000000000).
Proof.
  intros HS H. pose proof SMALL_pos as HSp. pose proof f_0 as HF0. pose proof f_1 as HF1.
  assert (H0 : 0 <= SMALL <= 1 / b) by lra. assert (Ht : 0 <= 1 / 1000000000) by lra.
  assert (HC : forall z, 0 <= z <= 1 / b -> continuity_pt f z) by (intros; apply f_cont).
  assert (HB : (f 0 - 0) * (f SMALL - 0) <= 0 \/ (f SMALL - 0) * (f (1 / b) - 0) <= 0).
  { destruct (Rle_dec 0 (f SMALL)).
    - left. rewrite !Rminus_0_r. apply np; lra.
    - right. rewrite !Rminus_0_r. apply np; lra. }
  destruct (rf_root_near f 0 SMALL 0 (1 / b) _ _ rho n H0 Ht Ht HC HB H) as (B1 & u & v & r & U1 & U2 & U3 & U4 & U5 & U6).
  split; [exact B1|]. exists r. assert (Hr0 : r <> 0) by (intros ->; lra). assert (Hr1 : r <> 1 / b) by (intros ->; lra).
  split; [lra|]. split; [exact U5|]. destruct U6 as [U6|U6]; [left; exact U6|]. right. exists u, v.
  rewrite !Rminus_0_r in U6. refine (conj _ (conj _ (conj _ U6))); lra.
Qed.
End Solve.

Theorem C19_temperature_energy_round_trip : forall g rho, admissible g ->
  (forall T, SMALL <= T -> TemperatureFromDensityInternalEnergy g rho (InternalEnergyFromDensityTemperature g rho T) = T) /\
  (forall e, SMALL <= (e - qq g) / Cv g -> InternalEnergyFromDensityTemperature g rho (TemperatureFromDensityInternalEnergy g rho e) = e).
Proof. intros g rho (A & B & C). split; intros; [apply roundtrip_T|apply roundtrip_e]; assumption. Qed.
Theorem C19_entry_points_agree : forall g rho T, admissible g -> 0 <= T ->
  PressureFromDensityTemperature g rho T = PressureFromDensityInternalEnergy g rho (InternalEnergyFromDensityTemperature g rho T) /\
  BulkModulusFromDensityTemperature g rho T = BulkModulusFromDensityInternalEnergy g rho (InternalEnergyFromDensityTemperature g rho T).
Proof. intros g rho T (A & B & C) HT. split; [apply P_agree|apply B_agree]; assumption. Qed.
Theorem C19_entropy_entry_points_agree : forall gm Cv0 b q qp T00 P00 A Z g rho T,
  make gm Cv0 b q qp T00 P00 A Z = Some g -> admissible g -> tiny <= T00 -> tiny <= Cv0 * T00 -> 0 <= T ->
  EntropyFromDensityTemperature g rho T = EntropyFromDensityInternalEnergy g rho (InternalEnergyFromDensityTemperature g rho T).
Proof.
  intros gm Cv0 b q qp T00 P00 A Z g rho T H (HA & HB & HC) H1 H2 HT. unfold make, ctor in H.
  destruct (DensityFromPT _ _ _ _ _) as [r0|]; [|discriminate]. destruct (CheckParams _); [|discriminate].
  injection H as <-. apply S_agree; try assumption; reflexivity.
Qed.
Theorem C19_derivatives : forall g rho e T, admissible g -> ok_rho g rho -> 0 < T ->
  SMALL < PressureFromDensityInternalEnergy g rho e -> SMALL < BulkModulusFromDensityInternalEnergy g rho e ->
  is_gruneisen (PressureFromDensityInternalEnergy g) rho e (GruneisenParam g rho e) /\
  is_bulk_modulus (PressureFromDensityInternalEnergy g) rho e (BulkModulusFromDensityInternalEnergy g rho e) /\
  is_specific_heat (InternalEnergyFromDensityTemperature g) rho T (SpecificHeat g rho T).
Proof.
  intros g rho e T (A & B & C) Hok HT HPs HBs.
  assert (H3 : tiny < (1 - bb g * rho) ^ 3) by (destruct Hok as (_ & _ & H & _); exact H).
  assert (HPe : SMALL < Zc (bb g * rho) * rho * (e - qq g) * gm1 g).
  { revert HPs. unfold PressureFromDensityInternalEnergy, ZedFromDensity. rewrite Zed_eq by lra. 
    unfold Rmax. destruct (Rle_dec _ _); intros; lra. }
  assert (HBe : SMALL <= rho * (e - qq g) * gm1 g * (PartialRhoZed (bb g) rho + Zc (bb g * rho) * Zc (bb g * rho) * gm1 g)).
  { revert HBs. unfold BulkModulusFromDensityInternalEnergy, ZedFromDensity, PartialRhoZedFromDensity. rewrite Zed_eq by lra. 
    unfold Rmax. destruct (Rle_dec _ _); intros; lra. }
  exact (conj (gruneisen_ok g rho e H3 HPe) (conj (bmod_ok g rho e Hok HPe HBe) (cv_ok g A rho T HT))).
Qed.
Theorem C19_first_law : forall g rho T, admissible g -> ok_rho g rho -> 0 < T -> tiny <= T0 g -> tiny <= vol0 g -> tiny < 1 / rho - bb g ->
  tiny < T / T0 g -> tiny < 1 / rho / vol0 g -> SMALL < PressureFromDensityTemperature g rho T ->
  first_law (EntropyFromDensityTemperature g) (InternalEnergyFromDensityTemperature g) (PressureFromDensityTemperature g) rho T.
Proof.
  intros g rho T (A & B & C) Hok HT H1 H2 H3 H4 H5 HPs. apply first_law_ok; try assumption.
  revert HPs. unfold PressureFromDensityTemperature, ZedFromDensity. rewrite Zed_eq by (destruct Hok as (_ & _ & H & _); lra).
  unfold Rmax. destruct (Rle_dec _ _); intros; lra.
Qed.
(** for every (P,T) there is exactly one density with that pressure below the covolume limit *)
Theorem C19_density_exists_unique : forall g P T, admissible g -> 0 < bb g -> 0 < P -> tiny <= Cv g * gm1 g * T ->
  exists! r, 0 < r < 1 / bb g /\ Zc (bb g * r) * r * T * Cv g * gm1 g = P.
Proof.
  intros g P T (A & B & C) Hb HP HT.
  destruct (sign_change_root (density_residual (Cv g) (gm1 g) (bb g) P T) 0 (1 / bb g)) as (r & Hr & Er).
  { apply Rlt_le, Rdiv_lt_0_compat; lra. } { intros; apply f_cont; assumption. }
  { apply np; [apply Rlt_le, f_0; assumption|apply Rlt_le, f_1; assumption]. }
  pose proof (f_0 _ _ (bb g) P T HP HT) as F0. pose proof (f_1 _ _ (bb g) P T Hb HT) as F1.
  assert (Hr' : 0 < r < 1 / bb g). { assert (r <> 0) by (intros ->; lra). assert (r <> 1 / bb g) by (intros ->; lra). lra. }
  assert (U : forall x, 0 < x < 1 / bb g -> bb g * x < 1).
  { intros x Hx. replace 1 with (bb g * (1 / bb g)) by (field; lra). apply Rmult_lt_compat_l; lra. }
  exists r. split.
  - split; [exact Hr'|]. apply (root_iff (Cv g) (gm1 g) (bb g) P T); try assumption; [lra|apply U; lra].
  - intros x [Hx Ex]. apply (root_iff (Cv g) (gm1 g) (bb g) P T) in Ex; try assumption; [|lra|apply U; lra].
    destruct (Rtotal_order r x) as [L|[L|L]]; [|exact L|].
    + pose proof (f_inc (Cv g) (gm1 g) (bb g) P T Hb HP HT r x (Rlt_le _ _ (proj1 Hr')) L (Rlt_le _ _ (U x Hx))). lra.
    + pose proof (f_inc (Cv g) (gm1 g) (bb g) P T Hb HP HT x r (Rlt_le _ _ (proj1 Hx)) L (Rlt_le _ _ (U r Hr'))). lra.
Qed.
(** the density returned from (P,T): exact for b = 0; otherwise in [0, 1/b] and within 1e-9 of the exact density unless the
    search stopped on its (weighted) residual test, in which case both are in the final bracket.
    (Whether the search succeeds is not claimed.). *)
Theorem C19_density_from_PT : forall g P T rho, admissible g -> 0 < P -> DBL_MIN < T -> tiny <= Cv g * gm1 g * T ->
  DensityFromPressureTemperature g P T = Some rho ->
  (bb g <= DBL_MIN -> rho = P / (Cv g * gm1 g * T)) /\
  (DBL_MIN < bb g -> SMALL <= 1 / bb g -> 0 <= rho <= 1 / bb g /\
    exists r, 0 < r < 1 / bb g /\ Zc (bb g * r) * r * T * Cv g * gm1 g = P /\
     (Rabs (rho - r) <= 1 / 1000000000 \/
      exists u v, 0 <= u <= r /\ r <= v <= 1 / bb g /\ u <= rho <= v /\ 
       Rmin (Rabs (density_residual (Cv g) (gm1 g) (bb g) P T u)) (Rabs (density_residual (Cv g) (gm1 g) (bb g) P T v)) <= 1 / 1000000000)).
Proof.
  intros g P T rho (A & B & C) HP HT HcgT H. unfold DensityFromPressureTemperature, DensityFromPT in H. rewrite Rle_bool_false in H by exact HT.
  destruct (Rle_bool_spec (bb g) DBL_MIN) as [Hb|Hb].
  - split; [|lra]. intros _. rewrite ratio_pos in H by exact HcgT. injection H as <-. reflexivity.
  - split; [lra|]. intros _ HS. pose proof DBL_MIN_pos. assert (Hb0 : 0 < bb g) by lra.
    destruct (regula_falsi _ _ _ _ _ _ _) as [|[] [x|] n] eqn:E in H; try discriminate. injection H as <-.
    destruct (solve_ok _ _ _ _ _ Hb0 HP HcgT _ _ HS E) as (B1 & r & R1 & R2 & R3). rewrite Rmax_right by lra. split; [exact B1|].
    exists r. split; [exact R1|]. split; [|exact R3]. apply (root_iff _ _ _ P T); try assumption; [lra|].
    replace 1 with (bb g * (1 / bb g)) by (field; lra). apply Rmult_lt_compat_l; lra.
Qed.
(** pressure is strictly increasing in density below the covolume limit *)
Theorem C19_pressure_monotone : forall g T r1 r2, admissible g -> 0 < T -> ok_rho g r1 -> ok_rho g r2 -> r1 < r2 ->
  SMALL < PressureFromDensityTemperature g r1 T -> PressureFromDensityTemperature g r1 T < PressureFromDensityTemperature g r2 T.
Proof.
  intros g T r1 r2 (A & B & C) HT (K1 & K2 & K3 & _) (L1 & L2 & L3 & _) H HPs. pose proof tiny_pos.
  assert (M : Zc (bb g * r1) <= Zc (bb g * r2)).
  { unfold Zc. assert (E1 : 0 <= bb g * r1) by (apply Rmult_le_pos; lra). assert (E2 : bb g * r1 <= bb g * r2) by (apply Rmult_le_compat_l; lra).
    set (u := bb g * r1) in *. set (v := bb g * r2) in *.
    assert (Q1 : 0 < (1 - u) ^ 3) by (apply pow_lt; lra). assert (Q2 : 0 < (1 - v) ^ 3) by (apply pow_lt; lra).
    assert (Q3 : (1 - v) ^ 3 <= (1 - u) ^ 3) by (apply pow_incr; lra).
    assert (N0 : 0 <= 1 + u + u * u - u * u * u) by nra.
    assert (NN : 1 + u + u * u - u * u * u <= 1 + v + v * v - v * v * v).
    { assert (E : 1 + v + v * v - v * v * v - (1 + u + u * u - u * u * u) = (v - u) * (1 + (u + v) - (u * u + u * v + v * v))) by ring.
      assert (u * u <= u) by nra. assert (v * v <= v) by nra. assert (u * v <= 1) by nra. 
      assert (0 <= (v - u) * (1 + (u + v) - (u * u + u * v + v * v))) by (apply Rmult_le_pos; lra). lra. }
    unfold Rdiv. apply Rmult_le_compat; [exact N0|apply Rlt_le, Rinv_0_lt_compat; lra|exact NN|apply Rinv_le_contravar; lra]. }
  assert (Z1 : 1 <= Zc (bb g * r1)) by (apply Zc_pos; split; [apply Rmult_le_pos; lra|lra]).
  revert HPs. unfold PressureFromDensityTemperature, ZedFromDensity. rewrite !Zed_eq by lra. intros HPs.
  assert (S1 : SMALL < Zc (bb g * r1) * r1 * T * Cv g * gm1 g). { revert HPs. unfold Rmax. destruct (Rle_dec _ _); intros; lra. }
  assert (S2 : Zc (bb g * r1) * r1 * T * Cv g * gm1 g < Zc (bb g * r2) * r2 * T * Cv g * gm1 g).
  { repeat (apply Rmult_lt_compat_r; [lra|]). apply Rle_lt_trans with (Zc (bb g * r2) * r1); [apply Rmult_le_compat_r; lra|apply Rmult_lt_compat_l; lra]. }
  rewrite !Rmax_right by lra. exact S2.
Qed.
Theorem C19_floors : forall g rho x, 0 < PressureFromDensityTemperature g rho x /\ 0 < PressureFromDensityInternalEnergy g rho x /\
  0 < TemperatureFromDensityInternalEnergy g rho x /\ MinInternalEnergyFromDensity g rho <= InternalEnergyFromDensityTemperature g rho x /\
  0 < BulkModulusFromDensityTemperature g rho x /\ 0 < BulkModulusFromDensityInternalEnergy g rho x.
Proof.
  intros. assert (forall y, 0 < Rmax SMALL y) by (intros y; pose proof (Rmax_l SMALL y); pose proof SMALL_pos; lra).
  repeat split; try apply Rmax_l; apply H.
Qed.
(** FillEos from (rho,e), (rho,T), (rho,P) agrees with the scalar queries; from (P,T) it returns the solved density and the
    forward energy and temperature (its pressure is only as good as the density solve) *)
Theorem C19_FillEos : forall g DE m o s s', admissible g -> mode_of o m ->
  match m with InRhoSie => True | InRhoTemp => SMALL <= s_temp s
   | InPressTemp => False
   | InRhoPress => SMALL <= s_press s /\ tiny <= (1 - bb g * s_rho s) ^ 3 /\ tiny <= Zc (bb g * s_rho s) * s_rho s * gm1 g end ->
  FillEos g DE o s = Some s' ->
  fill_ok (TemperatureFromDensityInternalEnergy g) (PressureFromDensityInternalEnergy g) (SpecificHeat g)
          (BulkModulusFromDensityInternalEnergy g) m o s s'.
Proof.
  intros g DE m o s s' (A & B & C) Hm Hs H. refine (fill_std_ok _ _ _ _ _ _ _ m o s s' Hm _ H). destruct m; [exact I| |contradiction|].
  - apply roundtrip_T; assumption.
  - destruct Hs as (H1 & H2 & H3). unfold PressureFromDensityInternalEnergy, fill_sie_from_rho_press, ZedFromDensity. rewrite Zed_eq by exact H2.
    rewrite ratio_pos by exact H3. pose proof tiny_pos. set (w := Zc (bb g * s_rho s)) in *.
    assert (W : w * s_rho s * gm1 g <> 0) by lra.
    replace (w * s_rho s * (s_press s / (w * s_rho s * gm1 g) + qq g - qq g) * gm1 g) with (s_press s).
    + apply Rmax_right. exact H1.
    + field. repeat split; intros E; apply W; rewrite E; ring.
Qed.
(** a request that leaves fewer than two of density, temperature, energy, pressure as inputs, energy being requested, is refused
    (UNDEFINED_ERROR) and nothing is returned *)
Theorem C19_FillEos_refuses : forall g DE o s, (inputs o < 2)%nat -> f_sie o = true -> FillEos g DE o s = None.
Proof. intros g DE o s. exact (Fill_Proofs.fill_std_refuses _ _ _ _ _ _ _ o s). Qed.
(** Refuted: "every request is either filled or refused": whenever the density is requested and the energy is an input the call is
    accepted - even with the energy as the only input - and the density is left as it was *)
Theorem C58_carnahan_FillEos_density_from_energy_refuted : forall g DE o s, f_rho o = true -> f_sie o = false ->
  exists s', FillEos g DE o s = Some s' /\ s_rho s' = s_rho s.
Proof. intros g DE o s. exact (Fill_Proofs.fill_std_silent _ _ _ _ _ _ _ o s). Qed.
Example C19_FillEos_refuses_instance : (inputs (mkF true false true true true true) < 2)%nat.
Proof. cbn. lia. Qed.
(** Refuted: the reference bulk modulus stored by the constructor lacks the factor (gamma - 1), so it is not what the query
    returns at the reference state (eos_carnahan_starling.hpp:49-51, 61-63) *)
Theorem C58_carnahan_reference_bulk_modulus_refuted : exists g, make (1/2) 1 0 0 0 1 1 1 1 = Some g /\ admissible g /\
  BulkModulusFromDensityTemperature g (rho0 g) (T0 g) = gm1 g * bmod0 g /\ gm1 g * bmod0 g <> bmod0 g.
Proof.
  assert (HT : tiny < 1 / 1000000). { unfold tiny. apply Rlt_le_trans with (bpow radix2 (-20)); [apply bpow_lt; lia|]. cbn. lra. }
  pose proof SMALL_lt_tiny. assert (HD : DBL_MIN < 1). { unfold DBL_MIN. change 1 with (bpow radix2 0). apply bpow_lt. lia. } pose proof DBL_MIN_pos.
  assert (Z0 : Zed 0 2 = 1). { unfold Zed. cbv zeta. rewrite ratio_pos; [field; lra|]. replace ((1 - 0 * 2) ^ 3) with 1 by ring. lra. }
  assert (Z1 : PartialRhoZed 0 2 = 1). { unfold PartialRhoZed. cbv zeta. rewrite ratio_pos; [field; lra|]. replace ((1 - 0 * 2) ^ 4) with 1 by ring. lra. }
  eexists. unfold make, ctor, DensityFromPT. rewrite Rle_bool_false by lra. rewrite Rle_bool_true by lra.
  rewrite (ratio_pos 1 (1 * (1 / 2) * 1)) by lra. replace (1 / (1 * (1 / 2) * 1)) with 2 by field. rewrite Z0, Z1.
  unfold CheckParams. cbn [Cv gm1 bb Abar Zbar]. rewrite !Rle_bool_true, !Rlt_bool_true by lra. cbn [andb].
  split; [reflexivity|]. unfold admissible. cbn [Cv gm1 bb rho0 bmod0 T0]. split; [lra|].
  unfold BulkModulusFromDensityTemperature, ZedFromDensity, PartialRhoZedFromDensity. cbn [Cv gm1 bb rho0 bmod0 T0]. rewrite Z0, Z1.
  rewrite Rmax_right by lra. split; lra.
Qed.
(** the other stored reference values do agree with the queries (b = 0 or an exact density solve) *)
Theorem C19_reference_state : forall gm Cv0 b q qp T00 P00 A Z g dvdt_in, make gm Cv0 b q qp T00 P00 A Z = Some g -> admissible g ->
  tiny <= T00 -> tiny < (1 - b * rho0 g) ^ 3 -> SMALL < Zc (b * rho0 g) * rho0 g * T00 * Cv0 * gm ->
  exists rho T sie P cv bmod dpde,
    ValuesAtReferenceState g dvdt_in = (rho :: T :: sie :: P :: cv :: bmod :: dpde :: dvdt_in :: nil)%list /\
    DensityFromPressureTemperature g P T = Some rho /\ InternalEnergyFromDensityTemperature g rho T = sie /\
    SpecificHeat g rho T = cv /\ is_derive (fun e => PressureFromDensityInternalEnergy g rho e) sie dpde.
Proof.
  intros gm Cv0 b q qp T00 P00 A Z g dv H Hadm HT H3 HPs. unfold make, ctor in H.
  destruct (DensityFromPT _ _ _ _ _) as [r0|] eqn:ED; [|discriminate]. destruct (CheckParams _); [|discriminate].
  injection H as <-. destruct Hadm as (A1 & A2 & A3). cbn [Cv gm1 bb rho0] in *. pose proof tiny_pos.
  match goal with |- exists _ _ _ _ _ _ _, ValuesAtReferenceState ?gg _ = _ /\ _ => set (g := gg) end.
  exists r0, T00, (sie0 g), P00, Cv0, (bmod0 g), (dpde0 g). split; [reflexivity|]. split; [exact ED|].
  split; [apply (E_T_eq g A1); lra|]. split; [reflexivity|].
  apply (is_derive_eq _ _ (Zc (bb g * r0) * r0 * gm1 g)).
  - apply dP_de; [exact H3|]. change (sie0 g - qq g) with (Cv0 * T00 + q - q). change (bb g) with b. change (gm1 g) with gm.
    replace (Zc (b * r0) * r0 * (Cv0 * T00 + q - q) * gm) with (Zc (b * r0) * r0 * T00 * Cv0 * gm) by ring. exact HPs.
  - change (dpde0 g) with (r0 * Zed b r0 * gm). rewrite Zed_eq by lra. change (bb g) with b. change (gm1 g) with gm. ring.
Qed.
Theorem C44_carnahan_CheckParams : forall g, CheckParams g = true <-> 0 < Cv g /\ 0 < gm1 g /\ 0 <= bb g /\ 0 < Abar g /\ 0 < Zbar g.
Proof.
  intros g. unfold CheckParams. rewrite !andb_true_iff.
  destruct (Rlt_bool_spec 0 (Cv g)), (Rlt_bool_spec 0 (gm1 g)), (Rle_bool_spec 0 (bb g)), (Rlt_bool_spec 0 (Abar g)), (Rlt_bool_spec 0 (Zbar g));
    split; intros HH; try (exfalso; intuition (discriminate || lra); fail); intuition lra.
Qed.
(** hypotheses are met by a concrete gas with covolume *)
Example C19_instance : exists g, admissible g /\ 0 < bb g /\ ok_rho g 1 /\ tiny <= T0 g /\ tiny <= vol0 g /\ tiny < 1 / 1 - bb g /\ tiny < 400 / T0 g /\
  tiny < 1 / 1 / vol0 g /\ PressureFromDensityTemperature g 1 400 = 1040000000 /\ SMALL < PressureFromDensityInternalEnergy g 1 10 /\
  SMALL < BulkModulusFromDensityInternalEnergy g 1 10.
Proof.
  assert (HT : tiny < 1 / 1000000). { unfold tiny. apply Rlt_le_trans with (bpow radix2 (-20)); [apply bpow_lt; lia|]. cbn. lra. }
  pose proof SMALL_lt_tiny.
  exists (mkCarn 1000000 (1/5) (1/2) 0 300 1 0 1 1 0 0 0 1 1). unfold admissible, ok_rho. cbn [Cv gm1 bb qq T0 vol0].
  assert (Z3 : Zed (1/2) 1 = 13). { rewrite Zed_eq by lra. unfold Zc. field. }
  assert (Z4 : PartialRhoZed (1/2) 1 = 57). { unfold PartialRhoZed. cbv zeta. rewrite ratio_pos by lra. field. }
  unfold PressureFromDensityTemperature, PressureFromDensityInternalEnergy, BulkModulusFromDensityInternalEnergy, ZedFromDensity, PartialRhoZedFromDensity.
  cbn [Cv gm1 bb qq]. rewrite Z3, Z4.  rewrite !Rmax_right by lra. repeat split; lra.
Qed.
Print Assumptions C19_temperature_energy_round_trip.
Print Assumptions C19_entry_points_agree.
Print Assumptions C19_entropy_entry_points_agree.
Print Assumptions C19_derivatives.
Print Assumptions C19_first_law.
Print Assumptions C19_density_exists_unique.
Print Assumptions C19_density_from_PT.
Print Assumptions C19_pressure_monotone.
Print Assumptions C19_floors.
Print Assumptions C19_FillEos.
Print Assumptions C19_FillEos_refuses.
Print Assumptions C58_carnahan_FillEos_density_from_energy_refuted.
Print Assumptions C58_carnahan_reference_bulk_modulus_refuted.
Print Assumptions C19_reference_state.
Print Assumptions C44_carnahan_CheckParams.
