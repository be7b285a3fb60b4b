(** Theorems C67 (refuted claims about StellarCollapse), and concrete tables that meet the hypotheses of C65 and C66. *)
From Coq Require Import ZArith Reals List Bool Lra Lia Psatz.
From Flocq Require Import Core.
From Verif Require Import Arith Robust_Model Robust_Proofs RootFinding_Model RootFinding_Proofs Thermo_Spec Thermo_Tools FastLogs_Model FastLogs_Proofs
  SpinerUtil_Model SpinerUtil_Spec SpinerUtil_Proofs Spiner_Model Spiner_Spec Spiner_Props Stellar_Model Stellar_Spec Stellar_Proofs Stellar_Props Stellar_Build_Props.
Import ListNotations.
Local Open Scope R_scope.

(** ** A file with two points per axis: densities 1 and 10, temperatures 1 and 10 MeV, electron fractions 0 and 1; the log of the energy is
    j + 2 k, and the electron chemical potential k, at temperature j and density k; everything else is a quarter *)
Definition ex_E : arr3 := fun _ j k => IZR j + 2 * IZR k.
Definition ex_mu : arr3 := fun _ _ k => IZR k.
Definition ex_q : arr3 := fun _ _ _ => 1 / 4.
Definition ex_file : SCFile := mkFile 2 2 2 0 0 1 0 1 0 1 ex_E ex_E ex_q ex_q ex_q ex_q ex_q ex_q ex_q ex_q ex_q ex_q ex_mu ex_q ex_q ex_q ex_q.
Lemma ex_ok : file_ok ex_file. Proof. unfold file_ok, ex_file; cbn. repeat split; lia || lra. Qed.
Definition zero3 : arr3 := fun _ _ _ => 0.
Notation exs := (LoadFromStellarCollapseFile_ real_log10 zero3 ex_file false).
Definition lT0 : R := rlog10 MeV2K_.
Lemma dense2 : dense 2 = 2%Z.
Proof. unfold dense. rewrite Ztrunc_floor by lra. apply Zfloor_imp. cbn. lra. Qed.
Lemma MeVp : 10 < MeV2K_. Proof. unfold MeV2K_, MeV2GK_. lra. Qed.
Lemma NQT_id x : log10toNQT real_log10 x = x. Proof. exact (rlog_rpow x). Qed.
Lemma NQT_id' x : NQTtolog10 real_log10 x = x. Proof. exact (rlog_rpow x). Qed.
Lemma grid_id g : g_N g = 2%Z -> gridToNQT real_log10 g (dense 2) = g.
Proof. intros E. destruct g as [a b n]. cbn in E. subst n. unfold gridToNQT. cbn [g_min g_max]. rewrite !NQT_id, dense2. reflexivity. Qed.
(** with the exact logarithm this table is the file's *)
Lemma ex_lE_grids : d_Y (lE_ exs) = mkGrid 0 1 2 /\ d_T (lE_ exs) = mkGrid (0 + lT0) (1 + lT0) 2 /\ d_R (lE_ exs) = mkGrid 0 1 2.
Proof.
  cbn [lE_ LoadFromStellarCollapseFile_ dataBoxToFastLogs d_Y d_T d_R ex_file f_nY f_nT f_nR f_Y0 f_Y1 f_lT0 f_lT1 f_lR0 f_lR1].
  rewrite !grid_id by reflexivity. repeat split.
Qed.
Lemma ex_lE_at i j k : (0 <= i < 2)%Z -> (0 <= j < 2)%Z -> (0 <= k < 2)%Z -> d_at (lE_ exs) i j k = IZR j + 2 * IZR k.
Proof.
  intros Hi Hj Hk. assert (R := regrid_at real_log10 zero3 ex_file (file_table ex_file (f_logenergy ex_file)) true i j k eq_refl).
  cbn [ex_file f_nY f_nT f_nR f_Y0 f_Y1 f_lT0 f_lT1 f_lR0 f_lR1] in R. rewrite !grid_id in R by reflexivity. rewrite !dense2 in R. specialize (R Hi Hj Hk).
  cbv zeta in R. rewrite NQT_id, !NQT_id' in R.
  change (d_at (lE_ exs) i j k) with (d_at (dataBoxToFastLogs real_log10 (gridToNQT real_log10 (mkGrid (0 + rlog10 MeV2K_) (1 + rlog10 MeV2K_) 2) (dense 2)) (gridToNQT real_log10 (mkGrid 0 1 2) (dense 2)) zero3 true (file_table ex_file (f_logenergy ex_file))) i j k).
  rewrite !grid_id by reflexivity. refine (eq_trans R _).
  assert (K := interp3_node (file_table ex_file (f_logenergy ex_file)) i j k (fgood ex_file ex_ok _) (conj Hi (conj Hj Hk))).
  cbn [file_table d_Y d_T d_R d_at ex_file f_nY f_nT f_nR f_Y0 f_Y1 f_lT0 f_lT1 f_lR0 f_lR1 f_logenergy] in K. exact K.
Qed.
(** linear data on two points *)
Lemma cell2 a x : cell (mkGrid a (1 + a) 2) x = 0%Z.
Proof. assert (G : good_grid (mkGrid a (1 + a) 2)) by (split; cbn; [lia|lra]). assert (C := cell_range _ x G). cbn [g_N] in C. lia. Qed.
Lemma weight2 a x : weight (mkGrid a (1 + a) 2) x = x - a.
Proof. unfold weight. rewrite cell2. unfold g_x, g_dx. cbn [g_min g_max g_N]. replace (2 - 1)%Z with 1%Z by reflexivity. replace (1 + a - a) with 1 by ring. field. Qed.
Lemma interp2pt a u x : interp1 (mkGrid a (1 + a) 2) u x = (1 - (x - a)) * u 0%Z + (x - a) * u 1%Z.
Proof. unfold interp1, lerp. rewrite weight2, cell2. reflexivity. Qed.
Lemma ex_interp y t r : interp3 (lE_ exs) y t r = (t - lT0) + 2 * r.
Proof.
  destruct ex_lE_grids as (EY & ET & ER). unfold interp3. rewrite EY, ET, ER.
  replace (mkGrid 0 1 2) with (mkGrid 0 (1 + 0) 2) by (f_equal; ring). replace (mkGrid (0 + lT0) (1 + lT0) 2) with (mkGrid lT0 (1 + lT0) 2) by (f_equal; ring).
  rewrite !interp2pt. rewrite !ex_lE_at by lia. ring.
Qed.

Lemma ex_wf : well_formed real_log10 exs. Proof. apply (C66_loaded_object_is_well_formed real_log10 real_log10_pair zero3 ex_file false ex_ok). Qed.
Lemma tiny1 : tiny < 1 / 10. Proof. unfold tiny. apply Rlt_trans with (bpow radix2 (-4)); [apply bpow_lt; lia|]. cbn. lra. Qed.
Lemma ex_bounds : MinimumDensity real_log10 exs = 1 /\ MaximumDensity real_log10 exs = 10 /\ MinimumTemperature real_log10 exs = MeV2K_ /\ TMax real_log10 exs = 10 * MeV2K_ /\
  lTMin_ exs = lT0 /\ lTMax_ exs = 1 + lT0.
Proof.
  destruct (C66_bounds real_log10 real_log10_pair zero3 ex_file false ex_ok) as (A & B & C & D & _). cbn [f_lR0 f_lR1 f_lT0 f_lT1 ex_file] in A, B, C, D.
  assert (Z : rpow10 0 = 1) by (unfold rpow10; rewrite Rmult_0_l; apply exp_0). assert (T : rpow10 1 = 10) by (unfold rpow10; rewrite Rmult_1_l; apply exp_ln; lra).
  rewrite Z in A, C. rewrite T in B, D. repeat split; try lra.
  - destruct (wf_T _ _ ex_wf) as [-> _]. destruct ex_lE_grids as (_ & -> & _). cbn. ring.
  - destruct (wf_T _ _ ex_wf) as [_ ->]. destruct ex_lE_grids as (_ & -> & _). reflexivity.
Qed.
Lemma ex_Emin rho lam : interp2 (eCold_ exs) (l_Ye lam) (lRho_ real_log10 rho) = (1 - lRho_ real_log10 rho) * 1 + lRho_ real_log10 rho * 100 /\
  interp2 (eHot_ exs) (l_Ye lam) (lRho_ real_log10 rho) = (1 - lRho_ real_log10 rho) * 10 + lRho_ real_log10 rho * 1000.
Proof.
  destruct ex_lE_grids as (EY & ET & ER). assert (W := ex_wf).
  assert (P : forall x y, IZR x + 2 * IZR y = IZR (x + 2 * y)) by (intros; rewrite plus_IZR, mult_IZR; reflexivity).
  assert (PW : forall n, pw10 real_log10 (INR n) = 10 ^ n).
  { intros n. cbn [pw10 real_log10]. rewrite <- Rpower_pow by lra. reflexivity. }
  assert (V0 : pw10 real_log10 0 = 1) by (cbn [pw10 real_log10]; rewrite Rmult_0_l; apply exp_0). assert (V1 : pw10 real_log10 1 = 10) by (cbn [pw10 real_log10]; rewrite Rmult_1_l; apply exp_ln; lra).
  assert (V2 : pw10 real_log10 2 = 100) by (replace 2 with (INR 2) by (cbn; ring); rewrite PW; ring). assert (V3 : pw10 real_log10 3 = 1000) by (replace 3 with (INR 3) by (cbn; ring); rewrite PW; ring).
  assert (OFF : lEOffset_ exs = 0) by reflexivity.
  assert (NT : (g_N (d_T (lE_ exs)) - 1 = 1)%Z) by (rewrite ET; reflexivity).
  split; unfold interp2.
  - destruct (wf_cold_grid _ _ W) as [-> ->]. rewrite EY, ER. replace (mkGrid 0 1 2) with (mkGrid 0 (1 + 0) 2) by (f_equal; ring). rewrite !interp2pt.
    rewrite !(wf_cold _ _ W) by (rewrite ?EY, ?ER; unfold in_grid; cbn; lia). rewrite !ex_lE_at by lia. rewrite OFF.
    replace (0 + 2 * 0) with 0 by ring. replace (0 + 2 * 1) with 2 by ring. rewrite V0, V2. ring.
  - destruct (wf_hot_grid _ _ W) as [-> ->]. rewrite EY, ER. replace (mkGrid 0 1 2) with (mkGrid 0 (1 + 0) 2) by (f_equal; ring). rewrite !interp2pt.
    rewrite !(wf_hot _ _ W) by (rewrite ?EY, ?ER; unfold in_grid; cbn; lia). rewrite NT. rewrite !ex_lE_at by lia. rewrite OFF.
    replace (1 + 2 * 0) with 1 by ring. replace (1 + 2 * 1) with 3 by ring. rewrite V1, V3. ring.
Qed.
Lemma lT_rpow x : tiny <= rpow10 x -> lT_ real_log10 (rpow10 x) = x /\ lRho_ real_log10 (rpow10 x) = x.
Proof. intros H. unfold lT_, lRho_. rewrite (toLog_of real_log10) by lra. rewrite Rplus_0_r. split; exact (rlog_rpow x). Qed.
Lemma ex_energy rho T lam : InternalEnergyFromDensityTemperature real_log10 exs rho T lam = rpow10 ((lT_ real_log10 T - lT0) + 2 * lRho_ real_log10 rho).
Proof.
  unfold InternalEnergyFromDensityTemperature, atRhoT, le2e_, sc_fromLog. rewrite ex_interp. change (lEOffset_ exs) with 0. rewrite Rminus_0_r. reflexivity.
Qed.
Lemma rpow_mid_bounds : 3 < rpow10 (1 / 2) < 4.
Proof.
  assert (P := rpow10_pos (1 / 2)). assert (E : rpow10 (1 / 2) * rpow10 (1 / 2) = 10).
  { unfold rpow10. rewrite <- exp_plus. replace (1 / 2 * ln 10 + 1 / 2 * ln 10) with (ln 10) by field. apply exp_ln. lra. }
  split; nra.
Qed.

(** ** (a) The temperature of the energy of (rho, T) is not T, far beyond any tolerance: between the table's densities the minimum energy
    is the average of the energies at the neighbouring densities, which exceeds the energy at the lowest temperature, so every
    temperature in between comes back as the lowest one. Here T is three times the temperature returned, for every cached guess. *)
Theorem C67_temperature_round_trip_refuted :
  exists f rho T, file_ok f /\ let s := LoadFromStellarCollapseFile_ real_log10 zero3 f false in
    (forall i j k, in3 (lE_ s) i j k -> in3 (lE_ s) i (j + 1) k -> d_at (lE_ s) i j k < d_at (lE_ s) i (j + 1) k) /\
    MinimumDensity real_log10 s < rho < MaximumDensity real_log10 s /\ MinimumTemperature real_log10 s < T < TMax real_log10 s /\
    forall junk lam, YeMin_ s <= l_Ye lam <= YeMax_ s ->
      InternalEnergyFromDensityTemperature real_log10 s rho (MinimumTemperature real_log10 s) lam < MinInternalEnergyFromDensity real_log10 s rho lam /\
      TemperatureFromDensityInternalEnergy real_log10 s junk rho (InternalEnergyFromDensityTemperature real_log10 s rho T lam) lam = MinimumTemperature real_log10 s /\
      3 * MinimumTemperature real_log10 s < T.
Proof.
  exists ex_file, (rpow10 (1 / 2)), (rpow10 (1 / 2 + lT0)). split; [exact ex_ok|]. cbv zeta.
  destruct ex_bounds as (A & B & C & D & E & F). destruct rpow_mid_bounds as [M1 M2]. assert (TP := tiny1). assert (MP := MeVp).
  assert (TE : rpow10 (1 / 2 + lT0) = rpow10 (1 / 2) * MeV2K_).
  { unfold rpow10. rewrite Rmult_plus_distr_r, exp_plus. f_equal. exact (rpow_rlog MeV2K_ ltac:(lra)). }
  assert (TT : 3 * MeV2K_ < rpow10 (1 / 2 + lT0) < 4 * MeV2K_) by (rewrite TE; nra).
  split.
  { intros i j k (I & J & K) (_ & J' & _). destruct ex_lE_grids as (EY & ET & ER). rewrite EY in I. rewrite ET in J, J'. rewrite ER in K. unfold in_grid in *. cbn [g_N] in *.
    rewrite !ex_lE_at by lia. rewrite plus_IZR. lra. }
  rewrite A, B, C, D. split; [lra|]. split; [lra|]. intros junk lam HY.
  destruct (lT_rpow (1 / 2) ltac:(lra)) as [_ LR]. destruct (lT_rpow (1 / 2 + lT0) ltac:(lra)) as [LT _].
  assert (LT0 : lT_ real_log10 MeV2K_ = lT0). { unfold lT_. rewrite (toLog_of real_log10) by lra. rewrite Rplus_0_r. reflexivity. }
  destruct (ex_Emin (rpow10 (1 / 2)) lam) as [EM _]. rewrite LR in EM.
  split; [|split; [|lra]].
  - rewrite ex_energy. unfold MinInternalEnergyFromDensity. rewrite LR, EM, LT0. replace (lT0 - lT0 + 2 * (1 / 2)) with (1 / 2 + 1 / 2) by field.
    unfold rpow10 in *. rewrite Rmult_plus_distr_r, exp_plus. nra.
  - destruct (C65_clamped_to_table real_log10 exs junk (rpow10 (1 / 2)) (InternalEnergyFromDensityTemperature real_log10 exs (rpow10 (1 / 2)) (rpow10 (1 / 2 + lT0)) lam) lam) as [K _].
    refine (eq_trans (proj1 (K _)) C). unfold MinInternalEnergyFromDensity. rewrite ex_energy, LR, EM, LT. replace (1 / 2 + lT0 - lT0 + 2 * (1 / 2)) with (1 / 2 + 1 / 2 + 1 / 2) by field.
    unfold rpow10 in *. rewrite !Rmult_plus_distr_r, !exp_plus. set (q := exp (1 / 2 * ln 10)) in *.
    assert (q * q = 10). { unfold q. rewrite <- exp_plus. replace (1 / 2 * ln 10 + 1 / 2 * ln 10) with (ln 10) by field. apply exp_ln. lra. }
    rewrite H. lra.
Qed.

(** ** (b) Temperatures above the table's maximum come back as successes, and the temperature does not increase with the energy: below the
    maximum-energy curve (the average of the neighbours) but above the energy at the highest temperature the search leaves the table,
    while on the curve the highest temperature is returned *)
Lemma rf_hits_right (f : R -> R) y g lo hi tol : 0 <= tol -> tol < 1 / 4 -> lo < g < hi -> hi - lo = 1 -> g = lo + 1 / 2 ->
  f lo - y = - (3 / 2) -> f g - y = - (1) -> f hi - y = - (1 / 2) -> f (lo + 3 / 2) - y = 0 ->
  @regula_falsi RArith f y g lo hi tol tol = @RFDone RArith SUCCESS (Some (lo + 3 / 2)) 0.
Proof.
  intros T0 T1 G W EG Ylo Yg Yhi Yx. unfold regula_falsi, regula_falsi_fuel, rf_bracket, check_bracket, lit.
  cbn [num add sub mul div ltb leb eqb ofQ absn RArith]. cbv zeta. rewrite Ylo, Yg, Yhi.
  rewrite (Rle_bool_false (- (3 / 2) * - (1)) (0 / 1)) by lra. rewrite (Rle_bool_false (- (1) * - (1 / 2)) (0 / 1)) by lra.
  assert (SB : @set_bracket RArith (fun x => f x - y) lo g hi (- (3 / 2)) (- (1)) (- (1 / 2)) = Some (g, - (1), lo + 3 / 2, 0)).
  { unfold set_bracket. assert (SS : exists rest, @set_bracket_samples RArith lo (hi - lo) = (lo + (0 / 1 + 1 / 2) * (hi - lo)) :: (lo + (0 / 1 + 1 / 2) * (hi - lo)) :: (lo + (1 / 1 + 1 / 2) * (hi - lo)) :: rest).
    { eexists. unfold set_bracket_samples, lit. cbn [seq flat_map map app Nat.pow Nat.mul Nat.add num add sub mul ofQ RArith Z.of_nat Pos.of_succ_nat Pos.succ]. reflexivity. }
    destruct SS as [rest SS]. cbn [num sub RArith] in *. rewrite SS. cbn [find]. unfold check_bracket, lit. cbn [num leb mul ofQ ltb RArith].
    replace (lo + (0 / 1 + 1 / 2) * (hi - lo)) with g by (rewrite W, EG; field). replace (lo + (1 / 1 + 1 / 2) * (hi - lo)) with (lo + 3 / 2) by (rewrite W; field).
    rewrite Yg, Yx. rewrite (Rle_bool_false (- (1) * - (1)) (0 / 1)) by lra. rewrite (Rle_bool_true (0 * - (1)) (0 / 1)) by lra.
    rewrite (Rlt_bool_false (lo + 3 / 2) g) by lra. rewrite ?Yx. reflexivity. }
  cbn [num sub RArith] in SB. rewrite SB. rewrite (Rlt_bool_true (- (1)) (0 / 1)) by lra.
  replace SECANT_NITER_MAX with (S (Nat.pred SECANT_NITER_MAX)) by reflexivity. generalize (Nat.pred SECANT_NITER_MAX) as N. intros N.
  rewrite rf_loop_go.
  2: { unfold rf_cond, lit; cbn [rf_a rf_b rf_ya rf_yb rf_it ltb absn sub mul ofQ RArith].
       rewrite (Rlt_bool_true (2 / 1 * tol) (lo + 3 / 2 - g)) by lra. rewrite (Rlt_bool_true tol (Rabs (- (1) * (1 / 1)))) by (rewrite Rabs_left; lra). reflexivity. }
  unfold rf_step; cbn [rf_a rf_b rf_ya rf_yb rf_b1 rf_b2 rf_it num add sub mul div eqb ltb ofQ RArith]. cbv zeta. unfold lit. cbn [ofQ RArith].
  replace ((g * (0 * (1 / 1)) - (lo + 3 / 2) * (- (1) * (1 / 1))) / (0 * (1 / 1) - - (1) * (1 / 1))) with (lo + 3 / 2) by field.
  rewrite (Req_bool_false (lo + 3 / 2) g) by lra. rewrite (Req_bool_true (lo + 3 / 2) (lo + 3 / 2)) by reflexivity.
  rewrite rf_loop_stop.
  2: { unfold rf_cond, lit; cbn [rf_a rf_b rf_ya rf_yb rf_it ltb absn sub mul ofQ RArith].
       rewrite (Rlt_bool_false (2 / 1 * tol) (lo + 3 / 2 - (lo + 3 / 2))) by lra. reflexivity. }
  cbn [rf_it rf_a rf_b Nat.eqb]. f_equal. f_equal. field.
Qed.
Theorem C67_temperature_leaves_table_refuted :
  exists f rho e1 e2 lam, file_ok f /\ let s := LoadFromStellarCollapseFile_ real_log10 zero3 f false in
    MinimumDensity real_log10 s < rho < MaximumDensity real_log10 s /\ YeMin_ s <= l_Ye lam <= YeMax_ s /\ e1 < e2 /\
    forall junk,
      snd (lTFromlRhoSie_ real_log10 s junk (lRho_ real_log10 rho) e1 lam) = SUCCESS /\
      3 * TMax real_log10 s < TemperatureFromDensityInternalEnergy real_log10 s junk rho e1 lam /\
      TemperatureFromDensityInternalEnergy real_log10 s junk rho e2 lam = TMax real_log10 s.
Proof.
  exists ex_file, (rpow10 (1 / 2)), (rpow10 (5 / 2)), 505, (mkLam (1 / 2) (Some (lT0 + 1 / 2))). split; [exact ex_ok|]. cbv zeta.
  destruct ex_bounds as (A & B & C & D & E & F). assert (M := rpow_mid_bounds). assert (TP := tiny1). assert (MP := MeVp).
  assert (PL : forall x y, rpow10 (x + y) = rpow10 x * rpow10 y) by (intros; unfold rpow10; rewrite Rmult_plus_distr_r; apply exp_plus).
  assert (T1 : rpow10 1 = 10) by (unfold rpow10; rewrite Rmult_1_l; apply exp_ln; lra).
  assert (E1 : rpow10 (5 / 2) = 100 * rpow10 (1 / 2)). { replace (5 / 2) with (1 + 1 + 1 / 2) by field. rewrite !PL, T1. ring. }
  destruct (lT_rpow (1 / 2) ltac:(lra)) as [_ LR].
  rewrite A, B, D. split; [lra|]. split; [cbn; lra|]. split; [lra|]. intros junk.
  destruct (ex_Emin (rpow10 (1 / 2)) (mkLam (1 / 2) (Some (lT0 + 1 / 2)))) as [CO HO]. rewrite LR in CO, HO.
  assert (K : table_root (fun x => interp3 (lE_ exs) (1 / 2) x (1 / 2)) (5 / 2) (lT0 + 1 / 2) lT0 (1 + lT0) ROOT_THRESH (lT0 + 1 / 2) = (lT0 + 3 / 2, SUCCESS)).
  { unfold table_root. rewrite (rf_hits_right (fun x => interp3 (lE_ exs) (1 / 2) x (1 / 2)) (5 / 2) (lT0 + 1 / 2) lT0 (1 + lT0) ROOT_THRESH); try (rewrite ?ex_interp; unfold ROOT_THRESH; lra). reflexivity. }
  assert (R : lTFromlRhoSie_ real_log10 exs junk (lRho_ real_log10 (rpow10 (1 / 2))) (rpow10 (5 / 2)) (mkLam (1 / 2) (Some (lT0 + 1 / 2))) = (lT0 + 3 / 2, mkLam (1 / 2) (Some (lT0 + 3 / 2)), SUCCESS)).
  { unfold lTFromlRhoSie_. cbv zeta. rewrite LR. rewrite CO, HO. rewrite Rle_bool_false by lra. rewrite Rle_bool_false by lra. cbn [l_lT l_Ye]. rewrite E, F.
    rewrite (Rle_bool_true lT0 (lT0 + 1 / 2)) by lra. rewrite (Rle_bool_true (lT0 + 1 / 2) (1 + lT0)) by lra. cbn [andb negb].
    replace (e2le_ real_log10 exs (rpow10 (5 / 2))) with (5 / 2).
    2: { unfold e2le_. change (lEOffset_ exs) with 0. rewrite (toLog_of real_log10) by lra. rewrite Rplus_0_r. symmetry. exact (rlog_rpow (5 / 2)). }
    rewrite K. reflexivity. }
  split; [rewrite R; reflexivity|]. split.
  - unfold TemperatureFromDensityInternalEnergy. rewrite R. cbn [fst]. unfold T_, sc_fromLog. change (pw10 real_log10) with rpow10.
    replace (lT0 + 3 / 2) with (lT0 + 1 + 1 / 2) by field. rewrite !PL, T1. unfold lT0. rewrite rpow_rlog by lra. nra.
  - destruct (C65_clamped_to_table real_log10 exs junk (rpow10 (1 / 2)) 505 (mkLam (1 / 2) (Some (lT0 + 1 / 2)))) as [_ Q].
    refine (eq_trans (proj1 (Q _ _)) D); unfold MinInternalEnergyFromDensity; rewrite LR, ?CO, ?HO; lra.
Qed.

(** ** (c) Chemical potentials are interpolated at the wrong place: their tables keep the file's log10 axes, but they are looked up with the
    fast logarithm (here both portable variants). At the highest density of the file, log10 rho = 1, the electron chemical potential of
    the file is 1 for every temperature and electron fraction; the query returns something else. *)
Lemma frexp10 : frexp_e 10 = 4%Z /\ frexp_m 10 = 5 / 8.
Proof.
  assert (K := frexp_unique (5 / 8) 4 ltac:(lra)). replace (5 / 8 * bpow radix2 4) with 10 in K by (cbn; field). exact K.
Qed.
Definition mu_e_of (r : R * R * R * R * R) : R := fst (fst (fst (fst r))).
Theorem C67_chemical_potentials_refuted :
  exists f, file_ok f /\ f_lR1 f = 1 /\ (forall i j, f_mu_e f i j (f_nR f - 1)%Z = 1) /\ (forall i j, f_mu_e f i j 0%Z = 0) /\
    forall L scratch smooth T lam,
      (lg10 L = fm_log10 lg_o1_portable -> mu_e_of (ChemicalPotentialsFromDensityTemperature L (LoadFromStellarCollapseFile_ L scratch f smooth) 10 T lam) < 98 / 100) /\
      (lg10 L = fm_log10 lg_o2_portable -> mu_e_of (ChemicalPotentialsFromDensityTemperature L (LoadFromStellarCollapseFile_ L scratch f smooth) 10 T lam) < 998 / 1000).
Proof.
  exists ex_file. split; [exact ex_ok|]. split; [reflexivity|]. split; [reflexivity|]. split; [reflexivity|]. intros L scratch smooth T lam.
  assert (V : mu_e_of (ChemicalPotentialsFromDensityTemperature L (LoadFromStellarCollapseFile_ L scratch ex_file smooth) 10 T lam) = lg10 L 10).
  { unfold ChemicalPotentialsFromDensityTemperature, mu_e_of, atRhoT, interp3. cbn [fst mu_e_ LoadFromStellarCollapseFile_ d_Y d_T d_R d_at ex_file f_nR f_nT f_nY f_lR0 f_lR1 f_mu_e]. unfold ex_mu.
    rewrite !interp1_const. replace (mkGrid 0 1 2) with (mkGrid 0 (1 + 0) 2) by (f_equal; ring). rewrite interp2pt. unfold lRho_, sc_toLog. rewrite Rmax_left by lra. rewrite Rabs_pos_eq by lra.
    assert (TP := tiny1). rewrite plus_small_eq by lra. replace (10 + 0) with 10 by ring. ring. }
  rewrite V. destruct frexp10 as [FE FM]. unfold fm_log10, lg_o1_portable, lg_o2_portable, LOG2OLOG10. split; intros ->; rewrite FE, FM; cbn; lra.
Qed.

(** ** (d) FillEos asked for the temperature, given density and energy, reports success and leaves the temperature as it was, in every state
    and for every object; here that is not the temperature of that energy *)
Theorem C67_FillEos_temperature_refuted :
  (forall L s junk o st lam, f_rho o = false -> f_temp o = true -> f_sie o = false ->
     exists st', FillEos L s junk o st lam = Some st' /\ s_temp st' = s_temp st) /\
  (exists f o st lam, file_ok f /\ f_rho o = false /\ f_temp o = true /\ f_sie o = false /\ forall junk, exists st',
     FillEos real_log10 (LoadFromStellarCollapseFile_ real_log10 zero3 f false) junk o st lam = Some st' /\
     s_temp st' <> TemperatureFromDensityInternalEnergy real_log10 (LoadFromStellarCollapseFile_ real_log10 zero3 f false) junk (s_rho st) (s_sie st) lam).
Proof.
  split.
  - intros L s junk [fr ft fs fp fc fb] [r t e p c b] lam H1 H2 H3. cbn in H1, H2, H3. subst. unfold FillEos. cbn [f_rho f_temp f_sie f_press f_cv f_bmod orb negb].
    eexists. split; [reflexivity|]. unfold cond_upd. destruct fp, fc, fb; reflexivity.
  - exists ex_file, (mkF false true false false false false), (mkS 1 0 0 0 0 0), (mkLam 0 None). split; [exact ex_ok|]. repeat (split; [reflexivity|]). intros junk.
    eexists. split; [reflexivity|]. cbn [s_temp s_rho s_sie upd_press upd_cv upd_bmod cond_upd f_press f_cv f_bmod f_sie].
    destruct ex_bounds as (A & B & C & D & E & F). assert (MP := MeVp). assert (TP := tiny1).
    destruct (C65_clamped_to_table real_log10 exs junk 1 0 (mkLam 0 None)) as [K _].
    assert (Z0 : 0 <= MinInternalEnergyFromDensity real_log10 exs 1 (mkLam 0 None)).
    { unfold MinInternalEnergyFromDensity. destruct (ex_Emin 1 (mkLam 0 None)) as [-> _].
      replace (lRho_ real_log10 1) with 0; [lra|]. unfold lRho_. rewrite (toLog_of real_log10) by lra. rewrite Rplus_0_r. cbn. rewrite ln_1. unfold Rdiv. ring. }
    rewrite (proj1 (K Z0)). rewrite C. unfold cond_upd. cbn. lra.
Qed.

(** The reference state is the queries at its own density, temperature and electron fraction, whatever the object; the lambda it leaves
    holds that electron fraction and log temperature. Its last entry is dP/dT over rho^2 dP/drho, the table's dP/drho being the one at
    constant energy. *)
Theorem C65_reference_state : forall L s, let '(l, Ye, lT) := ValuesAtReferenceState L s in
  let lam := mkLam Ye (Some lT) in
  exists rho T dpde dvdt, l = [rho; T; InternalEnergyFromDensityTemperature L s rho T lam; PressureFromDensityTemperature L s rho T lam;
      SpecificHeatFromDensityTemperature L s rho T lam; BulkModulusFromDensityTemperature L s rho T lam; dpde; dvdt] /\
    rho = 2 * 10 ^ 12 /\ 0 < T /\ Ye = 3517 / 10000 /\ lamRhoT L rho T lam = lam /\
    (0 <= dpde -> dpde = GruneisenParamFromDensityTemperature L s rho T lam * (rho + EPS)) /\
    (let slope := interp3 (dPdRho_ s) Ye (lT_ L T) (lRho_ L rho) in
     slope <> 0 -> dvdt * (rho * rho * slope) = dpde * SpecificHeatFromDensityTemperature L s rho T lam).
Proof.
  intros L s. cbn [ValuesAtReferenceState]. eexists _, _, _, _. split; [reflexivity|].
  assert (R2 : rhoNormal_ = 2 * 10 ^ 12) by (unfold rhoNormal_; lra).
  split; [exact R2|]. split; [unfold TNormal_, GK2MeV_, MeV2GK_; lra|]. split; [reflexivity|]. split; [reflexivity|]. split.
  - intros D. unfold GruneisenParamFromDensityTemperature, atRhoT. cbn [l_Ye]. rewrite (Rabs_pos_eq _ D).
    assert (E0 : 0 < EPS) by (unfold EPS; assert (X := bpow_gt_0 radix2 (-52)); lra). rewrite (Rabs_pos_eq rhoNormal_) by lra. field. lra.
  - intros N. unfold SpecificHeatFromDensityTemperature, atRhoT. cbn [l_Ye]. field. split; [exact N|lra].
Qed.

(** ** (e) The reference temperature, 5 GK, is expressed in MeV, while every query takes K: it is below one kelvin, outside the table of
    every file whose lowest temperature is above 4e-11 MeV (the public tables start near 1e-2) *)
Theorem C67_reference_temperature_refuted : forall L scratch f smooth, is_log_pair L -> file_ok f -> -10 <= f_lT0 f ->
  let s := LoadFromStellarCollapseFile_ L scratch f smooth in
  nth 1 (fst (fst (ValuesAtReferenceState L s))) 0 * MeV2K_ = 5 * 1000000000 /\
  nth 1 (fst (fst (ValuesAtReferenceState L s))) 0 < 1 < MinimumTemperature L s.
Proof.
  intros L scratch f smooth HL OK H s. destruct (C66_bounds L HL scratch f smooth OK) as (_ & _ & MT & _). fold s in MT. rewrite MT. cbn [ValuesAtReferenceState fst nth].
  unfold TNormal_, GK2MeV_. assert (MV : MeV2K_ = 11604525006) by (unfold MeV2K_, MeV2GK_; field). rewrite MV. unfold MeV2GK_. split; [field|]. split; [lra|].
  assert (P : rpow10 (-10) <= rpow10 (f_lT0 f)). { destruct H as [H|H]; [left; apply rpow10_incr, H|rewrite H; lra]. }
  assert (Q : rpow10 (-10) = / 10000000000). { unfold rpow10. replace (-10 * ln 10) with (- (INR 10 * ln 10)) by (cbn; ring). rewrite exp_Ropp. f_equal. change (exp (INR 10 * ln 10)) with (Rpower 10 (INR 10)). rewrite Rpower_pow by lra. cbn. ring. }
  rewrite Q in P. lra.
Qed.

(** ** Non-vacuity: the table above at a grid density meets the hypotheses of C65, and its search succeeds *)
Example C65_ex_round_trip : forall junk, let lam := mkLam (1 / 2) (Some (lT0 + 1 / 2)) in let rho := 1 in let T := rpow10 (lT0 + 1 / 2) in
  let e := InternalEnergyFromDensityTemperature real_log10 exs rho T lam in
  tiny <= MinimumTemperature real_log10 exs /\ MinimumTemperature real_log10 exs <= T <= TMax real_log10 exs /\
  tiny <= e + lEOffset_ exs /\ MinInternalEnergyFromDensity real_log10 exs rho lam < e < interp2 (eHot_ exs) (l_Ye lam) (lRho_ real_log10 rho) /\
  snd (lTFromlRhoSie_ real_log10 exs junk (lRho_ real_log10 rho) e lam) = SUCCESS /\
  TemperatureFromDensityInternalEnergy real_log10 exs junk rho e lam = T.
Proof.
  intros junk lam rho T e. destruct ex_bounds as (A & B & C & D & E & F). assert (M := rpow_mid_bounds). assert (TP := tiny1). assert (MP := MeVp).
  assert (PL : forall x y, rpow10 (x + y) = rpow10 x * rpow10 y) by (intros; unfold rpow10; rewrite Rmult_plus_distr_r; apply exp_plus).
  assert (TE : T = MeV2K_ * rpow10 (1 / 2)). { unfold T. rewrite PL. f_equal. unfold lT0. apply rpow_rlog. lra. }
  assert (LR : lRho_ real_log10 rho = 0). { unfold rho, lRho_. rewrite (toLog_of real_log10) by lra. rewrite Rplus_0_r. cbn. rewrite ln_1. unfold Rdiv. ring. }
  assert (LT : lT_ real_log10 T = lT0 + 1 / 2). { apply lT_rpow. fold T. nra. }
  assert (EE : e = rpow10 (1 / 2)). { unfold e. rewrite ex_energy, LR, LT. f_equal. field. }
  destruct (ex_Emin rho lam) as [CO HO]. rewrite LR in CO, HO.
  assert (R : lTFromlRhoSie_ real_log10 exs junk (lRho_ real_log10 rho) e lam = (lT0 + 1 / 2, lam, SUCCESS)).
  { unfold lTFromlRhoSie_. cbv zeta. rewrite LR, CO, HO, EE. rewrite Rle_bool_false by lra. rewrite Rle_bool_false by lra. cbn [l_lT l_Ye lam]. rewrite E, F.
    rewrite (Rle_bool_true lT0 (lT0 + 1 / 2)) by lra. rewrite (Rle_bool_true (lT0 + 1 / 2) (1 + lT0)) by lra. cbn [andb negb].
    replace (e2le_ real_log10 exs (rpow10 (1 / 2))) with (1 / 2).
    2: { unfold e2le_. change (lEOffset_ exs) with 0. rewrite (toLog_of real_log10) by lra. rewrite Rplus_0_r. symmetry. exact (rlog_rpow (1 / 2)). }
    unfold table_root. assert (RF : @regula_falsi RArith (fun x : R => interp3 (lE_ exs) (1 / 2) x 0) (1 / 2) (lT0 + 1 / 2) lT0 (1 + lT0) ROOT_THRESH ROOT_THRESH = @RFDone RArith SUCCESS (Some (lT0 + 1 / 2)) 0).
    { unfold regula_falsi, regula_falsi_fuel, rf_bracket, check_bracket, lit. cbn [num add sub mul div ltb leb eqb ofQ absn RArith]. cbv zeta. rewrite !ex_interp.
      replace (lT0 - lT0 + 2 * 0 - 1 / 2) with (- (1 / 2)) by field. replace (lT0 + 1 / 2 - lT0 + 2 * 0 - 1 / 2) with 0 by field.
      rewrite (Rle_bool_true (- (1 / 2) * 0) (0 / 1)) by lra. rewrite (Rlt_bool_true (- (1 / 2)) (0 / 1)) by lra.
      replace SECANT_NITER_MAX with (S (Nat.pred SECANT_NITER_MAX)) by reflexivity. generalize (Nat.pred SECANT_NITER_MAX) as N. intros N.
      assert (RT : 0 <= ROOT_THRESH < 1 / 100) by (unfold ROOT_THRESH; lra).
      rewrite rf_loop_go.
      2: { unfold rf_cond, lit; cbn [rf_a rf_b rf_ya rf_yb rf_it ltb absn sub mul ofQ RArith].
           rewrite (Rlt_bool_true (2 / 1 * ROOT_THRESH) (lT0 + 1 / 2 - lT0)) by lra. rewrite (Rlt_bool_true ROOT_THRESH (Rabs (- (1 / 2) * (1 / 1)))) by (rewrite Rabs_left; lra). reflexivity. }
      unfold rf_step; cbn [rf_a rf_b rf_ya rf_yb rf_b1 rf_b2 rf_it num add sub mul div eqb ltb ofQ RArith]. cbv zeta. unfold lit. cbn [ofQ RArith].
      replace ((lT0 * (0 * (1 / 1)) - (lT0 + 1 / 2) * (- (1 / 2) * (1 / 1))) / (0 * (1 / 1) - - (1 / 2) * (1 / 1))) with (lT0 + 1 / 2) by field.
      rewrite (Req_bool_false (lT0 + 1 / 2) lT0) by lra. rewrite (Req_bool_true (lT0 + 1 / 2) (lT0 + 1 / 2)) by reflexivity.
      rewrite rf_loop_stop.
      2: { unfold rf_cond, lit; cbn [rf_a rf_b rf_ya rf_yb rf_it ltb absn sub mul ofQ RArith].
           rewrite (Rlt_bool_false (2 / 1 * ROOT_THRESH) (lT0 + 1 / 2 - (lT0 + 1 / 2))) by lra. reflexivity. }
      cbn [rf_it rf_a rf_b Nat.eqb]. f_equal. f_equal. field. }
    rewrite RF. reflexivity. }
  unfold MinInternalEnergyFromDensity. rewrite LR, CO, HO, C, D, EE. change (lEOffset_ exs) with 0.
  split; [lra|]. split; [rewrite TE; nra|]. split; [lra|]. split; [lra|].
  rewrite LR, EE in R. split; [rewrite R; reflexivity|]. unfold TemperatureFromDensityInternalEnergy. rewrite LR, R. cbn [fst]. unfold T_, sc_fromLog. rewrite Rminus_0_r. reflexivity.
Qed.
Print Assumptions C67_temperature_round_trip_refuted.
Print Assumptions C67_temperature_leaves_table_refuted.
Print Assumptions C67_chemical_potentials_refuted.
Print Assumptions C67_FillEos_temperature_refuted.
Print Assumptions C65_reference_state.
Print Assumptions C67_reference_temperature_refuted.
