(** Theorems C42 (tabulated EOS queries) and C53 (what a user would also expect of them and is false). *)
From Coq Require Import ZArith Reals Lra Lia List Bool.
From Flocq Require Import Core.
From Verif Require Import Arith Robust_Model RootFinding_Model RootFinding_Proofs Thermo_Spec Thermo_Tools
  SpinerUtil_Model SpinerUtil_Spec SpinerUtil_Proofs Spiner_Model Spiner_Spec.
Import ListNotations.
Local Open Scope R_scope.

Lemma split_bracket (p q g : R) : p * q <= 0 -> p * g <= 0 \/ g * q <= 0.
Proof.
  intros H. destruct (Rle_or_lt (p * g) 0) as [A|A]; [left; exact A|]. right.
  destruct (Rle_or_lt (g * q) 0) as [B|B]; [exact B|exfalso].
  assert (0 < (p * g) * (g * q)) by (apply Rmult_lt_0_compat; assumption).
  assert (0 <= g * g) by nra. assert ((p * g) * (g * q) = (p * q) * (g * g)) by ring. nra.
Qed.
Lemma rf_some (f : R -> R) y g lo hi tol : 0 <= tol -> lo <= g <= hi -> (f lo - y) * (f hi - y) <= 0 ->
  exists st x n, @regula_falsi RArith f y g lo hi tol tol = RFDone st (Some x) n.
Proof.
  intros Ht Hg HB. 
  assert (D := @regula_falsi_terminates RArith f y g lo hi tol tol (eq_width_stops_R _ Ht)).
  destruct (@regula_falsi RArith f y g lo hi tol tol) as [|st x n] eqn:E; [contradiction|].
  exists st. destruct x as [x|]; [exists x, n; reflexivity|exfalso]. clear D.
  revert E. unfold regula_falsi, regula_falsi_fuel, rf_bracket, check_bracket, lit.
  cbn [num add sub mul div ltb leb eqb ofQ RArith]. cbv zeta.
  destruct (split_bracket _ _ (f g - y) HB) as [A|A].
  - rewrite Rle_bool_true by lra. match goal with |- context [match ?l with Some _ => _ | None => _ end] => destruct l end; discriminate.
  - destruct (Rle_bool ((f lo - y) * (f g - y)) (0 / 1)).
    + match goal with |- context [match ?l with Some _ => _ | None => _ end] => destruct l end; discriminate.
    + rewrite Rle_bool_true by lra. match goal with |- context [match ?l with Some _ => _ | None => _ end] => destruct l end; discriminate.
Qed.
Lemma table_root_spec f y g lo hi tol fb : 0 <= tol -> lo <= g <= hi -> lo <= fb <= hi -> (f lo - y) * (f hi - y) <= 0 ->
  continuous_on f lo hi ->
  lo <= fst (table_root f y g lo hi tol fb) <= hi /\
  (snd (table_root f y g lo hi tol fb) = SUCCESS -> encloses_root f y lo hi tol (fst (table_root f y g lo hi tol fb))) /\
  (snd (table_root f y g lo hi tol fb) = FAIL -> fst (table_root f y g lo hi tol fb) = fb).
Proof.
  intros Ht Hg Hf HB HC. destruct (rf_some f y g lo hi tol Ht Hg HB) as (st & x & n & E). unfold table_root. rewrite E.
  destruct st; cbn.
  - assert (K := rf_root_near f y g lo hi tol tol x n Hg Ht Ht HC (split_bracket _ _ _ HB) E).
    split; [exact (proj1 K)|]. split; [intros _; exact K|discriminate].
  - split; [exact Hf|]. split; [discriminate|reflexivity].
Qed.

(** ** The density-energy table class *)
Section RhoSie_Props.
Variable L : LogPair.
Hypothesis HL : is_log_pair L.
Variable s : RS.

(** above the table's highest pressure at this temperature the density follows the straight line with the slope stored for
    the last table point; it starts at the largest table density (up to the guard EPS of the log coordinate) *)
Theorem C42_rs_extrapolation : forall junk P T lam,
  let lT := to_log L T (rs_TOff s) in
  0 < rs_dPdRhoMax s lT -> rs_PlRhoMax s lT < P -> - rs_rhoOff s <= rs_rhoMax s ->
  let '(rho, e) := rs_DensityEnergyFromPressureTemperature L s junk P T lam in
  rs_PlRhoMax s lT + rs_dPdRhoMax s lT * (rho - EPS - rs_rhoMax s) = P /\ rs_rhoMax s < rho /\
  e = rs_InternalEnergyFromDensityTemperature L s (rho - EPS) T.
Proof.
  intros junk P T lam lT H1 H2 H3. unfold rs_DensityEnergyFromPressureTemperature, rs_lRhoFromPlT_. fold lT.
  rewrite (Rlt_bool_true 0 (rs_dPdRhoMax s lT) H1), (Rlt_bool_true _ _ H2). cbn [andb fst snd].
  assert (0 < (P - rs_PlRhoMax s lT) / rs_dPdRhoMax s lT) by (apply Rdiv_lt_0_compat; lra).
  rewrite from_to by (exact HL || lra). assert (E := EPSpos). split; [|split].
  - field. lra.
  - lra.
  - unfold rs_InternalEnergyFromDensityTemperature, interpRhoT_. fold lT. f_equal. f_equal. ring.
Qed.
(** otherwise the density is looked up in the table between the density of minimum pressure and the largest density: it is in
    that range for every guess, cached or not, and encloses a solution of P(rho, T) = P whenever the search reports success *)
Theorem C42_rs_inversion : forall junk P lT lam,
  let lo := to_log L (rs_rhoPMin s lT) (rs_rhoOff s) in
  let hi := rs_lRhoMax s in
  let p := fun l => t_P (rs_rT s) l lT in
  (rs_PlRhoMax s lT < P -> rs_dPdRhoMax s lT <= 0) -> lo <= hi -> continuous_on p lo hi -> (p lo - P) * (p hi - P) <= 0 ->
  let '(l, lam', st) := rs_lRhoFromPlT_ L s junk P lT lam in
  lo <= l <= hi /\ (st = SUCCESS -> encloses_root p P lo hi EPS l) /\
  (lam' = match lam with Some _ => Some l | None => None end).
Proof.
  intros junk P lT lam lo hi p H1 H2 H3 H4. unfold rs_lRhoFromPlT_. fold lo. 
  set (cache := match lam with Some c => c | None => junk end). cbv zeta. fold hi.
  replace (Rlt_bool 0 (rs_dPdRhoMax s lT) && Rlt_bool (rs_PlRhoMax s lT) P)%bool with false.
  2: { symmetry. case (Rlt_bool_spec (rs_PlRhoMax s lT) P); intros A; [rewrite Rlt_bool_false; [reflexivity|auto]|apply andb_false_r]. }
  set (g0 := if rs_repro s then hi else 1 / 2 * (lo + hi)).
  set (g := if (Rle_bool lo cache && Rle_bool cache hi)%bool then cache else g0).
  assert (G0 : lo <= g0 <= hi) by (unfold g0; destruct (rs_repro s); lra).
  assert (G : lo <= g <= hi).
  { unfold g. case (Rle_bool_spec lo cache); intros A; cbn [andb]; [|exact G0]. case (Rle_bool_spec cache hi); intros B; [lra|exact G0]. }
  destruct (table_root_spec p P g lo hi EPS (if rs_repro s then hi else g)) as (K1 & K2 & _).
  - apply Rlt_le, EPSpos. - exact G. - destruct (rs_repro s); lra. - exact H4. - exact H3.
  - fold p. destruct (table_root p P g lo hi EPS (if rs_repro s then hi else g)) as [l st]. cbn [fst snd] in *.
    split; [exact K1|]. split; [exact K2|reflexivity].
Qed.

(** the two families of tables describe the same material at (rho, T): the (rho, sie) tables evaluated at the energy of that
    state give the same values *)
Definition same_material_at (rho T : R) : Prop :=
  let e := rs_InternalEnergyFromDensityTemperature L s rho T in
  let a := to_log L rho (rs_rhoOff s) in let b := to_log L T (rs_TOff s) in
  let c := to_log L (rs_transform s e rho) (rs_eOff s) in
  t_P (rs_rE s) a c = t_P (rs_rT s) a b /\ t_bMod (rs_rE s) a c = t_bMod (rs_rT s) a b /\
  t_dTdE (rs_rE s) a c = t_dTdE (rs_rT s) a b /\ t_dPdE (rs_rE s) a c = t_dPdE (rs_rT s) a b /\
  rs_T s a c = T.
Theorem C42_rs_entry_points_agree : forall rho T, same_material_at rho T ->
  let e := rs_InternalEnergyFromDensityTemperature L s rho T in
  rs_TemperatureFromDensityInternalEnergy L s rho e = T /\
  rs_PressureFromDensityInternalEnergy L s rho e = rs_PressureFromDensityTemperature L s rho T /\
  rs_SpecificHeatFromDensityInternalEnergy L s rho e = rs_SpecificHeatFromDensityTemperature L s rho T /\
  rs_BulkModulusFromDensityInternalEnergy L s rho e = rs_BulkModulusFromDensityTemperature L s rho T /\
  ((forall e rho, rs_transform s e rho = e) ->
     rs_GruneisenParamFromDensityInternalEnergy L s rho e = rs_GruneisenParamFromDensityTemperature L s rho T /\
     forall old n, rs_MassFractionsFromDensityInternalEnergy L s rho e old n = rs_MassFractionsFromDensityTemperature L s rho T old n).
Proof.
  intros rho T H e. destruct H as (H1 & H2 & H3 & H4 & H5). fold e in H1, H2, H3, H4, H5.
  split; [exact H5|]. split; [exact H1|]. 
  split; [unfold rs_SpecificHeatFromDensityInternalEnergy, rs_SpecificHeatFromDensityTemperature, interpRhoSie_, interpRhoT_; rewrite H3; reflexivity|].
  split; [exact H2|]. intros N. rewrite N in H4, H5. split.
  - unfold rs_GruneisenParamFromDensityInternalEnergy, rs_GruneisenParamFromDensityTemperature, interpRhoT_. rewrite H4. reflexivity.
  - intros old n. unfold rs_MassFractionsFromDensityInternalEnergy, rs_MassFractionsFromDensityTemperature. rewrite H5. reflexivity.
Qed.

(** FillEos returns exactly what the scalar queries return, from each of its three pairs of inputs *)
Theorem C42_rs_fill_rho_sie : forall junk lam o st, f_rho o = false -> f_sie o = false -> f_temp o = true ->
  exists st', rs_FillEos L s junk lam o st = Some st' /\ fill_frame o st st' /\
    let rho := s_rho st in let e := s_sie st in
    s_temp st' = rs_TemperatureFromDensityInternalEnergy L s rho e /\
    (f_press o = true -> s_press st' = rs_PressureFromDensityInternalEnergy L s rho e) /\
    (f_cv o = true -> s_cv st' = rs_SpecificHeatFromDensityInternalEnergy L s rho e) /\
    (f_bmod o = true -> s_bmod st' = rs_BulkModulusFromDensityInternalEnergy L s rho e).
Proof.
  intros junk lam [r t e p c b] st. cbn. intros -> -> ->. unfold rs_FillEos. cbn. eexists. split; [reflexivity|].
  unfold fill_frame, cond_upd. cbn. destruct p, c, b; cbn; repeat split; intros; congruence.
Qed.
Theorem C42_rs_fill_rho_temp : forall junk lam o st, f_rho o = false -> f_temp o = false -> f_sie o = true ->
  exists st', rs_FillEos L s junk lam o st = Some st' /\ fill_frame o st st' /\
    let rho := s_rho st in let T := s_temp st in
    s_sie st' = rs_InternalEnergyFromDensityTemperature L s rho T /\
    (f_press o = true -> s_press st' = rs_PressureFromDensityTemperature L s rho T) /\
    (f_cv o = true -> s_cv st' = rs_SpecificHeatFromDensityTemperature L s rho T) /\
    (f_bmod o = true -> s_bmod st' = rs_BulkModulusFromDensityTemperature L s rho T).
Proof.
  intros junk lam [r t e p c b] st. cbn. intros -> -> ->. unfold rs_FillEos. cbn. eexists. split; [reflexivity|].
  unfold fill_frame, cond_upd. cbn. destruct p, c, b; cbn; repeat split; intros; congruence.
Qed.
Theorem C42_rs_fill_press_temp : forall junk lam o st,
  f_rho o = true -> f_temp o = false -> f_press o = false -> f_sie o = true ->
  exists st', rs_FillEos L s junk lam o st = Some st' /\ fill_frame o st st' /\
    (s_rho st', s_sie st') = rs_DensityEnergyFromPressureTemperature L s junk (s_press st) (s_temp st) lam.
Proof.
  intros junk lam [r t e p c b] st. cbn. intros -> -> -> ->. unfold rs_FillEos. cbn. eexists. split; [reflexivity|].
  unfold fill_frame, cond_upd. cbn. destruct c, b; cbn; repeat split; intros; congruence.
Qed.
(** and refuses contradictory requests *)
Theorem C42_rs_fill_refuses : forall junk lam o st,
  (f_rho o = false /\ f_temp o = false /\ f_sie o = false /\ f_press o = false /\ f_cv o = false /\ f_bmod o = false) \/
  (f_temp o = true /\ f_sie o = true) \/ (f_rho o = true /\ (f_press o = true \/ f_temp o = true)) ->
  rs_FillEos L s junk lam o st = None.
Proof.
  intros junk lam [r t e p c b] st. unfold rs_FillEos. cbn.
  destruct r, t, e, p, c, b; cbn; intros H; try reflexivity; exfalso; intuition discriminate.
Qed.
End RhoSie_Props.

(** the bulk modulus stored in the tables is positive, and is the thermodynamic one where that is above the floor *)
Theorem C42_stored_bulk_modulus : forall rho press dPdR_E dPdE_R dEdR_T,
  0 < EPS <= fixed_bMod rho press dPdR_E dPdE_R dEdR_T /\
  (0 < rho -> 0 < dPdE_R -> EPS <= rho * (dPdR_E + press / (rho * rho) * dPdE_R) ->
   fixed_bMod rho press dPdR_E dPdE_R dEdR_T = rho * (dPdR_E + press / (rho * rho) * dPdE_R)).
Proof.
  intros rho press a b c. unfold fixed_bMod. assert (E := EPSpos). split; [split; [exact E|apply Rmax_r]|].
  intros H1 H2 H3. rewrite (Rlt_bool_true 0 b H2), (Rlt_bool_true 0 rho H1). cbn [andb].
  replace (rho * a + b * (press / rho)) with (rho * (a + press / (rho * rho) * b)) by (field; lra). apply Rmax_left. exact H3.
Qed.

(** ** The density-temperature table class *)
Lemma soft_pos : 0 < soft_thresh < 1. Proof. unfold soft_thresh. lra. Qed.
Lemma floor_eps_ge v : EPS <= floor_eps v.
Proof. unfold floor_eps. case Rlt_bool_spec; lra. Qed.
Lemma floor_eps_id v : EPS < v -> floor_eps v = v.
Proof. intros H. unfold floor_eps. rewrite Rlt_bool_true by exact H. reflexivity. Qed.
Section RhoT_Props.
Variable L : LogPair.
Hypothesis HL : is_log_pair L.
Variable s : RT.
(** the slice tables at the highest temperature are the last rows of the tables, loadDataboxes_:651-661 *)
Definition top_slices : Prop := forall l,
  rt_sielTMax s l = rt_sie s l (rt_lTMax s) /\ rt_PMax s l = rt_P s l (rt_lTMax s) /\ rt_dEdTMax s l = rt_dEdT s l (rt_lTMax s).
(** the lowest table temperature is at least 1 K and the temperature range is not degenerate *)
Definition lT_range : Prop := 0 <= rt_lTMin s /\ (1 + soft_thresh) * rt_lTMin s < (1 - soft_thresh) * rt_lTMax s.
Lemma lT_lTMax_pos : lT_range -> 0 < rt_lTMax s.
Proof. intros [A B]. assert (S := soft_pos). assert (0 < (1 - soft_thresh) * rt_lTMax s) by nra. apply Rmult_lt_reg_l with (1 - soft_thresh); lra. Qed.
Lemma lT_above T : rt_TMax L s <= T -> rt_lTMax s <= rt_lT L s T.
Proof.
  intros H. unfold rt_lT, rt_TMax in *. assert (X := lp_pos L HL (rt_lTMax s)). unfold from_log in H.
  unfold to_log. rewrite Rmax_left by lra. rewrite Rabs_pos_eq by lra. rewrite <- (lp_inv_r L HL (rt_lTMax s)) at 1.
  assert (E := EPSpos). apply lg_incr_le; [exact HL|exact X|lra].
Qed.
Lemma loc_top lT : lT_range -> rt_lTMax s <= lT -> getLocDependsRhoT_ s lT = OffTop.
Proof.
  intros HR H. assert (P := lT_lTMax_pos HR). destruct HR as [A B]. assert (S := soft_pos). unfold getLocDependsRhoT_.
  assert ((1 - soft_thresh) * rt_lTMax s <= rt_lTMax s) by nra.
  rewrite Rle_bool_false by lra. rewrite Rle_bool_true by lra. reflexivity.
Qed.
Lemma loc_bottom lT : lT_range -> lT <= rt_lTMin s -> getLocDependsRhoT_ s lT = OffBottom.
Proof.
  intros [A B] H. assert (S := soft_pos). unfold getLocDependsRhoT_. assert (rt_lTMin s <= (1 + soft_thresh) * rt_lTMin s) by nra.
  rewrite Rle_bool_true by lra. reflexivity.
Qed.
Lemma loc_sie_top l e : rt_sielTMax s l <= e -> getLocDependsRhoSie_ s l e = OffTop.
Proof.
  intros H. unfold getLocDependsRhoSie_. assert (S := soft_pos). assert (A := Rabs_pos (rt_sielTMax s l)). rewrite Rle_bool_true by nra. reflexivity.
Qed.
Lemma loc_sie_bottom l e : e <= rt_sieCold s l -> rt_sieCold s l < rt_sielTMax s l - soft_thresh * Rabs (rt_sielTMax s l) ->
  getLocDependsRhoSie_ s l e = OffBottom.
Proof.
  intros H1 H2. unfold getLocDependsRhoSie_. assert (S := soft_pos). assert (A := Rabs_pos (rt_sieCold s l)).
  rewrite Rle_bool_false by lra. rewrite Rle_bool_true by nra. reflexivity.
Qed.

(** above the hottest table temperature energy is linear in temperature, and the temperature comes back from it up to the
    guard EPS of the log coordinate *)
Theorem C42_rt_round_trip_T_above : forall junk rho T lam, lT_range -> tiny <= rt_dEdTMax s (rt_lRho L s rho) -> rt_TMax L s <= T ->
  let e := rt_InternalEnergyFromDensityTemperature L s rho T in
  e = rt_sielTMax s (rt_lRho L s rho) + rt_dEdTMax s (rt_lRho L s rho) * (T - rt_TMax L s) /\
  rt_TemperatureFromDensityInternalEnergy L s junk rho e lam = T + EPS.
Proof.
  intros junk rho T lam HR Hc HT e. set (l := rt_lRho L s rho) in *. assert (TP := tiny_pos).
  assert (E : e = rt_sielTMax s l + rt_dEdTMax s l * (T - rt_TMax L s)).
  { unfold e, rt_InternalEnergyFromDensityTemperature. rewrite (loc_top _ HR (lT_above T HT)). reflexivity. }
  split; [exact E|]. unfold rt_TemperatureFromDensityInternalEnergy. fold l. unfold lTFromlRhoSie_.
  rewrite (loc_sie_top l e) by (rewrite E; nra). cbn [fst]. rewrite ratio_pos by exact Hc. rewrite E.
  replace (rt_TMax L s + (rt_sielTMax s l + rt_dEdTMax s l * (T - rt_TMax L s) - rt_sielTMax s l) / rt_dEdTMax s l) with T by (field; lra).
  unfold rt_T, rt_lT. apply from_to; [exact HL|]. unfold rt_TMax, from_log in HT. assert (X := lp_pos L HL (rt_lTMax s)). lra.
Qed.
Theorem C42_rt_round_trip_e_above : forall junk rho e lam, lT_range -> tiny <= rt_dEdTMax s (rt_lRho L s rho) ->
  rt_sielTMax s (rt_lRho L s rho) <= e ->
  let T := rt_TemperatureFromDensityInternalEnergy L s junk rho e lam in
  rt_TMax L s < T /\ rt_InternalEnergyFromDensityTemperature L s rho T = e + rt_dEdTMax s (rt_lRho L s rho) * EPS.
Proof.
  intros junk rho e lam HR Hc He T. set (l := rt_lRho L s rho) in *. assert (TP := tiny_pos). assert (EP := EPSpos).
  assert (D : 0 <= (e - rt_sielTMax s l) / rt_dEdTMax s l).
  { apply Rmult_le_pos; [lra|]. apply Rlt_le, Rinv_0_lt_compat. lra. }
  assert (E : T = rt_TMax L s + (e - rt_sielTMax s l) / rt_dEdTMax s l + EPS).
  { unfold T, rt_TemperatureFromDensityInternalEnergy. fold l. unfold lTFromlRhoSie_. rewrite (loc_sie_top l e) by exact He. cbn [fst].
    rewrite ratio_pos by exact Hc. unfold rt_T, rt_lT. rewrite from_to; [reflexivity|exact HL|].
    unfold rt_TMax, from_log. assert (X := lp_pos L HL (rt_lTMax s)). lra. }
  split; [lra|]. unfold rt_InternalEnergyFromDensityTemperature. rewrite (loc_top _ HR) by (apply lT_above; lra).
  cbn [sieFromlRhoTlT_]. fold l. rewrite E. field. lra.
Qed.
(** on or below the cold curve the lowest temperature of the table is returned, exactly the advertised minimum, and the
    pressure is that of the cold curve from every entry point *)
Theorem C42_rt_below_table : forall junk rho e lam, e <= rt_MinInternalEnergyFromDensity L s rho ->
  let l := rt_lRho L s rho in
  rt_sieCold s l < rt_sielTMax s l - soft_thresh * Rabs (rt_sielTMax s l) ->
  rt_TemperatureFromDensityInternalEnergy L s junk rho e lam = rt_MinimumTemperature L s /\
  rt_PressureFromDensityInternalEnergy L s junk rho e lam = rt_PCold s l.
Proof.
  intros junk rho e lam H1 l H2. unfold rt_MinInternalEnergyFromDensity in H1. fold l in H1.
  unfold rt_TemperatureFromDensityInternalEnergy, rt_PressureFromDensityInternalEnergy. fold l. unfold lTFromlRhoSie_.
  rewrite (loc_sie_bottom l e H1 H2). cbn [fst]. split; reflexivity.
Qed.
Theorem C42_rt_below_table_temperature : forall rho T, lT_range -> rt_lT L s T <= rt_lTMin s ->
  rt_InternalEnergyFromDensityTemperature L s rho T = rt_MinInternalEnergyFromDensity L s rho /\
  rt_PressureFromDensityTemperature L s rho T = rt_PCold s (rt_lRho L s rho).
Proof.
  intros rho T HR H. unfold rt_InternalEnergyFromDensityTemperature, rt_PressureFromDensityTemperature. rewrite (loc_bottom _ HR H).
  split; reflexivity.
Qed.
(** inside the table: for every guess and cache the temperature lies in the table's range, and on success it encloses a
    solution of sie(rho, T) = e *)
Theorem C42_rt_on_table : forall junk rho e lam,
  let l := rt_lRho L s rho in
  top_slices -> rt_sie s l (rt_lTMin s) <= rt_sieCold s l -> rt_lTMin s <= rt_lTMax s ->
  continuous_on (rt_sie s l) (rt_lTMin s) (rt_lTMax s) ->
  rt_sieCold s l + soft_thresh * Rabs (rt_sieCold s l) < e -> e < rt_sielTMax s l - soft_thresh * Rabs (rt_sielTMax s l) ->
  rt_MinimumTemperature L s <= rt_TemperatureFromDensityInternalEnergy L s junk rho e lam <= rt_TMax L s /\
  let '(lT, w, lam', st) := lTFromlRhoSie_ L s junk l e lam in
  w = OnTable /\ lam' = lam_set lam l lT /\
  (st = SUCCESS -> encloses_root (rt_sie s l) e (rt_lTMin s) (rt_lTMax s) root_thresh lT).
Proof.
  intros junk rho e lam l HT H0 HM HC H1 H2. assert (S := soft_pos).
  unfold rt_TemperatureFromDensityInternalEnergy. fold l. unfold lTFromlRhoSie_.
  assert (W : getLocDependsRhoSie_ s l e = OnTable).
  { unfold getLocDependsRhoSie_. rewrite Rle_bool_false by lra. rewrite Rle_bool_false by lra. reflexivity. }
  rewrite W. set (cache := match lam with Some c => snd c | None => junk end). set (lo := rt_lTMin s) in *. set (hi := rt_lTMax s) in *.
  set (g0 := if rt_repro s then lo else 1 / 2 * (lo + hi)).
  set (g := if (Rle_bool lo cache && Rle_bool cache hi)%bool then cache else g0).
  assert (G0 : lo <= g0 <= hi) by (unfold g0; destruct (rt_repro s); lra).
  assert (G : lo <= g <= hi).
  { unfold g. case (Rle_bool_spec lo cache); intros A; cbn [andb]; [|exact G0]. case (Rle_bool_spec cache hi); intros B; [lra|exact G0]. }
  assert (A1 := Rabs_pos (rt_sieCold s l)). assert (A2 := Rabs_pos (rt_sielTMax s l)).
  destruct (HT l) as (HT1 & _ & _). fold hi in HT1.
  destruct (table_root_spec (rt_sie s l) e g lo hi root_thresh (if rt_repro s then lo else g)) as (K1 & K2 & _).
  - unfold root_thresh. lra. - exact G. - destruct (rt_repro s); lra. - assert (rt_sie s l lo - e <= 0) by nra. assert (0 <= rt_sie s l hi - e) by nra. nra. - exact HC.
  - change (fun x => rt_sie s l x) with (rt_sie s l). cbv zeta. fold lo hi g0 g.
    destruct (table_root (rt_sie s l) e g lo hi root_thresh (if rt_repro s then lo else g)) as [lT st]. cbn [fst snd] in *.
    split; [|split; [reflexivity|split; [reflexivity|exact K2]]].
    unfold rt_MinimumTemperature, rt_TMax, rt_T, from_log. fold lo hi.
    assert (X := pw_incr_le L HL lo lT (proj1 K1)). assert (Y := pw_incr_le L HL lT hi (proj2 K1)). lra.
Qed.
(** the energy is continuous at the hottest table temperature: the table's last row is the start of the straight line *)
Theorem C42_rt_energy_continuous_at_top : forall rho, top_slices -> lT_range ->
  rt_InternalEnergyFromDensityTemperature L s rho (rt_TMax L s) = rt_sie s (rt_lRho L s rho) (rt_lTMax s).
Proof.
  intros rho HT HR. unfold rt_InternalEnergyFromDensityTemperature. rewrite (loc_top _ HR) by (apply lT_above; lra).
  cbn [sieFromlRhoTlT_]. destruct (HT (rt_lRho L s rho)) as [-> _]. ring.
Qed.
(** off the table the two pressure entry points agree *)
Theorem C42_rt_pressure_entry_points : forall junk rho T lam,
  let l := rt_lRho L s rho in
  lT_range -> 0 <= rt_dEdTMax s l -> rt_sieCold s l < rt_sielTMax s l - soft_thresh * Rabs (rt_sielTMax s l) ->
  rt_TMax L s <= T \/ rt_lT L s T <= rt_lTMin s ->
  rt_PressureFromDensityInternalEnergy L s junk rho (rt_InternalEnergyFromDensityTemperature L s rho T) lam
  = rt_PressureFromDensityTemperature L s rho T.
Proof.
  intros junk rho T lam l HR HC HS [H|H].
  - unfold rt_PressureFromDensityInternalEnergy, rt_PressureFromDensityTemperature, rt_InternalEnergyFromDensityTemperature, lTFromlRhoSie_.
    rewrite (loc_top _ HR (lT_above T H)). cbn [sieFromlRhoTlT_ PFromRholRhoTlT_]. fold l. rewrite (loc_sie_top l) by nra. reflexivity.
  - unfold rt_PressureFromDensityInternalEnergy, rt_PressureFromDensityTemperature, rt_InternalEnergyFromDensityTemperature, lTFromlRhoSie_.
    rewrite (loc_bottom _ HR H). cbn [sieFromlRhoTlT_ PFromRholRhoTlT_]. fold l. rewrite (loc_sie_bottom l) by (lra || exact HS). reflexivity.
Qed.
(** the specific heat is positive from both entry points and the bulk modulus from density and temperature, whatever the tables *)
Theorem C42_rt_floors : forall junk rho T e lam,
  0 < EPS <= rt_SpecificHeatFromDensityTemperature L s rho T /\
  0 < EPS <= rt_SpecificHeatFromDensityInternalEnergy L s junk rho e lam /\
  0 < EPS <= rt_BulkModulusFromDensityTemperature L s rho T.
Proof.
  intros. assert (E := EPSpos). split; [split; [exact E|apply floor_eps_ge]|]. split; [|split; [exact E|apply floor_eps_ge]].
  split; [exact E|]. unfold rt_SpecificHeatFromDensityInternalEnergy. destruct (lTFromlRhoSie_ _ _ _ _ _ _) as [[[lT w] lm] st]. apply floor_eps_ge.
Qed.
(** density from (P, T): inside the table's density range for every guess; on success it encloses a solution of P(rho,T) = P
    on the table, and of PCold(rho) = P at or below the lowest temperature *)
Theorem C42_rt_density : forall junk P lT lam,
  lT < rt_lTMax s ->
  let lo := rt_lRho L s (rt_rhoPMin s lT) in let hi := rt_lRhoMax s in
  let p := fun l => if Rle_bool lT (rt_lTMin s) then rt_PCold s l else rt_P s l lT in
  lo <= hi -> continuous_on p lo hi -> (p lo - P) * (p hi - P) <= 0 ->
  let '(l, w, lam', st) := rt_lRhoFromPlT_ L s junk P lT lam in
  lo <= l <= hi /\ (st = SUCCESS -> encloses_root p P lo hi root_thresh l) /\ lam' = lam_set lam l lT /\ w <> OffTop.
Proof.
  intros junk P lT lam HT lo hi p H1 H2 H3. unfold rt_lRhoFromPlT_. fold lo. cbv zeta. fold hi.
  set (cache := match lam with Some c => fst c | None => junk end).
  set (g0 := if rt_repro s then hi else 1 / 2 * (lo + hi)).
  set (g := if (Rle_bool lo cache && Rle_bool cache hi)%bool then cache else g0).
  assert (G0 : lo <= g0 <= hi) by (unfold g0; destruct (rt_repro s); lra).
  assert (G : lo <= g <= hi).
  { unfold g. case (Rle_bool_spec lo cache); intros A; cbn [andb]; [|exact G0]. case (Rle_bool_spec cache hi); intros B; [lra|exact G0]. }
  destruct (table_root_spec p P g lo hi root_thresh (if rt_repro s then hi else g)) as (K1 & K2 & _).
  - unfold root_thresh. lra. - exact G. - destruct (rt_repro s); lra. - exact H3. - exact H2.
  - rewrite (Rle_bool_false (rt_lTMax s) lT) by exact HT. unfold p in *. destruct (Rle_bool lT (rt_lTMin s)).
    + change (rt_PCold s) with (fun l => rt_PCold s l) at 1 2 3. split; [exact K1|]. split; [exact K2|]. split; [reflexivity|discriminate].
    + split; [exact K1|]. split; [exact K2|]. split; [reflexivity|discriminate].
Qed.
(** FillEos from density and temperature is exactly the scalar queries *)
Theorem C42_rt_fill_rho_temp : forall junk cacheP lam o st, f_rho o = false -> f_temp o = false ->
  (f_sie o || f_press o || f_cv o || f_bmod o = true)%bool ->
  exists st', rt_FillEos L s junk cacheP lam o st = Some st' /\ fill_frame o st st' /\
    let rho := s_rho st in let T := s_temp st in
    (f_sie o = true -> s_sie st' = rt_InternalEnergyFromDensityTemperature L s rho T) /\
    (f_press o = true -> s_press st' = rt_PressureFromDensityTemperature L s rho T) /\
    (f_cv o = true -> s_cv st' = rt_SpecificHeatFromDensityTemperature L s rho T) /\
    (f_bmod o = true -> s_bmod st' = rt_BulkModulusFromDensityTemperature L s rho T).
Proof.
  intros junk cP lam [r t e p c b] st. cbn. intros -> -> HA. unfold rt_FillEos. cbn. rewrite HA. cbn. eexists. split; [reflexivity|].
  unfold fill_frame, cond_upd. destruct e, p, c, b; cbn; repeat split; intros; congruence || reflexivity.
Qed.
(** from density and energy: the temperature is the scalar query's, and wherever the (rho, T) location of the temperature found
    is the (rho, sie) location of the input and that is not above the table, so are pressure and specific heat *)
Theorem C42_rt_fill_rho_sie : forall junk cacheP lam o st, f_rho o = false -> f_sie o = false -> f_temp o = true ->
  exists st', rt_FillEos L s junk cacheP lam o st = Some st' /\ fill_frame o st st' /\
    let rho := s_rho st in let e := s_sie st in let l := rt_lRho L s rho in
    s_temp st' = rt_TemperatureFromDensityInternalEnergy L s junk rho e lam /\
    (let w := getLocDependsRhoSie_ s l e in
     w = getLocDependsRhoT_ s (fst (fst (fst (lTFromlRhoSie_ L s junk l e lam)))) -> 
     (f_cv o = true -> s_cv st' = rt_SpecificHeatFromDensityInternalEnergy L s junk rho e lam) /\
     (w <> OffTop ->
      (f_press o = true -> s_press st' = rt_PressureFromDensityInternalEnergy L s junk rho e lam) /\
      (f_bmod o = true -> s_bmod st' = Rmax EPS (rt_BulkModulusFromDensityInternalEnergy L s junk rho e lam)))).
Proof.
  intros junk cP lam [r t e p c b] st. cbn [f_rho f_sie f_temp f_press f_cv f_bmod]. intros -> -> ->.
  unfold rt_FillEos, rt_TemperatureFromDensityInternalEnergy, rt_SpecificHeatFromDensityInternalEnergy, rt_PressureFromDensityInternalEnergy, rt_BulkModulusFromDensityInternalEnergy.
  cbn [f_rho f_sie f_temp f_press f_cv f_bmod negb andb orb]. cbv zeta.
  assert (W : snd (fst (fst (lTFromlRhoSie_ L s junk (rt_lRho L s (s_rho st)) (s_sie st) lam))) = getLocDependsRhoSie_ s (rt_lRho L s (s_rho st)) (s_sie st)).
  { unfold lTFromlRhoSie_. cbv zeta. match goal with |- snd (fst (fst (let '(_, _) := ?x in _))) = _ => destruct x end. reflexivity. }
  destruct (lTFromlRhoSie_ L s junk (rt_lRho L s (s_rho st)) (s_sie st) lam) as [[[lT w] lm] sta]. cbn [fst snd] in *. subst w.
  eexists. split; [reflexivity|]. unfold fill_frame, cond_upd.
  assert (FE : forall v, floor_eps v = Rmax EPS v) by (intros v; unfold floor_eps; case Rlt_bool_spec; intros; [rewrite Rmax_right; lra|rewrite Rmax_left; lra]).
  split; [|split].
  - destruct p, c, b; cbn; repeat split; intros; congruence || reflexivity.
  - destruct p, c, b; reflexivity.
  - intros <-. unfold CvFromlRholT_, PFromRholRhoTlT_, bModFromRholRhoTlT_. rewrite FE.
    destruct (getLocDependsRhoSie_ s (rt_lRho L s (s_rho st)) (s_sie st)); destruct p, c, b; cbn; rewrite ?FE;
      (split; [intros; congruence || reflexivity|]); intros N; try (exfalso; apply N; reflexivity); split; intros; congruence || reflexivity.
Qed.
(** from pressure and temperature: the density is the scalar query's *)
Theorem C42_rt_fill_press_temp : forall junk cacheP lam o st, f_rho o = true -> f_temp o = false -> f_press o = false ->
  exists st', rt_FillEos L s junk cacheP lam o st = Some st' /\ fill_frame o st st' /\
    s_rho st' = fst (rt_DensityEnergyFromPressureTemperature L s junk (s_press st) (s_temp st) lam).
Proof.
  intros junk cP lam [r t e p c b] st. cbn [f_rho f_sie f_temp f_press f_cv f_bmod]. intros -> -> ->.
  unfold rt_FillEos, rt_DensityEnergyFromPressureTemperature. cbn [f_rho f_sie f_temp f_press f_cv f_bmod negb andb orb]. cbv zeta.
  destruct (rt_lRhoFromPlT_ L s junk (s_press st) (rt_lT L s (s_temp st)) lam) as [[[l w] lm] sta].
  eexists. split; [reflexivity|]. unfold fill_frame, cond_upd. split; destruct e, c, b; cbn; repeat split; intros; congruence || reflexivity.
Qed.
(** contradictory requests are refused: density together with pressure or temperature, or all three of temperature, energy
    and pressure *)
Theorem C42_rt_fill_refuses : forall junk cacheP lam o st,
  (f_rho o = false /\ f_temp o = false /\ f_sie o = false /\ f_press o = false /\ f_cv o = false /\ f_bmod o = false) \/
  (f_rho o = true /\ (f_press o = true \/ f_temp o = true)) \/
  (f_temp o = true /\ f_sie o = true /\ f_press o = true) ->
  rt_FillEos L s junk cacheP lam o st = None.
Proof.
  intros junk cP lam [r t e p c b] st. cbn [f_rho f_sie f_temp f_press f_cv f_bmod].
  intros [(-> & -> & -> & -> & -> & ->)|[[-> [-> | ->]]|(-> & -> & ->)]]; unfold rt_FillEos; cbn [f_rho f_sie f_temp f_press f_cv f_bmod negb andb orb]; try reflexivity.
  - rewrite orb_true_r. reflexivity.
  - destruct r; reflexivity.
Qed.
(** the density of minimum pressure: the table's at its temperatures, the coldest row's below, and zero above, where the
    pressure is that of an ideal gas *)
Theorem C42_rt_rho_pmin : forall T,
  (rt_lTMin s < rt_lT L s T < rt_lTMax s -> rt_RhoPmin L s T = rt_rhoPMin s (rt_lT L s T)) /\
  (rt_lT L s T <= rt_lTMin s -> rt_RhoPmin L s T = rt_rhoPMin0 s) /\
  (rt_lTMin s < rt_lTMax s -> rt_TMax L s <= T -> rt_RhoPmin L s T = 0).
Proof.
  intros T. unfold rt_RhoPmin. split; [|split].
  - intros H. rewrite Rle_bool_false by lra. rewrite Rle_bool_false by lra. reflexivity.
  - intros H. rewrite Rle_bool_true by lra. reflexivity.
  - intros H1 H2. assert (X := lT_above T H2). rewrite Rle_bool_false by lra. rewrite Rle_bool_true by lra. reflexivity.
Qed.
End RhoT_Props.

(** ** Concrete tables *)
Notation L10 := real_log10.
Lemma pw0 : pw10 L10 0 = 1. Proof. cbn. rewrite Rmult_0_l. apply exp_0. Qed.
Lemma pw1 : pw10 L10 1 = 10. Proof. cbn. rewrite Rmult_1_l. apply exp_ln. lra. Qed.
Lemma lg100 : lg10 L10 100 = 2.
Proof. cbn. replace 100 with (10 * 10) by ring. rewrite ln_mult by lra. assert (X := ln10_pos). field. lra. Qed.
Lemma lg1 : lg10 L10 1 = 0. Proof. cbn. rewrite ln_1. unfold Rdiv. ring. Qed.
Lemma EPS_small : EPS < / 1000000.
Proof.
  unfold EPS. change (bpow radix2 (-52)) with (/ IZR (2^52)). apply (Rmult_lt_reg_r (IZR (2^52))); [cbn; lra|].
  rewrite Rmult_assoc, Rinv_l; cbn; lra.
Qed.
(** an ideal gas with P = rho * T + dP, e = T + de, one row per log T in [lTMin, 1], densities from 1 to 100 *)
Definition demo_rt (lTMin de dP PC : R) : RT :=
  mkRT (fun l x => pw10 L10 l * pw10 L10 x + dP) (fun _ x => pw10 L10 x + de) (fun l x => 2 * pw10 L10 l * pw10 L10 x) (fun l _ => pw10 L10 l) (fun _ _ => 1)
    (fun _ _ _ => 1) 0 false
    (fun l => pw10 L10 l * pw10 L10 1 + dP) (fun _ => pw10 L10 1 + de) (fun _ => 1) (fun _ => 1)
    (fun l => pw10 L10 l * PC) (fun _ => pw10 L10 lTMin + de) (fun l => 2 * pw10 L10 l * pw10 L10 lTMin) (fun l => pw10 L10 l) (fun _ => 1)
    (fun _ => 1 - EPS) (1 - EPS) 0 2 lTMin 1 0 0 true.
Lemma pw_cont c : continuity_pt (pw10 L10) c.
Proof. cbn [pw10 real_log10]. apply derivable_continuous_pt. apply (derivable_pt_comp (fun y => y * ln 10) exp); [|apply derivable_pt_exp].
  apply derivable_pt_mult; [apply derivable_pt_id|apply derivable_pt_const]. Qed.
Example C42_rt_nonvacuous : let s := demo_rt 0 0 0 1 in
  is_log_pair L10 /\ top_slices s /\ lT_range s /\ tiny <= rt_dEdTMax s 0 /\ rt_lTMin s < rt_lTMax s /\
  (forall l, rt_sieCold s l < rt_sielTMax s l - soft_thresh * Rabs (rt_sielTMax s l) /\
             rt_sie s l (rt_lTMin s) <= rt_sieCold s l /\ continuous_on (rt_sie s l) (rt_lTMin s) (rt_lTMax s)) /\
  rt_TMax L10 s = 10 /\
  (exists e, rt_sieCold s 0 + soft_thresh * Rabs (rt_sieCold s 0) < e /\ e < rt_sielTMax s 0 - soft_thresh * Rabs (rt_sielTMax s 0)).
Proof.
  cbv zeta. split; [apply real_log10_pair|]. split; [intros l; repeat split; reflexivity|].
  split; [unfold lT_range; cbn -[soft_thresh]; assert (S := soft_pos); lra|]. split; [cbn; apply Rlt_le, tiny_lt_1|]. split; [cbn; lra|].
  split; [|split].
  - intros l. split; [|split].
    + cbn [rt_sieCold rt_sielTMax demo_rt]. rewrite pw0, pw1, Rabs_pos_eq by lra. unfold soft_thresh. lra.
    + cbn [rt_sieCold rt_sie rt_lTMin demo_rt]. lra.
    + intros z _. cbn [rt_sie demo_rt]. apply (continuity_pt_plus (pw10 L10) (fun _ => 0)); [apply pw_cont|apply continuity_pt_const; intros a b; reflexivity].
  - unfold rt_TMax, from_log. cbn [rt_lTMax rt_TOff demo_rt]. rewrite pw1. lra.
  - exists 5. cbn [rt_sieCold rt_sielTMax demo_rt]. rewrite pw0, pw1, !Rabs_pos_eq by lra. unfold soft_thresh. lra.
Qed.
(** densities: P = 50 at T = 5 (log T strictly inside) has a bracket *)
Example C42_rt_density_nonvacuous : let s := demo_rt 0 0 0 1 in let lT := 0 in
  let lo := rt_lRho L10 s (rt_rhoPMin s lT) in
  lo = 0 /\ (rt_PCold s lo - 50) * (rt_PCold s (rt_lRhoMax s) - 50) <= 0.
Proof.
  cbv zeta. assert (E : rt_lRho L10 (demo_rt 0 0 0 1) (rt_rhoPMin (demo_rt 0 0 0 1) 0) = 0).
  { unfold rt_lRho, to_log. cbn [rt_rhoPMin rt_rhoOff demo_rt]. assert (EP := EPS_small). assert (EQ := EPSpos).
    rewrite Rmax_left by lra. rewrite Rabs_pos_eq by lra. replace (1 - EPS + 0 + EPS) with 1 by ring. apply lg1. }
  rewrite E. split; [reflexivity|]. cbn [rt_PCold rt_lRhoMax demo_rt]. rewrite pw0.
  replace (pw10 L10 2) with 100. 2: { rewrite <- lg100. symmetry. apply (lp_inv_l _ real_log10_pair). lra. } lra.
Qed.

(** a material with e = T and an energy transform that doubles energies *)
Definition demo_rs : RS :=
  let tT := mkSP5 (fun l b => pw10 L10 l * (pw10 L10 b - EPS)) (fun _ _ => 1) (fun _ b => pw10 L10 b - EPS) (fun _ _ => 1) in
  let tE := mkSP5 (fun l c => pw10 L10 l * ((pw10 L10 c - EPS) / 2)) (fun _ _ => 1) (fun _ c => (pw10 L10 c - EPS) / 2) (fun _ _ => 1) in
  mkRS (fun _ b => pw10 L10 b - EPS) (fun _ c => (pw10 L10 c - EPS) / 2) tT tE (fun _ => 0) (fun _ => 100) (fun _ => 1) (fun _ => 0)
    (fun _ b n => match n with O => pw10 L10 b | _ => 1 - pw10 L10 b end) 2 true 2 100 0 0 0 (fun e _ => 2 * e) true.
Lemma demo_log x : 0 <= x -> pw10 L10 (to_log L10 x 0) = x + EPS.
Proof. intros H. assert (K := from_to L10 real_log10_pair x 0 ltac:(lra)). unfold from_log in K. lra. Qed.
Lemma demo_rs_e rho T : 0 <= T -> rs_InternalEnergyFromDensityTemperature L10 demo_rs rho T = T.
Proof.
  intros HT. unfold rs_InternalEnergyFromDensityTemperature, interpRhoT_. cbn [rs_sie rs_rhoOff rs_TOff demo_rs]. rewrite demo_log by exact HT. ring.
Qed.
Example C42_rs_nonvacuous : forall rho T, 0 <= T -> same_material_at L10 demo_rs rho T.
Proof.
  intros rho T HT. unfold same_material_at. rewrite demo_rs_e by exact HT. cbv zeta.
  cbn [t_P t_bMod t_dTdE t_dPdE rs_rE rs_rT rs_T rs_transform rs_rhoOff rs_TOff rs_eOff demo_rs].
  rewrite (demo_log (2 * T)), (demo_log T) by lra. repeat split; field.
Qed.

(** ** C53: "the entry points of the tabulated EOS are interchangeable": refuted *)
(** density-energy class: Gruneisen parameter and mass fractions from (rho, sie) ignore the energy transform *)
Theorem C53_rs_gruneisen_ignores_transform_refuted : exists s, forall rho T, 0 < rho -> 0 < T ->
  same_material_at L10 s rho T /\
  let e := rs_InternalEnergyFromDensityTemperature L10 s rho T in
  rs_GruneisenParamFromDensityInternalEnergy L10 s rho e = rs_GruneisenParamFromDensityTemperature L10 s rho T / 2 /\
  0 < rs_GruneisenParamFromDensityTemperature L10 s rho T.
Proof.
  exists demo_rs. intros rho T Hr HT. split; [apply C42_rs_nonvacuous; lra|]. rewrite demo_rs_e by lra. cbv zeta.
  unfold rs_GruneisenParamFromDensityInternalEnergy, rs_GruneisenParamFromDensityTemperature, interpRhoT_.
  cbn [t_dPdE rs_rE rs_rT rs_rhoOff rs_TOff rs_eOff demo_rs]. rewrite (demo_log T) by lra. split; [field; lra|].
  apply Rdiv_lt_0_compat; lra.
Qed.
Theorem C53_rs_mass_fractions_ignore_transform_refuted : exists s, forall rho T old, 0 < T ->
  same_material_at L10 s rho T /\
  rs_MassFractionsFromDensityInternalEnergy L10 s rho (rs_InternalEnergyFromDensityTemperature L10 s rho T) old 0
  <> rs_MassFractionsFromDensityTemperature L10 s rho T old 0.
Proof.
  exists demo_rs. intros rho T old HT. split; [apply C42_rs_nonvacuous; lra|]. rewrite demo_rs_e by lra.
  unfold rs_MassFractionsFromDensityInternalEnergy, rs_MassFractionsFromDensityTemperature.
  cbn [rs_has_mf rs_nphases rs_mF rs_T rs_rhoOff rs_TOff rs_eOff demo_rs Nat.ltb Nat.leb]. rewrite (demo_log T) by lra.
  replace ((T + EPS - EPS) / 2) with (T / 2) by field. rewrite (demo_log (T / 2)) by lra. lra.
Qed.
(** FillEos asked for a pressure, bulk modulus or specific heat only reports success and writes nothing *)
Theorem C53_rs_fill_silent_refuted : forall L s junk lam o st,
  f_rho o = false -> f_temp o = false -> f_sie o = false -> f_press o = true -> rs_FillEos L s junk lam o st = Some st.
Proof. intros L s junk lam [r t e p c b] st. cbn. intros -> -> -> ->. reflexivity. Qed.
(** the density found depends on what happens to be in the cache, or in the uninitialised local when there is no cache, even
    in the mode that promises reproducibility *)
Lemma root_plateau y g lo hi tol fb : 0 <= tol -> table_root (fun _ => y) y g lo hi tol fb = (1 / 2 * (lo + g), SUCCESS).
Proof.
  intros Ht. unfold table_root, regula_falsi, regula_falsi_fuel, rf_bracket, check_bracket, lit.
  cbn [num add sub mul div ltb leb eqb ofQ RArith]. cbv zeta. rewrite Rle_bool_true by lra.
  rewrite rf_loop_stop.
  - cbn [rf_it rf_a rf_b]. reflexivity.
  - unfold rf_cond. cbn [rf_ya rf_yb rf_a rf_b rf_it ltb absn sub mul RArith lit ofQ].
    replace (y - y) with 0 by ring. rewrite Rmult_0_l, Rabs_R0. rewrite (Rlt_bool_false tol) by exact Ht.
    cbn [orb]. rewrite andb_false_r. reflexivity.
Qed.
Theorem C53_rs_guess_changes_result_refuted : forall L, exists s, rs_repro s = true /\
  forall lo, lo < rs_lRhoMax s -> to_log L (rs_rhoPMin s 0) (rs_rhoOff s) = lo ->
  forall junk1 junk2, lo <= junk1 <= rs_lRhoMax s -> lo <= junk2 <= rs_lRhoMax s -> junk1 <> junk2 ->
    fst (fst (rs_lRhoFromPlT_ L s junk1 1 0 None)) <> fst (fst (rs_lRhoFromPlT_ L s junk2 1 0 None)) /\
    fst (fst (rs_lRhoFromPlT_ L s 0 1 0 (Some junk1))) <> fst (fst (rs_lRhoFromPlT_ L s 0 1 0 (Some junk2))).
Proof.
  intros L. exists (mkRS (fun _ _ => 0) (fun _ _ => 0) (mkSP5 (fun _ _ => 1) (fun _ _ => 0) (fun _ _ => 0) (fun _ _ => 0))
     (mkSP5 (fun _ _ => 1) (fun _ _ => 0) (fun _ _ => 0) (fun _ _ => 0)) (fun _ => 0) (fun _ => 1) (fun _ => 1) (fun _ => 0) (fun _ _ _ => 0) 0 false 2 100 0 0 0 (fun e _ => e) true).
  split; [reflexivity|]. intros lo H0 H1 j1 j2 A1 A2 D. unfold rs_lRhoFromPlT_. cbv zeta. rewrite H1.
  cbn [rs_rhoPMin rs_dPdRhoMax rs_PlRhoMax rs_repro rs_lRhoMax rs_rT t_P] in *.
  rewrite (Rlt_bool_false 1 1) by lra. rewrite andb_false_r.
  rewrite (Rle_bool_true lo j1), (Rle_bool_true j1 2), (Rle_bool_true lo j2), (Rle_bool_true j2 2) by lra. cbn [andb].
  assert (EP := EPSpos). rewrite !root_plateau by lra. cbn [fst]. split; lra.
Qed.
(** density-temperature class: with a table starting below 1 K the soft thresholds have the wrong sign, and FillEos from (rho, e)
    below the cold curve reports the table pressure instead of the cold-curve pressure of the scalar query *)
Theorem C53_rt_cold_curve_below_1K_refuted : exists s, rt_lTMin s < 0 /\ top_slices s /\
  forall junk cacheP lam rho e, 0 <= rho -> e <= rt_MinInternalEnergyFromDensity L10 s rho ->
  exists st', rt_FillEos L10 s junk cacheP lam (mkF false true false true false false) (mkS rho 0 e 0 0 0) = Some st' /\
    rt_PressureFromDensityInternalEnergy L10 s junk rho e lam = 0 /\ 0 < s_press st'.
Proof.
  exists (demo_rt (-1) 0 0 0). split; [cbn; lra|]. split; [intros l; repeat split; reflexivity|].
  intros junk cacheP lam rho e Hr He. set (s := demo_rt (-1) 0 0 0) in *.
  assert (PW : pw10 L10 (-1) < 1) by (rewrite <- pw0; apply pw_incr; [apply real_log10_pair|lra]).
  assert (W : getLocDependsRhoSie_ s (rt_lRho L10 s rho) e = OffBottom).
  { apply loc_sie_bottom; [exact He|]. assert (SP := soft_pos). cbn [rt_sieCold rt_sielTMax demo_rt s]. rewrite pw1, Rabs_pos_eq by lra. unfold soft_thresh in *. lra. }
  assert (W2 : getLocDependsRhoT_ s (-1) = OnTable).
  { unfold getLocDependsRhoT_. cbn [rt_lTMin rt_lTMax demo_rt s]. unfold soft_thresh. rewrite Rle_bool_false by lra. rewrite Rle_bool_false by lra. reflexivity. }
  assert (LT : lTFromlRhoSie_ L10 s junk (rt_lRho L10 s rho) e lam = (-1, OffBottom, lam_set lam (rt_lRho L10 s rho) (-1), SUCCESS)).
  { unfold lTFromlRhoSie_. rewrite W. reflexivity. }
  unfold rt_FillEos. cbn [f_rho f_sie f_temp f_press f_cv f_bmod negb andb orb s_rho s_sie]. rewrite LT. rewrite W2. eexists. split; [reflexivity|].
  unfold rt_PressureFromDensityInternalEnergy. rewrite LT. cbn [rt_PCold demo_rt s]. split; [ring|].
  unfold cond_upd. cbn [s_press upd_press upd_temp PFromRholRhoTlT_ rt_P demo_rt s s_rho].
  rewrite Rplus_0_r. apply Rmult_lt_0_compat; apply (lp_pos _ real_log10_pair).
Qed.
(** the pressure jumps at the hottest table temperature when the material is not an ideal gas there *)
Theorem C53_rt_pressure_jump_refuted : exists s, top_slices s /\ lT_range s /\
  (forall l, rt_gm1Max s l * pw10 L10 l = rt_dPdE s l (rt_lTMax s)) /\
  forall rho, 0 <= rho ->
    rt_PressureFromDensityTemperature L10 s rho (rt_TMax L10 s) > rt_P s (rt_lRho L10 s rho) (rt_lTMax s) + 1 / 2.
Proof.
  exists (demo_rt 0 0 (-1) 1). split; [intros l; repeat split; reflexivity|].
  assert (HR : lT_range (demo_rt 0 0 (-1) 1)) by (unfold lT_range; cbn -[soft_thresh]; assert (S := soft_pos); lra).
  split; [exact HR|]. split; [intros l; cbn [rt_gm1Max rt_dPdE demo_rt]; ring|].
  intros rho Hr. unfold rt_PressureFromDensityTemperature. rewrite (loc_top _ _ HR) by (apply lT_above; [apply real_log10_pair|lra]).
  cbn [PFromRholRhoTlT_]. assert (TM : rt_TMax L10 (demo_rt 0 0 (-1) 1) = 10) by (unfold rt_TMax, from_log; cbn [rt_lTMax rt_TOff demo_rt]; rewrite pw1; lra).
  rewrite TM. unfold rt_lRho. cbn [rt_gm1Max rt_sielTMax rt_dEdTMax rt_P rt_lTMax rt_rhoOff demo_rt]. rewrite demo_log by exact Hr. rewrite pw1.
  assert (EP := EPS_small). lra.
Qed.
(** above the table the density is sought with log rho and log T in place of rho and T: at T = 100 K and P = 2 the density
    returned has pressure 1000 *)
Theorem C53_rt_density_above_table_refuted : exists s, top_slices s /\ lT_range s /\
  forall junk, 2 < junk ->
  let rho := fst (rt_DensityEnergyFromPressureTemperature L10 s junk 2 (100 - EPS) None) in
  rho = 10 /\ rt_PressureFromDensityTemperature L10 s rho (100 - EPS) > 999 /\
  rt_PressureFromDensityTemperature L10 s (1 / 50) 100 = 2.
Proof.
  exists (demo_rt 0 0 0 1). split; [intros l; repeat split; reflexivity|].
  assert (HR : lT_range (demo_rt 0 0 0 1)) by (unfold lT_range; cbn -[soft_thresh]; assert (S := soft_pos); lra).
  split; [exact HR|]. intros junk HJ rho. assert (EP := EPS_small). assert (EQ := EPSpos).
  set (s := demo_rt 0 0 0 1) in *.
  assert (TM : rt_TMax L10 s = 10) by (unfold rt_TMax, from_log; cbn [rt_lTMax rt_TOff demo_rt s]; rewrite pw1; lra).
  assert (LT : rt_lT L10 s (100 - EPS) = 2).
  { unfold rt_lT, to_log. cbn [rt_TOff demo_rt s]. rewrite Rmax_left by lra. rewrite Rabs_pos_eq by lra. replace (100 - EPS + 0 + EPS) with 100 by ring. apply lg100. }
  assert (LR : rt_lRho L10 s (1 - EPS) = 0).
  { unfold rt_lRho, to_log. cbn [rt_rhoOff demo_rt s]. rewrite Rmax_left by lra. rewrite Rabs_pos_eq by lra. replace (1 - EPS + 0 + EPS) with 1 by ring. apply lg1. }
  assert (ROOT : table_root (fun x => 1 * 1 * 2 * x) 2 2 0 2 root_thresh 2 = (1, SUCCESS)).
  { unfold table_root, regula_falsi, regula_falsi_fuel, rf_bracket, check_bracket, lit.
    cbn [num add sub mul div ltb leb eqb ofQ RArith]. cbv zeta.
    rewrite (Rle_bool_true ((1 * 1 * 2 * 0 - 2) * (1 * 1 * 2 * 2 - 2))) by lra. rewrite (Rlt_bool_true (1 * 1 * 2 * 0 - 2)) by lra.
    rewrite rf_loop_go.
    2: { unfold rf_cond. cbn [rf_ya rf_yb rf_a rf_b rf_it ltb absn sub mul RArith lit ofQ]. unfold root_thresh.
         rewrite (Rlt_bool_true (2 / 1 * / 100000000000000)) by lra. rewrite (Rlt_bool_true (/ 100000000000000) (Rabs _)) by (rewrite Rabs_left; lra). reflexivity. }
    assert (ST : @rf_step RArith (fun x => 1 * 1 * 2 * x - 2) (1/1) (@mkRF RArith 0 2 ((1 * 1 * 2 * 0 - 2) * (1/1)) ((1 * 1 * 2 * 2 - 2) * (1/1)) 0 0 0)
      = @mkRF RArith 1 1 ((1 * 1 * 2 * 0 - 2) * (1/1)) ((1 * 1 * 2 * 2 - 2) * (1/1)) 0 0 1).
    { unfold rf_step. cbn [rf_ya rf_yb rf_a rf_b rf_it rf_b1 rf_b2 ltb absn sub mul div eqb RArith lit ofQ]. cbv zeta.
      replace ((0 * ((1 * 1 * 2 * 2 - 2) * (1 / 1)) - 2 * ((1 * 1 * 2 * 0 - 2) * (1 / 1))) / ((1 * 1 * 2 * 2 - 2) * (1 / 1) - (1 * 1 * 2 * 0 - 2) * (1 / 1))) with 1 by field.
      rewrite (Req_bool_false 1 0), (Req_bool_false 1 2) by lra.
      rewrite (Rlt_bool_false (0/1)) by lra. rewrite Rlt_bool_false by lra. reflexivity. }
    match goal with |- context [@rf_step RArith ?f0 ?g0 ?x0] => change (@rf_step RArith f0 g0 x0) with (@rf_step RArith (fun x => 1 * 1 * 2 * x - 2) (1/1) (@mkRF RArith 0 2 ((1 * 1 * 2 * 0 - 2) * (1/1)) ((1 * 1 * 2 * 2 - 2) * (1/1)) 0 0 0)) end.
    rewrite ST. rewrite rf_loop_stop.
    - cbn [rf_it rf_a rf_b Nat.eqb SECANT_NITER_MAX]. f_equal. field.
    - unfold rf_cond. cbn [rf_ya rf_yb rf_a rf_b rf_it ltb absn sub mul RArith lit ofQ]. unfold root_thresh. rewrite Rlt_bool_false by lra. reflexivity. }
  assert (E : rho = 10).
  { unfold rho, rt_DensityEnergyFromPressureTemperature, rt_lRhoFromPlT_. rewrite LT. cbv zeta.
    cbn [rt_rhoPMin rt_repro rt_lRhoMax rt_lTMin rt_lTMax rt_gm1Max rt_dEdTMax demo_rt s]. fold s. rewrite LR.
    rewrite (Rle_bool_false junk 2) by exact HJ. rewrite andb_false_r. rewrite (Rle_bool_false 2 0) by lra. rewrite (Rle_bool_true 1 2) by lra.
    rewrite ROOT. cbn [fst snd]. unfold rt_rho, from_log. cbn [rt_rhoOff demo_rt s]. rewrite pw1. rewrite Rlt_bool_false by lra. lra. }
  assert (PR : forall r T, 10 <= T -> rt_PressureFromDensityTemperature L10 s r T = r * T).
  { intros r T HT. unfold rt_PressureFromDensityTemperature. rewrite (loc_top _ _ HR) by (apply lT_above; [apply real_log10_pair|lra]).
    cbn [PFromRholRhoTlT_]. rewrite TM. cbn [rt_gm1Max rt_sielTMax rt_dEdTMax demo_rt s]. rewrite pw1. ring. }
  split; [exact E|]. rewrite E, !PR by lra. lra.
Qed.
(** from density and a pressure above the table FillEos returns the hottest table temperature, whose pressure is not the input's *)
Theorem C53_rt_fill_rho_press_clamped_refuted : exists s, top_slices s /\ lT_range s /\
  forall junk cacheP lam, exists st',
  rt_FillEos L10 s junk cacheP lam (mkF false true true false false false) (mkS 1 0 0 1000 0 0) = Some st' /\
  s_temp st' = 10 /\ s_press st' = 1000 /\ s_sie st' = 10 /\
  rt_PressureFromDensityTemperature L10 s 1 (s_temp st') = 10 /\ rt_PressureFromDensityTemperature L10 s 1 1000 = 1000.
Proof.
  exists (demo_rt 0 0 0 1). split; [intros l; repeat split; reflexivity|].
  assert (HR : lT_range (demo_rt 0 0 0 1)) by (unfold lT_range; cbn -[soft_thresh]; assert (S := soft_pos); lra).
  split; [exact HR|]. intros junk cacheP lam. set (s := demo_rt 0 0 0 1) in *. assert (EP := EPS_small). assert (EQ := EPSpos).
  assert (TM : rt_TMax L10 s = 10) by (unfold rt_TMax, from_log; cbn [rt_lTMax rt_TOff demo_rt s]; rewrite pw1; lra).
  assert (PR : forall r T, 10 <= T -> rt_PressureFromDensityTemperature L10 s r T = r * T).
  { intros r T HT. unfold rt_PressureFromDensityTemperature. rewrite (loc_top _ _ HR) by (apply lT_above; [apply real_log10_pair|lra]).
    cbn [PFromRholRhoTlT_]. rewrite TM. cbn [rt_gm1Max rt_sielTMax rt_dEdTMax demo_rt s]. rewrite pw1. ring. }
  assert (LP : lTFromlRhoP_ s cacheP (rt_lRho L10 s 1) 1000 lam = (1, OffTop, lam_set lam (rt_lRho L10 s 1) 1, SUCCESS)).
  { unfold lTFromlRhoP_. unfold rt_lRho. cbn [rt_PCold rt_PMax rt_rhoOff demo_rt s rt_lTMax]. rewrite demo_log by lra. rewrite pw1.
    rewrite Rle_bool_false by lra. rewrite Rle_bool_true by lra. reflexivity. }
  unfold rt_FillEos. cbn [f_rho f_sie f_temp f_press f_cv f_bmod negb andb orb s_rho s_press]. rewrite LP. eexists. split; [reflexivity|].
  rewrite (loc_top s 1 HR) by (cbn; lra). unfold cond_upd.
  cbn [s_temp s_press s_sie upd_press upd_sie upd_temp sieFromlRhoTlT_ s_rho].
  assert (T1 : rt_T L10 s 1 = 10) by (unfold rt_T, from_log; cbn [rt_TOff demo_rt s]; rewrite pw1; lra). rewrite T1, TM.
  split; [reflexivity|]. split; [reflexivity|]. split; [cbn [rt_sielTMax rt_dEdTMax demo_rt s]; rewrite pw1; ring|]. rewrite !PR by lra. lra.
Qed.
(** the bulk modulus from (rho, sie) is not floored: negative where the one from (rho, T) is positive *)
Theorem C53_rt_bulk_modulus_negative_refuted : exists s, top_slices s /\ lT_range s /\
  forall junk lam rho, 0 < rho ->
  let e := rt_InternalEnergyFromDensityTemperature L10 s rho (rt_TMax L10 s) in
  rt_BulkModulusFromDensityInternalEnergy L10 s junk rho e lam < 0 < rt_BulkModulusFromDensityTemperature L10 s rho (rt_TMax L10 s).
Proof.
  exists (demo_rt 0 (-20) 0 1). split; [intros l; repeat split; reflexivity|].
  assert (HR : lT_range (demo_rt 0 (-20) 0 1)) by (unfold lT_range; cbn -[soft_thresh]; assert (S := soft_pos); lra).
  split; [exact HR|]. intros junk lam rho Hr e. set (s := demo_rt 0 (-20) 0 1) in *.
  assert (TM : rt_TMax L10 s = 10) by (unfold rt_TMax, from_log; cbn [rt_lTMax rt_TOff demo_rt s]; rewrite pw1; lra).
  assert (E : e = -10).
  { unfold e, rt_InternalEnergyFromDensityTemperature. rewrite (loc_top _ _ HR) by (apply lT_above; [apply real_log10_pair|lra]).
    cbn [sieFromlRhoTlT_]. rewrite TM. cbn [rt_sielTMax rt_dEdTMax demo_rt s]. rewrite pw1. ring. }
  split.
  - unfold rt_BulkModulusFromDensityInternalEnergy, lTFromlRhoSie_. rewrite loc_sie_top.
    + rewrite E. cbn [rt_gm1Max demo_rt s]. lra.
    + rewrite E. cbn [rt_sielTMax demo_rt s]. rewrite pw1. lra.
  - apply Rlt_le_trans with EPS; [apply EPSpos|apply floor_eps_ge].
Qed.
(** setlTColdCrit_ is to find the temperature at which sie(rho, .) = sieCold(rho); with exactly one crossing it returns the
    lowest table temperature instead *)
Theorem C53_rt_cold_crit_refuted : forall x interp lTMin e0 e1 cold, e0 < cold < e1 ->
  lTColdCrit_ x (fun i => match i with O => e0 | _ => e1 end) interp cold lTMin 2 = lTMin.
Proof.
  intros x interp lTMin e0 e1 cold H. unfold lTColdCrit_, cross_scan. cbn [Nat.sub seq fold_left].
  unfold cross_step. rewrite (Rlt_bool_true (e0 - cold) 0), (Rlt_bool_true 0 (e1 - cold)) by lra. cbn [andb cr_last cr_count Z.of_nat Z.leb Z.compare].
  apply Rmax_left. lra.
Qed.
Print Assumptions C42_rs_extrapolation.
Print Assumptions C42_rs_inversion.
Print Assumptions C42_rs_entry_points_agree.
Print Assumptions C42_rs_fill_rho_sie.
Print Assumptions C42_rs_fill_rho_temp.
Print Assumptions C42_rs_fill_press_temp.
Print Assumptions C42_rs_fill_refuses.
Print Assumptions C42_stored_bulk_modulus.
Print Assumptions C42_rt_round_trip_T_above.
Print Assumptions C42_rt_round_trip_e_above.
Print Assumptions C42_rt_below_table.
Print Assumptions C42_rt_below_table_temperature.
Print Assumptions C42_rt_on_table.
Print Assumptions C42_rt_energy_continuous_at_top.
Print Assumptions C42_rt_pressure_entry_points.
Print Assumptions C42_rt_floors.
Print Assumptions C42_rt_density.
Print Assumptions C42_rt_fill_rho_temp.
Print Assumptions C42_rt_fill_rho_sie.
Print Assumptions C42_rt_fill_press_temp.
Print Assumptions C42_rt_fill_refuses.
Print Assumptions C42_rt_rho_pmin.
Print Assumptions C53_rs_gruneisen_ignores_transform_refuted.
Print Assumptions C53_rs_mass_fractions_ignore_transform_refuted.
Print Assumptions C53_rs_fill_silent_refuted.
Print Assumptions C53_rs_guess_changes_result_refuted.
Print Assumptions C53_rt_cold_curve_below_1K_refuted.
Print Assumptions C53_rt_pressure_jump_refuted.
Print Assumptions C53_rt_density_above_table_refuted.
Print Assumptions C53_rt_fill_rho_press_clamped_refuted.
Print Assumptions C53_rt_bulk_modulus_negative_refuted.
Print Assumptions C53_rt_cold_crit_refuted.
