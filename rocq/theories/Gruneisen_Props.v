(** C22: Gruneisen (Steinberg) EOS *)
From Coq Require Import Reals Bool Lra Lia List Psatz.
From Flocq Require Import Core.
From Coquelicot Require Import Coquelicot.
From Verif Require Import Arith RootFinding_Model RootFinding_Proofs Robust_Model Robust_Proofs Thermo_Spec Thermo_Tools Gruneisen_Model Gruneisen_RhoMax.
Local Open Scope R_scope.

(** compression measure and Hugoniot denominator, as documented (doc/sphinx/src/models.rst, Gruneisen EOS) *)
Definition eta (g : grun) rho : R := 1 - rho0 g / rho.
Definition den (g : grun) rho : R := 1 - s1 g * eta g rho - s2 g * eta g rho ^ 2 - s3 g * eta g rho ^ 3.
Definition below_max (g : grun) rho : Prop := match rho_max g with Some m => rho <= m | None => True end.
Definition strictly_below_max (g : grun) rho : Prop := match rho_max g with Some m => rho < m | None => True end.

(** ** the automatic maximum density *)
Lemma eta_le rho0 rho E : 0 < rho0 -> rho0 <= rho -> 0 < E -> rho <= RHOMAX_SAFETY * (rho0 / E) -> 1 - rho0 / rho <= 1 - E / RHOMAX_SAFETY.
Proof.
  intros H0 Hr HE H. unfold RHOMAX_SAFETY in *.
  assert (E <= 99 / 100 * (rho0 / rho)).
  { apply Rmult_le_reg_r with (rho / E); [apply Rdiv_lt_0_compat; lra|]. replace (E * (rho / E)) with rho by (field; lra).
    replace (99 / 100 * (rho0 / rho) * (rho / E)) with (99 / 100 * (rho0 / E)) by (field; lra). exact H. }
  assert (E / (99 / 100) <= rho0 / rho). { apply Rmult_le_reg_r with (99 / 100); [lra|]. replace (E / (99 / 100) * (99 / 100)) with E by (field; lra). lra. }
  lra.
Qed.
Lemma eta_range g rho : 0 < rho0 g -> rho0 g <= rho -> 0 <= eta g rho < 1.
Proof.
  intros H0 Hr. unfold eta. assert (0 < rho0 g / rho) by (apply Rdiv_lt_0_compat; lra).
  assert (rho0 g / rho <= 1). { apply Rmult_le_reg_r with rho; [lra|]. replace (rho0 g / rho * rho) with (rho0 g) by (field; lra). lra. } lra.
Qed.
(** linear and quadratic Us-up relations: at every density from the reference density up to the automatically determined maximum
    the Hugoniot denominator is positive, so no query crosses the singularity *)
Theorem C22_automatic_maximum_density_safe : forall C0 a1 a2 G0 b r0 T0 P0 Cv A Z g,
  0 < r0 -> (a2 = 0 \/ EPS <= Rabs a2) -> make_auto C0 a1 a2 0 G0 b r0 T0 P0 Cv A Z = Some g ->
  forall rho, r0 <= rho -> below_max g rho -> 0 < den g rho.
Proof.
  intros C0 a1 a2 G0 b r0 T0 P0 Cv A Z g H0 H2 H rho Hr Hm. unfold make_auto, ComputeRhoMax in H.
  destruct (eta_root a1 a2 0) as [root|] eqn:ER; [|discriminate].
  assert (SP : (~ 0 < root < 1 -> pos_below a1 a2 0 1) /\ (0 < root < 1 -> pos_below a1 a2 0 root /\ poly a1 a2 0 root = 0)).
  { destruct H2 as [->|H2]; [apply eta_root_linear; exact ER|apply eta_root_quadratic; assumption]. }
  destruct SP as (SP1 & SP2). pose proof EPS_pos.
  assert (Hmm : below_max g rho). { exact Hm. } clear Hm.
  destruct (Rlt_bool_spec 0 root) as [Q1|Q1]; destruct (Rlt_bool_spec root 1) as [Q2|Q2]; cbn [andb] in H; injection H as <-;
    match goal with |- 0 < den ?gg _ => change (den gg rho) with (poly a1 a2 0 (eta gg rho)); assert (HE := eta_range gg rho H0 Hr); unfold eta in *; cbn [rho0 below_max rho_max] in * end.
  - apply (proj1 (SP2 (conj Q1 Q2))). split; [lra|].
    assert (1 - r0 / rho <= 1 - (1 - root + EPS) / RHOMAX_SAFETY) by (apply eta_le; try assumption; lra).
    unfold RHOMAX_SAFETY in *. lra.
  - apply SP1; lra.
  - apply SP1; lra.
  - apply SP1; lra.
Qed.
(** cubic relation, coefficients of realistic size: the same, provided the search ended because its bracket was narrow and the
    limit is below 1e9 times the reference density; otherwise only up to the lower end u of the final bracket. *)
Theorem C63_gruneisen_cubic_maximum_density_partial : forall C0 a1 a2 a3 G0 b r0 T0 P0 Cv A Z g,
  0 < r0 -> EPS <= Rabs a3 -> Rabs a1 + Rabs a2 + Rabs a3 <= 900 -> make_auto C0 a1 a2 a3 G0 b r0 T0 P0 Cv A Z = Some g ->
  (rho_max g = None -> forall rho, r0 <= rho -> 0 < den g rho) /\
  (forall m, rho_max g = Some m -> exists u v, 0 <= u <= v /\ v <= 1 /\
     (forall rho, r0 <= rho -> eta g rho < u -> 0 < den g rho) /\
     (v - u <= 200 * EPS \/ Rmin (Rabs (poly a1 a2 a3 u)) (Rabs (poly a1 a2 a3 v)) <= 10 * EPS) /\
     (v - u <= 200 * EPS -> m <= 1000000000 * r0 -> forall rho, r0 <= rho <= m -> 0 < den g rho)).
Proof.
  intros C0 a1 a2 a3 G0 b r0 T0 P0 Cv A Z g H0 H3 Hsum H. unfold make_auto, ComputeRhoMax in H.
  pose proof EPS_pos as HE. pose proof EPS_small as HE2.
  assert (Hs : a3 <> 0). { intros ->. rewrite Rabs_R0 in H3. lra. }
  destruct (eta_root a1 a2 a3) as [root|] eqn:ER; [|discriminate].
  destruct (eta_root_cubic a1 a2 a3 Hs Hsum root H3 ER) as (SP1 & SP2).
  assert (NO : forall g', s1 g' = a1 -> s2 g' = a2 -> s3 g' = a3 -> rho0 g' = r0 -> pos_below a1 a2 a3 1 -> forall rho, r0 <= rho -> 0 < den g' rho).
  { intros g' E1 E2 E3 E4 PB rho Hr. unfold den. rewrite E1, E2, E3. rewrite <- E4 in Hr. pose proof (eta_range g' rho ltac:(lra) Hr). apply PB; assumption. }
  destruct (Rlt_bool_spec 0 root) as [Q1|Q1]; destruct (Rlt_bool_spec root 1) as [Q2|Q2]; cbn [andb] in H; injection H as <-;
    (split; [intros HN; try discriminate HN; apply NO; try reflexivity; apply SP1; lra|intros m Em; try discriminate Em]).
  cbn [rho_max] in Em. injection Em as <-.
  destruct (SP2 (conj Q1 Q2)) as (u & v & U1 & U2 & U3 & U4 & _ & U5). unfold rf_exit in U5.
  exists u, v. refine (conj U1 (conj U2 (conj _ (conj _ _)))).
  - intros rho Hr He. pose proof (eta_range (mkGrun C0 a1 a2 a3 G0 b r0 T0 P0 Cv (Some (RHOMAX_SAFETY * (r0 / (1 - root + EPS)))) A Z) rho H0 Hr). apply U4. lra.
  - destruct U5 as [U5|U5]; [left; lra|right; exact U5].
  - intros Hw Hm rho (Hr & Hr2).
    match goal with |- 0 < den ?gg _ => pose proof (eta_range gg rho H0 Hr) as RG; change (den gg rho) with (poly a1 a2 a3 (eta gg rho)); unfold eta in *; cbn [rho0] in * end.
    apply U4. split; [lra|].
    assert (Bd : 99 / 100 * (/ 1000000000) <= 1 - root + EPS).
    { unfold RHOMAX_SAFETY in Hm. apply Rmult_le_reg_r with (1000000000 * r0); [lra|].
      replace (99 / 100 * / 1000000000 * (1000000000 * r0)) with (99 / 100 * r0) by field.
      apply Rmult_le_compat_r with (r := 1 - root + EPS) in Hm; [|lra].
      replace (99 / 100 * (r0 / (1 - root + EPS)) * (1 - root + EPS)) with (99 / 100 * r0) in Hm by (field; lra). lra. }
    assert (1 - r0 / rho <= 1 - (1 - root + EPS) / RHOMAX_SAFETY) by (apply eta_le; try assumption; lra).
    unfold RHOMAX_SAFETY in *. lra.
Qed.

(** ** queries *)
Definition regular (g : grun) : Prop := 0 < rho0 g /\ 0 < Cv g /\ forall rho, rho0 g <= rho -> below_max g rho -> 0 < den g rho.
Section G.
Variable g : grun.
Hypothesis Hr0 : 0 < rho0 g.
Hypothesis HCv : 0 < Cv g.
Hypothesis Hden : forall rho, rho0 g <= rho -> below_max g rho -> 0 < den g rho.
Notation P_e := (PressureFromDensityInternalEnergy g).
Notation P_T := (PressureFromDensityTemperature g).
Notation E_T := (InternalEnergyFromDensityTemperature g).
Notation T_e := (TemperatureFromDensityInternalEnergy g).
Notation B_e := (BulkModulusFromDensityInternalEnergy g).
Notation Gam := (Gamma g).
Lemma cap_id rho : below_max g rho -> cap g rho = rho.
Proof. unfold below_max, cap. destruct (rho_max g); [apply Rmin_left|reflexivity]. Qed.
Lemma cap_idem rho : cap g (cap g rho) = cap g rho.
Proof. unfold cap. destruct (rho_max g); [|reflexivity]. apply Rmin_left, Rmin_r. Qed.
(** documented curves *)
Definition PH rho : R := P0 g + C0 g ^ 2 * rho0 g * eta g rho / den g rho ^ 2.
Definition EH rho : R := (PH rho + P0 g) * eta g rho / rho0 g / 2.
Definition Gc rho : R := G0 g * rho0 g / rho + b g * (1 - rho0 g / rho).
Lemma Gamma_hi rho : below_max g rho -> rho0 g <= rho -> Gam rho = Gc rho.
Proof. intros Hm H. unfold Gamma. rewrite cap_id by exact Hm. rewrite Rlt_bool_false by exact H. reflexivity. Qed.
Lemma Gamma_lo rho : below_max g rho -> rho < rho0 g -> Gam rho = G0 g.
Proof. intros Hm H. unfold Gamma. rewrite cap_id by exact Hm. rewrite Rlt_bool_true by exact H. reflexivity. Qed.
Lemma P_hi rho e : below_max g rho -> rho0 g <= rho -> P_e rho e = PH rho + Gc rho * rho * (e - EH rho).
Proof.
  intros Hm H. unfold PressureFromDensityInternalEnergy. rewrite cap_id by exact Hm. rewrite Rle_bool_true by exact H. rewrite Gamma_hi by assumption.
  cbv zeta. unfold EH, PH, den, eta. 
  replace (1 - (s1 g * (1 - rho0 g / rho) + s2 g * (1 - rho0 g / rho) ^ 2 + s3 g * (1 - rho0 g / rho) ^ 3))
    with (1 - s1 g * (1 - rho0 g / rho) - s2 g * (1 - rho0 g / rho) ^ 2 - s3 g * (1 - rho0 g / rho) ^ 3) by ring. reflexivity.
Qed.
Lemma P_lo rho e : below_max g rho -> rho < rho0 g -> P_e rho e = P0 g + C0 g ^ 2 * (rho - rho0 g) + G0 g * rho * e.
Proof.
  intros Hm H. unfold PressureFromDensityInternalEnergy. rewrite cap_id by exact Hm. rewrite Rle_bool_false by exact H. rewrite Gamma_lo by assumption.
  cbv zeta. ring.
Qed.
Definition dPH rho : R := C0 g ^ 2 * rho0 g / den g rho ^ 2 * (rho0 g / rho ^ 2) *
  (1 + 2 * eta g rho * (s1 g + 2 * s2 g * eta g rho + 3 * s3 g * eta g rho ^ 2) / den g rho).
Lemma PH_derive rho : 0 < rho -> den g rho <> 0 -> is_derive PH rho (dPH rho).
Proof.
  intros Hr Hd.
  assert (De : is_derive (eta g) rho (rho0 g / rho ^ 2)). { unfold eta. auto_derive; [lra|]. field. lra. }
  assert (K : is_derive (fun x => P0 g + C0 g ^ 2 * rho0 g * x / (1 - s1 g * x - s2 g * x ^ 2 - s3 g * x ^ 3) ^ 2) (eta g rho)
     (C0 g ^ 2 * rho0 g / den g rho ^ 2 * (1 + 2 * eta g rho * (s1 g + 2 * s2 g * eta g rho + 3 * s3 g * eta g rho ^ 2) / den g rho))).
  { unfold den in *. set (x := eta g rho) in *. auto_derive.
    - rewrite Rmult_1_r. apply Rmult_integral_contrapositive. split; intros C; apply Hd; rewrite <- C; ring.
    - field. exact Hd. }
  apply (is_derive_eq _ _ (rho0 g / rho ^ 2 * (C0 g ^ 2 * rho0 g / den g rho ^ 2 * (1 + 2 * eta g rho * (s1 g + 2 * s2 g * eta g rho + 3 * s3 g * eta g rho ^ 2) / den g rho)))); [|unfold dPH; field; split; [exact Hd|lra]].
  exact (is_derive_comp _ (eta g) rho _ _ K De).
Qed.
Definition dPc rho e : R :=
  let dEH := rho0 g / rho ^ 2 * (PH rho + P0 g) / rho0 g / 2 + eta g rho / rho0 g / 2 * dPH rho in
  dPH rho + Gc rho * (e - EH rho) + rho * ((b g - G0 g) * (rho0 g / rho ^ 2)) * (e - EH rho) - rho * Gc rho * dEH.
Lemma Pc_derive rho e : 0 < rho -> den g rho <> 0 -> is_derive (fun r => PH r + Gc r * r * (e - EH r)) rho (dPc rho e).
Proof.
  intros Hr Hd. pose proof (PH_derive rho Hr Hd) as D. pose proof (is_derive_unique _ _ _ D) as DU.
  assert (EX : ex_derive PH rho) by (exists (dPH rho); exact D).
  unfold EH, Gc, eta. auto_derive.
  - repeat split; try lra; exact EX.
  - change (Derive (fun x => PH x) rho) with (Derive PH rho). rewrite DU. unfold dPc, EH, Gc, eta. cbv zeta. field. lra.
Qed.
Lemma dPres_hi rho e : below_max g rho -> rho0 g <= rho -> dPres_drho_e g rho e = dPc rho e.
Proof.
  intros Hm H. unfold dPres_drho_e. rewrite cap_id by exact Hm. rewrite Rlt_bool_false by exact H. rewrite Gamma_hi by assumption. cbv zeta.
  unfold dPc, dPH, EH, PH, den, eta.
  replace (1 - (s1 g * (1 - rho0 g / rho) + s2 g * (1 - rho0 g / rho) ^ 2 + s3 g * (1 - rho0 g / rho) ^ 3))
    with (1 - s1 g * (1 - rho0 g / rho) - s2 g * (1 - rho0 g / rho) ^ 2 - s3 g * (1 - rho0 g / rho) ^ 3) by ring. reflexivity.
Qed.
Lemma dPres_lo rho e : below_max g rho -> rho < rho0 g -> dPres_drho_e g rho e = C0 g ^ 2 + G0 g * e.
Proof.
  intros Hm H. unfold dPres_drho_e. rewrite cap_id by exact Hm. rewrite Rlt_bool_true by exact H. rewrite Gamma_lo by assumption. reflexivity.
Qed.
Lemma sbm rho : strictly_below_max g rho -> below_max g rho.
Proof. unfold strictly_below_max, below_max. destruct (rho_max g); [lra|auto]. Qed.
Lemma sbm_loc rho : strictly_below_max g rho -> locally rho (fun y => below_max g y).
Proof.
  unfold strictly_below_max, below_max. destruct (rho_max g) as [m|]; intros H.
  - apply (loc_imp _ (fun y => y < m)); [intros; lra|apply loc_lt, H].
  - apply filter_forall. auto.
Qed.
Lemma dP_dr rho e : 0 < rho -> strictly_below_max g rho -> rho <> rho0 g -> is_derive (fun r => P_e r e) rho (dPres_drho_e g rho e).
Proof.
  intros Hr Hm Hn. destruct (Rlt_dec rho (rho0 g)) as [L|L].
  - rewrite dPres_lo by (try apply sbm; assumption).
    apply (derive_loc _ (fun r => P0 g + C0 g ^ 2 * (r - rho0 g) + G0 g * r * e)).
    + apply (loc_imp _ (fun y => below_max g y /\ y < rho0 g)); [|apply loc_and; [apply sbm_loc, Hm|apply loc_lt, L]].
      intros y (Y1 & Y2). symmetry. apply P_lo; assumption.
    + auto_derive; [exact I|ring].
  - assert (L' : rho0 g < rho) by lra. rewrite dPres_hi by (try apply sbm; assumption || lra).
    apply (derive_loc _ (fun r => PH r + Gc r * r * (e - EH r))).
    + apply (loc_imp _ (fun y => below_max g y /\ rho0 g < y)); [|apply loc_and; [apply sbm_loc, Hm|apply loc_gt, L']].
      intros y (Y1 & Y2). symmetry. apply P_hi; [assumption|lra].
    + apply Pc_derive; [exact Hr|]. apply Rgt_not_eq, Hden; [lra|apply sbm, Hm].
Qed.
Lemma dP_de rho e : is_derive (fun s => P_e rho s) e (cap g rho * Gam (cap g rho)).
Proof.
  unfold PressureFromDensityInternalEnergy. destruct (Rle_bool (rho0 g) (cap g rho)); cbv zeta; auto_derive; try exact I; ring.
Qed.
Lemma bmod_ok rho e : 0 < rho -> strictly_below_max g rho -> rho <> rho0 g -> is_bulk_modulus P_e rho e (B_e rho e).
Proof.
  intros Hr Hm Hn. eexists _, _. refine (conj (dP_dr rho e Hr Hm Hn) (conj (dP_de rho e) _)).
  unfold BulkModulusFromDensityInternalEnergy. rewrite cap_id by (apply sbm, Hm).
  destruct (Rlt_bool_spec rho (rho0 g)) as [L|L].
  - rewrite dPres_lo by (try apply sbm; assumption). rewrite Gamma_lo by (try apply sbm; assumption). field. lra.
  - reflexivity.
Qed.
(** continuity across the reference density *)
Lemma PH_0 : PH (rho0 g) = P0 g /\ EH (rho0 g) = 0.
Proof.
  assert (E : eta g (rho0 g) = 0) by (unfold eta; field; lra). assert (D : den g (rho0 g) = 1) by (unfold den; rewrite E; ring).
  unfold EH, PH. rewrite E, D. split; field; lra.
Qed.
Lemma P_cont rho e : 0 < rho -> strictly_below_max g rho -> continuous (fun r => P_e r e) rho.
Proof.
  intros Hr Hm. destruct (Req_dec rho (rho0 g)) as [E|E]; [|apply (derive_cont _ _ _ (dP_dr rho e Hr Hm E))].
  subst rho. apply continuity_pt_filterlim. intros eps He.
  set (f1 := fun r => PH r + Gc r * r * (e - EH r)). set (f2 := fun r => P0 g + C0 g ^ 2 * (r - rho0 g) + G0 g * r * e).
  assert (C1 : continuity_pt f1 (rho0 g)).
  { apply continuity_pt_filterlim. apply (derive_cont _ _ (dPc (rho0 g) e)). apply Pc_derive; [lra|]. apply Rgt_not_eq, Hden; [lra|apply sbm, Hm]. }
  assert (C2 : continuity_pt f2 (rho0 g)).
  { apply continuity_pt_filterlim. apply (derive_cont _ _ (C0 g ^ 2 + G0 g * e)). unfold f2. auto_derive; [exact I|ring]. }
  assert (EQ : f1 (rho0 g) = f2 (rho0 g)).
  { unfold f1, f2. destruct PH_0 as (-> & ->). unfold Gc. field. lra. }
  destruct (C1 eps He) as (d1 & D1 & K1). destruct (C2 eps He) as (d2 & D2 & K2).
  pose proof (sbm_loc _ Hm) as (dl & Kl).
  exists (Rmin (Rmin d1 d2) dl). split. { apply Rmin_pos; [apply Rmin_pos; assumption|apply cond_pos]. }
  intros y (Dy & Hy). cbn in Hy. unfold R_dist in Hy.
  assert (Y1 : Rabs (y - rho0 g) < d1) by (eapply Rlt_le_trans; [exact Hy|]; eapply Rle_trans; [apply Rmin_l|apply Rmin_l]).
  assert (Y2 : Rabs (y - rho0 g) < d2) by (eapply Rlt_le_trans; [exact Hy|]; eapply Rle_trans; [apply Rmin_l|apply Rmin_r]).
  assert (Y3 : Rabs (y - rho0 g) < dl) by (eapply Rlt_le_trans; [exact Hy|apply Rmin_r]).
  assert (BM : below_max g y) by (apply Kl; exact Y3).
  rewrite (P_hi (rho0 g)) by (try apply sbm; assumption || lra). fold (f1 (rho0 g)).
  destruct (Rlt_dec y (rho0 g)).
  - rewrite (P_lo y) by assumption. fold (f2 y). rewrite EQ. apply K2. split; [split; [exact I|]|exact Y2]. lra.
  - rewrite (P_hi y) by (assumption || lra). fold (f1 y). apply K1. split; [|exact Y1]. split; [exact I|]. exact (proj2 Dy).
Qed.
End G.

Theorem C22_temperature_energy_round_trip : forall g rho, 0 < Cv g ->
  (forall T, TemperatureFromDensityInternalEnergy g rho (InternalEnergyFromDensityTemperature g rho T) = T) /\
  (forall e, InternalEnergyFromDensityTemperature g rho (TemperatureFromDensityInternalEnergy g rho e) = e).
Proof. intros g rho H. unfold TemperatureFromDensityInternalEnergy, InternalEnergyFromDensityTemperature. split; intros; field; lra. Qed.
Theorem C22_entry_points_agree : forall g rho T,
  PressureFromDensityTemperature g rho T = PressureFromDensityInternalEnergy g rho (InternalEnergyFromDensityTemperature g rho T) /\
  BulkModulusFromDensityTemperature g rho T = BulkModulusFromDensityInternalEnergy g rho (InternalEnergyFromDensityTemperature g rho T) /\
  forall e, GruneisenParamFromDensityTemperature g rho T = GruneisenParamFromDensityInternalEnergy g rho e.
Proof.
  intros g rho T. refine (conj _ (conj _ (fun e => eq_refl))).
  - unfold PressureFromDensityTemperature, PressureFromDensityInternalEnergy, InternalEnergyFromDensityTemperature. cbv zeta. rewrite cap_idem. reflexivity.
  - unfold BulkModulusFromDensityTemperature, BulkModulusFromDensityInternalEnergy, InternalEnergyFromDensityTemperature. cbv zeta. rewrite cap_idem. reflexivity.
Qed.
(** The shock states of the documented Us-up relation lie on the EOS: for every compression up to the limit there are shock and particle
    speeds satisfying it, and the Rankine-Hugoniot relations (mass, momentum, energy) give exactly the EOS pressure. *)
Theorem C22_hugoniot_is_on_the_EOS : forall g rho, regular g -> 0 < C0 g -> rho0 g < rho -> below_max g rho ->
  exists Us up e P, 0 < Us /\ Us = C0 g + up * (s1 g + s2 g * (up / Us) + s3 g * (up / Us) ^ 2) /\
    rho0 g * Us = rho * (Us - up) /\ P = P0 g + rho0 g * Us * up /\
    e = / 2 * (P + P0 g) * (1 / rho0 g - 1 / rho) /\ PressureFromDensityInternalEnergy g rho e = P.
Proof.
  intros g rho (H0 & HC & Hd) HC0 Hr Hm. specialize (Hd rho ltac:(lra) Hm).
  set (x := eta g rho). set (Us := C0 g / den g rho). exists Us, (x * Us), (EH g rho), (PH g rho).
  assert (HU : 0 < Us) by (unfold Us; apply Rdiv_lt_0_compat; lra).
  assert (Ex : x * Us / Us = x) by (field; lra).
  refine (conj HU (conj _ (conj _ (conj _ (conj _ _))))).
  - rewrite Ex. assert (E : Us * den g rho = C0 g) by (unfold Us; field; lra). unfold den in E. fold x in E. lra.
  - unfold x, eta. field. lra.
  - unfold PH. fold x. unfold Us. field. lra.
  - unfold EH. unfold eta. field. lra.
  - rewrite P_hi by (assumption || lra). ring.
Qed.
Theorem C22_derivatives : forall g rho e T, regular g -> 0 < rho -> strictly_below_max g rho -> rho <> rho0 g ->
  is_gruneisen (PressureFromDensityInternalEnergy g) rho e (GruneisenParamFromDensityInternalEnergy g rho e) /\
  is_bulk_modulus (PressureFromDensityInternalEnergy g) rho e (BulkModulusFromDensityInternalEnergy g rho e) /\
  is_specific_heat (InternalEnergyFromDensityTemperature g) rho T (SpecificHeatFromDensityTemperature g rho T).
Proof.
  intros g rho e T (H0 & HC & Hd) Hr Hm Hn. refine (conj _ (conj _ _)).
  - unfold is_gruneisen, GruneisenParamFromDensityInternalEnergy. pose proof (dP_de g rho e) as D. rewrite cap_id in D |- * by (apply sbm, Hm). exact D.
  - apply bmod_ok; assumption.
  - unfold is_specific_heat, InternalEnergyFromDensityTemperature, SpecificHeatFromDensityTemperature. auto_derive; [exact I|ring].
Qed.
Theorem C22_pressure_continuous : forall g rho e, regular g -> 0 < rho -> strictly_below_max g rho ->
  continuous (fun r => PressureFromDensityInternalEnergy g r e) rho.
Proof. intros g rho e (H0 & HC & Hd) Hr Hm. apply P_cont; assumption. Qed.
(** density is clipped: every query beyond the maximum density is the query at the maximum *)
Theorem C22_clipped_beyond_maximum : forall g m rho e, rho_max g = Some m -> m <= rho ->
  PressureFromDensityInternalEnergy g rho e = PressureFromDensityInternalEnergy g m e /\
  BulkModulusFromDensityInternalEnergy g rho e = BulkModulusFromDensityInternalEnergy g m e /\
  GruneisenParamFromDensityInternalEnergy g rho e = GruneisenParamFromDensityInternalEnergy g m e /\
  MinInternalEnergyFromDensity g rho = MinInternalEnergyFromDensity g m.
Proof.
  intros g m rho e E H. assert (C1 : cap g rho = m) by (unfold cap; rewrite E; apply Rmin_right; exact H).
  assert (C2 : cap g m = m) by (unfold cap; rewrite E; apply Rmin_left; lra).
  unfold PressureFromDensityInternalEnergy, BulkModulusFromDensityInternalEnergy, GruneisenParamFromDensityInternalEnergy, MinInternalEnergyFromDensity.
  rewrite C1, C2. auto.
Qed.
(** the advertised minimum pressure bounds the pressure in expansion as long as the isotherm slope there is non-negative *)
Theorem C22_minimum_pressure : forall g rho e, regular g -> 0 <= rho < rho0 g -> below_max g rho -> 0 <= C0 g ^ 2 + G0 g * e -> below_max g 0 ->
  MinimumPressure g = P0 g - C0 g ^ 2 * rho0 g /\ MinimumPressure g <= PressureFromDensityInternalEnergy g rho e.
Proof.
  intros g rho e (H0 & HC & Hd) Hr Hm Hs Hz. unfold MinimumPressure. rewrite (P_lo g 0) by (assumption || lra). rewrite (P_lo g rho) by (assumption || lra).
  split; [ring|]. assert (0 <= rho * (C0 g ^ 2 + G0 g * e)) by (apply Rmult_le_pos; lra). lra.
Qed.
(** ** (P,T) inversion *)
Definition solves (g : grun) (P T lo hi rho : R) : Prop :=
  exists u v r, lo <= u /\ u <= r <= v /\ v <= hi /\ u <= rho <= v /\ PressureFromDensityTemperature g r T = P /\
    (Rabs (rho - r) <= 1 / 100000000 \/ 
       Rmin (Rabs (PressureFromDensityTemperature g u T - P)) (Rabs (PressureFromDensityTemperature g v T - P)) <= 1 / 100000000).
Lemma P_T_cont g T rho : regular g -> 0 < rho -> strictly_below_max g rho -> continuity_pt (fun r => PressureFromDensityTemperature g r T) rho.
Proof.
  intros HR Hr Hm. apply continuity_pt_filterlim. apply (continuous_ext (fun r => PressureFromDensityInternalEnergy g r (Cv g * (T - T0 g))) (fun r => PressureFromDensityTemperature g r T) rho).
  - intros r. destruct (C22_entry_points_agree g r T) as (E & _). symmetry. exact E.
  - apply C22_pressure_continuous; assumption.
Qed.
(** in expansion (P below the reference isobar): any returned density is in [0, 1.1 rho0], the energy is the forward one, and an exact
    solution is enclosed as [solves] says *)
Theorem C22_density_from_PT_expansion : forall g P T rho e, regular g -> strictly_below_max g (11 / 10 * rho0 g) ->
  MinimumPressure g <= P < PressureFromDensityTemperature g (rho0 g) T ->
  DensityEnergyFromPressureTemperature g P T = Some (rho, e) ->
  e = InternalEnergyFromDensityTemperature g rho T /\ 0 <= rho <= rho0 g /\
  exists r, 0 <= r <= rho0 g /\ PressureFromDensityTemperature g r T = P /\
   (Rabs (rho - r) <= 1 / 100000000 \/ exists u v, 0 <= u <= rho /\ rho <= v <= rho0 g /\ u <= r <= v /\ 
       Rmin (Rabs (PressureFromDensityTemperature g u T - P)) (Rabs (PressureFromDensityTemperature g v T - P)) <= 1 / 100000000).
Proof.
  intros g P T rho e HR Hm HP H. assert (HR' := HR). destruct HR' as (H0 & HC & Hd).
  unfold DensityEnergyFromPressureTemperature in H. rewrite Rlt_bool_true in H by lra. cbv zeta iota beta in H.
  set (PT := fun r => PressureFromDensityTemperature g r T) in *. change (fun r : num RArith => PressureFromDensityTemperature g r T) with PT in H.
  destruct (@regula_falsi RArith PT P (rho0 g) 0 (11 / 10 * rho0 g) (1 / 100000000) (1 / 100000000)) as [|st x n] eqn:ER; [discriminate|].
  destruct st; [|discriminate]. destruct x as [x|]; [|discriminate]. injection H as <- <-. split; [reflexivity|].
  assert (BM : forall r, r <= rho0 g -> strictly_below_max g r). { intros r Hr. unfold strictly_below_max in *. destruct (rho_max g); [lra|exact I]. }
  assert (E0 : PT 0 = MinimumPressure g).
  { unfold PT, MinimumPressure. destruct (C22_entry_points_agree g 0 T) as (E & _). rewrite E. rewrite !P_lo by (try apply sbm, BM; lra). ring. }
  assert (LIN : forall r, 0 <= r <= rho0 g -> PT r = P0 g + C0 g ^ 2 * (r - rho0 g) + G0 g * r * (Cv g * (T - T0 g))).
  { intros r Hr. unfold PT. destruct (C22_entry_points_agree g r T) as (E & _). rewrite E. destruct (Req_dec r (rho0 g)) as [Z|Z].
    - subst r. rewrite P_hi by (try apply sbm, BM; lra). destruct (PH_0 g H0) as (-> & ->). unfold Gc, InternalEnergyFromDensityTemperature. field. lra.
    - rewrite P_lo by (try apply sbm, BM; lra). reflexivity. }
  assert (CT : forall z, 0 <= z <= rho0 g -> continuity_pt (fun r => P0 g + C0 g ^ 2 * (r - rho0 g) + G0 g * r * (Cv g * (T - T0 g))) z).
  { intros z _. apply derivable_continuous_pt. exists (C0 g ^ 2 + G0 g * (Cv g * (T - T0 g))). apply is_derive_Reals. auto_derive; [exact I|ring]. }
  assert (Q0 : 0 <= (P - PT 0) * (PT (rho0 g) - P)). { apply Rmult_le_pos; [rewrite E0; lra|unfold PT; lra]. }
  assert (HQ : @rf_bracket RArith (fun z => PT z - P) (rho0 g) 0 (11 / 10 * rho0 g) = Some (0, rho0 g, PT 0 - P, PT (rho0 g) - P)).
  { unfold rf_bracket, check_bracket, lit; cbn [leb mul ofQ RArith]. rewrite Rle_bool_true; [reflexivity|].
    lra. }
  destruct (rf_from_bracket PT P (rho0 g) 0 (11 / 10 * rho0 g) 0 (rho0 g) 0 (rho0 g) (1 / 100000000) (1 / 100000000) x n ltac:(lra) ltac:(lra) HQ ltac:(lra) ltac:(lra) ltac:(lra)
     ltac:(lra) ER) as (u & v & U1 & U2 & U3 & U4 & U5 & U6).
  destruct (sign_change_root (fun z => (P0 g + C0 g ^ 2 * (z - rho0 g) + G0 g * z * (Cv g * (T - T0 g))) - P) u v U2) as (r & Hr & Er).
  { intros z Hz. apply continuity_pt_minus; [apply CT; lra|]. apply continuity_pt_const. intros p q; reflexivity. }
  { unfold sign_change in *. rewrite <- !LIN by lra. exact U5. }
  split; [lra|]. exists r. split; [lra|]. split; [change (PT r = P); rewrite LIN by lra; lra|].
  destruct U6 as [U6|U6]; [left; apply Rabs_le; lra|]. right. exists u, v. refine (conj _ (conj _ (conj Hr U6))); lra.
Qed.
(** in compression with the maximum stable density strictly inside the table *)
Theorem C22_density_from_PT_compression : forall g P T rho e up, regular g ->
  MaxStableDensityAtTemperature g T = Some up -> rho0 g < up -> strictly_below_max g up ->
  0 <= C0 g ^ 2 + G0 g * (Cv g * (T - T0 g)) ->
  PressureFromDensityTemperature g (rho0 g) T <= P -> PressureFromDensityTemperature g (rho0 g) T < PressureFromDensityTemperature g up T ->
  DensityEnergyFromPressureTemperature g P T = Some (rho, e) ->
  e = InternalEnergyFromDensityTemperature g rho T /\ 9 / 10 * rho0 g <= rho <= up /\
  solves g (Rmin P (PressureFromDensityTemperature g up T)) T (9 / 10 * rho0 g) up rho.
Proof.
  intros g P T rho e up HR Hup Hu Hm Hs HP HPm H. assert (HR' := HR). destruct HR' as (H0 & HC & Hd).
  unfold DensityEnergyFromPressureTemperature in H. rewrite Rlt_bool_false in H by lra. rewrite Hup in H. cbv zeta iota beta in H.
  set (PT := fun r => PressureFromDensityTemperature g r T) in *. change (fun r : num RArith => PressureFromDensityTemperature g r T) with PT in H.
  change (PressureFromDensityTemperature g up T) with (PT up) in *. change (PressureFromDensityTemperature g (rho0 g) T) with (PT (rho0 g)) in *.
  assert (Ep : (if Rlt_bool (PT up) P then PT up else P) = Rmin P (PT up)).
  { destruct (Rlt_bool_spec (PT up) P); [symmetry; apply Rmin_right; lra|symmetry; apply Rmin_left; lra]. }
  rewrite Ep in H. set (p := Rmin P (PT up)) in *.
  assert (Hp : PT (rho0 g) <= p <= PT up). { unfold p. split; [apply Rmin_glb; lra|apply Rmin_r]. }
  set (guess := rho0 g + (up - rho0 g) / (PT up - PT (rho0 g)) * (p - PT (rho0 g))) in *.
  assert (Hg : rho0 g <= guess <= up).
  { unfold guess. assert (0 <= (p - PT (rho0 g)) / (PT up - PT (rho0 g)) <= 1).
    { split; [apply Rle_mult_inv_pos; lra|]. apply Rmult_le_reg_r with (PT up - PT (rho0 g)); [lra|]. unfold Rdiv. rewrite Rmult_assoc, Rinv_l by lra. lra. }
    replace ((up - rho0 g) / (PT up - PT (rho0 g)) * (p - PT (rho0 g))) with ((up - rho0 g) * ((p - PT (rho0 g)) / (PT up - PT (rho0 g)))) by (field; lra).
    assert (0 <= (up - rho0 g) * ((p - PT (rho0 g)) / (PT up - PT (rho0 g)))) by (apply Rmult_le_pos; lra).
    assert ((up - rho0 g) * ((p - PT (rho0 g)) / (PT up - PT (rho0 g))) <= (up - rho0 g) * 1) by (apply Rmult_le_compat_l; lra). lra. }
  destruct (@regula_falsi RArith PT p guess (9 / 10 * rho0 g) up (1 / 100000000) (1 / 100000000)) as [|st x n] eqn:ER; [discriminate|].
  destruct st; [|discriminate]. destruct x as [x|]; [|discriminate]. injection H as <- <-. split; [reflexivity|].
  assert (BM : forall r, r <= up -> strictly_below_max g r). { intros r Hr. unfold strictly_below_max in *. destruct (rho_max g); [lra|exact I]. }
  assert (PL : PT (9 / 10 * rho0 g) <= PT (rho0 g)).
  { unfold PT. destruct (C22_entry_points_agree g (9 / 10 * rho0 g) T) as (E & _). rewrite E. destruct (C22_entry_points_agree g (rho0 g) T) as (E' & _). rewrite E'.
    rewrite (P_lo g (9 / 10 * rho0 g)) by (try apply sbm, BM; lra). rewrite (P_hi g (rho0 g)) by (try apply sbm, BM; lra).
    destruct (PH_0 g H0) as (-> & ->). unfold Gc, InternalEnergyFromDensityTemperature in *.
    replace ((G0 g * rho0 g / rho0 g + b g * (1 - rho0 g / rho0 g)) * rho0 g) with (G0 g * rho0 g) by (field; lra).
    assert (0 <= rho0 g * (C0 g ^ 2 + G0 g * (Cv g * (T - T0 g)))) by (apply Rmult_le_pos; lra). lra. }
  assert (CT : forall z, 9 / 10 * rho0 g <= z <= up -> continuity_pt PT z).
  { intros z Hz. apply P_T_cont; [exact HR|lra|apply BM; lra]. }
  assert (SC : (PT (9 / 10 * rho0 g) - p) * (PT guess - p) <= 0 \/ (PT guess - p) * (PT up - p) <= 0).
  { destruct (Rle_dec p (PT guess)).
    - left. assert (0 <= (p - PT (9 / 10 * rho0 g)) * (PT guess - p)) by (apply Rmult_le_pos; lra). lra.
    - right. assert (0 <= (p - PT guess) * (PT up - p)) by (apply Rmult_le_pos; lra). lra. }
  destruct (rf_root_near PT p guess (9 / 10 * rho0 g) up (1 / 100000000) (1 / 100000000) x n ltac:(lra) ltac:(lra) ltac:(lra) CT SC ER) as (B & u & v & r & W).
  split; [exact B|]. exists u, v, r. exact W.
Qed.
(** a request for the temperature or the pressure is served only from density and energy: with either of the two also requested it is
    refused (UNDEFINED_ERROR); in particular no request with fewer than two inputs is served *)
Theorem C22_FillEos_refuses : forall g o s, (f_temp o || f_press o)%bool = true -> (f_rho o || f_sie o)%bool = true -> FillEos g o s = None.
Proof. intros g [[] [] [] [] fc fb] s; cbn; intros H E; try reflexivity; discriminate. Qed.
Corollary C22_FillEos_refuses_underdetermined : forall g o s, (inputs o < 2)%nat -> FillEos g o s = None.
Proof.
  intros g o s H. apply C22_FillEos_refuses; destruct o as [[] [] [] [] fc fb]; unfold inputs in H; cbn in *; try reflexivity; lia.
Qed.
Example C22_FillEos_refuses_instance : (inputs (mkF true false true true true true) < 2)%nat.
Proof. cbn. lia. Qed.
(** ** FillEos *)
Theorem C22_FillEos : forall g o s s', mode_of o InRhoSie -> (f_temp o || f_press o)%bool = true -> FillEos g o s = Some s' ->
  fill_ok (fun r => TemperatureFromDensityInternalEnergy g r) (PressureFromDensityInternalEnergy g) (SpecificHeatFromDensityInternalEnergy g)
          (BulkModulusFromDensityInternalEnergy g) InRhoSie o s s'.
Proof.
  intros g [fr ft fs fp fc fb] [r t e p c bb] s'. unfold mode_of. cbn [f_rho f_sie f_temp f_press]. intros (-> & ->) Hf.
  unfold FillEos, cond_upd. cbn [f_rho f_sie f_temp f_press f_cv f_bmod].
  assert (E : (negb ft && negb fp)%bool = false) by (destruct ft, fp; cbn in *; congruence). rewrite E. cbn [orb s_rho].
  assert (CP : PressureFromDensityInternalEnergy g (cap g r) e = PressureFromDensityInternalEnergy g r e).
  { unfold PressureFromDensityInternalEnergy. cbv zeta. rewrite cap_idem. reflexivity. }
  assert (CB : BulkModulusFromDensityInternalEnergy g (cap g r) e = BulkModulusFromDensityInternalEnergy g r e).
  { unfold BulkModulusFromDensityInternalEnergy. cbv zeta. rewrite cap_idem. reflexivity. }
  intros H; injection H as <-. unfold fill_ok, fill_frame, fill_values.
  destruct ft, fp, fc, fb; cbn in *; rewrite ?CP, ?CB; repeat split; auto; try discriminate.
Qed.
(** Refuted: asked for the bulk modulus alone at a given density and energy, FillEos instead inverts the (uninitialised) pressure and
    temperature arguments and overwrites the caller's density and energy *)
Theorem C58_gruneisen_FillEos_bulk_modulus_only_refuted : exists g o s, regular g /\ mode_of o InRhoSie /\ f_bmod o = true /\
  forall s', FillEos g o s = Some s' -> s_rho s' <> s_rho s.
Proof.
  set (g := mkGrun 1 0 0 0 0 0 1 0 0 1 None 1 1).
  exists g, (mkF false false false false false true), (mkS 5 0 0 (-1/2) 0 0).
  assert (HR : regular g). { unfold regular, g, den, below_max. cbn. repeat split; try lra. intros; lra. }
  split; [exact HR|]. split; [cbn; auto|]. split; [reflexivity|].
  intros s'. unfold FillEos. cbn [f_rho f_sie f_temp f_press negb andb].
  destruct (DensityEnergyFromPressureTemperature g (s_press (mkS 5 0 0 (-1/2) 0 0)) (s_temp (mkS 5 0 0 (-1/2) 0 0))) as [[r e]|] eqn:E; [|discriminate].
  cbn [s_press s_temp] in E. intros H; injection H as <-. cbn.
  assert (P0' : PressureFromDensityTemperature g (rho0 g) 0 = 0).
  { unfold PressureFromDensityTemperature, PressureFromDensityInternalEnergy, InternalEnergyFromDensityTemperature, Gamma, cap, g. cbn. rewrite Rle_bool_true by lra. field. }
  assert (PM : MinimumPressure g = -1). { unfold MinimumPressure. rewrite P_lo; unfold g; cbn; [ring|exact I|lra]. }
  destruct (C22_density_from_PT_expansion g (-1/2) 0 r e HR) as (_ & B & _); [exact I|rewrite P0', PM; lra|exact E|]. unfold g in B. cbn in B. lra.
Qed.
(** ** reference state *)
Theorem C22_reference_state : forall g, 0 < rho0 g -> below_max g (rho0 g) -> exists rho T sie P cv bmod dpde dvdt,
  ValuesAtReferenceState g = (rho :: T :: sie :: P :: cv :: bmod :: dpde :: dvdt :: nil)%list /\
  rho = rho0 g /\ T = T0 g /\ sie = InternalEnergyFromDensityTemperature g rho T /\ P = P0 g /\ P = PressureFromDensityTemperature g rho T /\
  bmod = BulkModulusFromDensityTemperature g rho T.
Proof.
  intros g H0 Hm. eexists _, _, _, _, _, _, _, _. split; [reflexivity|]. split; [reflexivity|]. split; [reflexivity|].
  assert (EE : 0 = InternalEnergyFromDensityTemperature g (rho0 g) (T0 g)) by (unfold InternalEnergyFromDensityTemperature; ring).
  assert (EP : PressureFromDensityInternalEnergy g (rho0 g) 0 = P0 g). { rewrite P_hi by (assumption || lra). destruct (PH_0 g H0) as (-> & ->). ring. }
  destruct (C22_entry_points_agree g (rho0 g) (T0 g)) as (K1 & K2 & _). rewrite K1, K2, <- EE. auto.
Qed.
(** Refuted: the reference dP/de is computed as (reference pressure)/(reference energy) with reference energy zero; no real number is that
    quotient unless the reference pressure is zero *)
Theorem C58_gruneisen_reference_dpde_refuted : exists g, 0 < rho0 g /\ below_max g (rho0 g) /\
  exists P sie, nth 3 (ValuesAtReferenceState g) 0 = P /\ nth 2 (ValuesAtReferenceState g) 0 = sie /\ sie = 0 /\ forall d, d * sie <> P.
Proof.
  set (g := mkGrun 1 0 0 0 0 0 1 0 5 1 None 1 1). exists g. split; [unfold g; cbn; lra|]. split; [exact I|]. eexists _, _. split; [reflexivity|]. split; [reflexivity|].
  split; [reflexivity|]. intros d.
  change (nth 3 (ValuesAtReferenceState g) 0) with (PressureFromDensityInternalEnergy g (rho0 g) 0). change (nth 2 (ValuesAtReferenceState g) 0) with 0.
  rewrite P_hi; [|exact I|lra]. destruct (PH_0 g) as (-> & ->); unfold g; cbn; lra.
Qed.
(** Refuted: MaximumPressureAtTemperature returns a density; the pressure at that density can exceed it *)
Theorem C59_gruneisen_maximum_pressure_refuted : exists g T m, regular g /\ MaximumPressureAtTemperature g T = Some m /\ rho_max g = Some m /\
  m < PressureFromDensityTemperature g m T.
Proof.
  set (g := mkGrun 10 0 0 0 0 0 1 0 0 1 (Some 2) 1 1). exists g, 0, 2.
  assert (HR : regular g). { unfold regular, g, den, below_max. cbn. repeat split; try lra. intros; lra. }
  split; [exact HR|].
  assert (D : dPdrho_T g 0 2 = 25).
  { unfold dPdrho_T. rewrite dPres_hi; [|unfold below_max, g; cbn; lra|unfold g; cbn; lra].
    unfold dPc, dPH, EH, PH, Gc, den, eta, InternalEnergyFromDensityTemperature, g. cbn. field. }
  split. { unfold MaximumPressureAtTemperature, MaxStableDensityAtTemperature. change (rho_max g) with (Some 2). cbv iota zeta. rewrite D. rewrite Rle_bool_true by lra. reflexivity. }
  split; [reflexivity|]. destruct (C22_entry_points_agree g 2 0) as (E & _). rewrite E. rewrite P_hi; [|unfold below_max, g; cbn; lra|unfold g; cbn; lra].
  unfold EH, PH, Gc, den, eta, InternalEnergyFromDensityTemperature, g. cbn. lra.
Qed.
(** a copper-like linear relation (s1 = 3/2) is regular with the automatic limit: hypotheses of the theorems above are met *)
Example C22_instance : exists g, make_auto 4 (3/2) 0 0 2 (1/2) 9 300 0 1 1 1 = Some g /\ regular g /\ rho0 g < 20 /\ strictly_below_max g 20 /\ CheckParams g = true.
Proof.
  pose proof EPS_pos. pose proof EPS_small.
  assert (ER : eta_root (3/2) 0 0 = Some (1 / (3/2))). { unfold eta_root. rewrite near_zero_0. rewrite Rlt_bool_true by lra. reflexivity. }
  eexists. split. { unfold make_auto, ComputeRhoMax. rewrite ER. rewrite !Rlt_bool_true by lra. cbn [andb]. reflexivity. }
  match goal with |- regular ?gg /\ _ => set (g := gg) end.
  assert (HM : make_auto 4 (3/2) 0 0 2 (1/2) 9 300 0 1 1 1 = Some g). { unfold make_auto, ComputeRhoMax. rewrite ER. rewrite !Rlt_bool_true by lra. cbn [andb]. reflexivity. }
  split. { split; [unfold g; cbn; lra|]. split; [unfold g; cbn; lra|].
    intros rho Hr. apply (C22_automatic_maximum_density_safe 4 (3/2) 0 2 (1/2) 9 300 0 1 1 1 g ltac:(lra) (or_introl eq_refl) HM). exact Hr. }
  split; [unfold g; cbn; lra|].
  assert (B : 20 < RHOMAX_SAFETY * (9 / (1 - 1 / (3 / 2) + EPS))).
  { unfold RHOMAX_SAFETY. assert (Hd : 0 < 1 - 1 / (3 / 2) + EPS) by lra. apply Rmult_lt_reg_r with (1 - 1 / (3 / 2) + EPS); [exact Hd|].
    replace (99 / 100 * (9 / (1 - 1 / (3 / 2) + EPS)) * (1 - 1 / (3 / 2) + EPS)) with (99 / 100 * 9) by (field; lra). lra. }
  split; [exact B|]. unfold CheckParams, g. cbn [T0 rho0 C0 Cv rho_max Abar Zbar]. rewrite !Rle_bool_true, !Rlt_bool_true by lra. reflexivity.
Qed.
Theorem C44_gruneisen_CheckParams : forall g, CheckParams g = true <->
  0 <= T0 g /\ 0 <= rho0 g /\ 0 <= C0 g /\ 0 <= Cv g /\ strictly_below_max g (rho0 g) /\ 0 < Abar g /\ 0 < Zbar g.
Proof.
  intros g. unfold CheckParams, strictly_below_max. rewrite !andb_true_iff. destruct (rho_max g) as [m|].
  - destruct (Rle_bool_spec 0 (T0 g)), (Rle_bool_spec 0 (rho0 g)), (Rle_bool_spec 0 (C0 g)), (Rle_bool_spec 0 (Cv g)), (Rlt_bool_spec (rho0 g) m),
      (Rlt_bool_spec 0 (Abar g)), (Rlt_bool_spec 0 (Zbar g)); split; intros HH; try (exfalso; intuition (discriminate || lra); fail); intuition lra.
  - destruct (Rle_bool_spec 0 (T0 g)), (Rle_bool_spec 0 (rho0 g)), (Rle_bool_spec 0 (C0 g)), (Rle_bool_spec 0 (Cv g)),
      (Rlt_bool_spec 0 (Abar g)), (Rlt_bool_spec 0 (Zbar g)); split; intros HH; try (exfalso; intuition (discriminate || lra); fail); intuition lra.
Qed.
(** Refuted: no Gruneisen constructor runs its own parameter check, so a negative heat capacity is accepted *)
Theorem C62_gruneisen_constructor_unchecked_refuted : exists g, make_auto 1 0 0 0 0 0 1 0 0 (-1) 1 1 = Some g /\ CheckParams g = false.
Proof.
  assert (ER : eta_root 0 0 0 = Some (-1)). { unfold eta_root. rewrite near_zero_0. rewrite Rlt_bool_false by lra. reflexivity. }
  eexists. unfold make_auto, ComputeRhoMax. rewrite ER. rewrite Rlt_bool_false by lra. cbn [andb]. split; [reflexivity|].
  unfold CheckParams. cbn. rewrite (Rle_bool_false 0 (-1)) by lra. rewrite !andb_false_r. reflexivity.
Qed.
Print Assumptions C22_automatic_maximum_density_safe.
Print Assumptions C63_gruneisen_cubic_maximum_density_partial.
Print Assumptions C22_temperature_energy_round_trip.
Print Assumptions C22_entry_points_agree.
Print Assumptions C22_hugoniot_is_on_the_EOS.
Print Assumptions C22_derivatives.
Print Assumptions C22_pressure_continuous.
Print Assumptions C22_clipped_beyond_maximum.
Print Assumptions C22_minimum_pressure.
Print Assumptions C22_density_from_PT_expansion.
Print Assumptions C22_density_from_PT_compression.
Print Assumptions C22_FillEos_refuses.
Print Assumptions C22_FillEos.
Print Assumptions C58_gruneisen_FillEos_bulk_modulus_only_refuted.
Print Assumptions C22_reference_state.
Print Assumptions C58_gruneisen_reference_dpde_refuted.
Print Assumptions C59_gruneisen_maximum_pressure_refuted.
Print Assumptions C44_gruneisen_CheckParams.
Print Assumptions C62_gruneisen_constructor_unchecked_refuted.
