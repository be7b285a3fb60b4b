(** C78: the EOSPAC class *)
From Coq Require Import ZArith Reals List Bool Lra Lia.
From Flocq Require Import Core.
From Coquelicot Require Import Coquelicot.
From Verif Require Import Robust_Model Thermo_Spec Thermo_Tools Sesame_Model Sesame_Spec Sesame_Tables_Props Vector_Model Vector_Spec Eospac_Model Eospac_Spec.
Import ListNotations.
Local Open Scope R_scope.

Lemma s10 x : 10 ^ 10 * (x / 10 ^ 10) = x. Proof. field; lra. Qed.
Lemma s10' x : 10 ^ 10 * (/ 10 ^ 10 * x) = x. Proof. field; lra. Qed.
Ltac sesame := unfold pressureFromSesame, sieFromSesame, bulkModulusFromSesame, temperatureFromSesame, temperatureToSesame, sieToSesame,
  cvFromSesame, entropyFromSesame, pressureToSesame in *.
Section Scalar.
Variables (m : material) (p : eospac).
Hypothesis V : view m p.
Let VP := ev_P _ _ _ _ (v_base _ _ V).
Let VE := ev_E _ _ _ _ (v_base _ _ V).
Let VT := ev_T _ _ _ _ (v_base _ _ V).
Lemma q_T rho e : T_e p rho e = Tm m rho e.
Proof. unfold T_e. sesame. destruct (VT rho (/ 10 ^ 10 * e)) as (-> & _ & _). rewrite s10'. reflexivity. Qed.
Lemma q_P rho T : P_T p rho T = P m rho T.
Proof. unfold P_T. sesame. destruct (VP rho T) as (-> & _ & _). apply s10. Qed.
Lemma q_E u rho T : E_T p u rho T = Some (E m rho T).
Proof. unfold E_T, FillEos, fill_rest. cbn. sesame. destruct (VE rho T) as (-> & _ & _). rewrite <- (s10 (E m rho T)) at 2. do 2 f_equal. Qed.
Lemma q_C u rho T : C_T p u rho T = Some (Rmax (E_t m rho T) 0).
Proof. unfold C_T, FillEos, fill_rest. cbn -[pow]. sesame. destruct (VE rho T) as (_ & _ & ->). rewrite <- (scale_max (E_t m rho T)). reflexivity. Qed.
Definition modulus_value (rho T : R) : R :=
  if (Rlt_bool 0 (E_t m rho T) && Rlt_bool 0 rho)%bool then rho * P_r m rho T + P_t m rho T / E_t m rho T * (P m rho T / rho - rho * E_r m rho T)
  else if Rlt_bool 0 rho then Rmax (rho * P_r m rho T) 0 else 0.
Lemma lt_scaled x : Rlt_bool 0 (x / 10 ^ 10) = Rlt_bool 0 x.
Proof.
  destruct (Rlt_bool_spec 0 x) as [L|L].
  - apply Rlt_bool_true. apply Rdiv_lt_0_compat; lra.
  - apply Rlt_bool_false. unfold Rdiv. assert (0 < / 10 ^ 10) by (apply Rinv_0_lt_compat; lra). nra.
Qed.
Lemma modulus_scaled rho T : Rmax (bmod_sesame rho (P m rho T / 10 ^ 10) (P_r m rho T / 10 ^ 10) (P_t m rho T / 10 ^ 10) (E_r m rho T / 10 ^ 10) (E_t m rho T / 10 ^ 10)) 0
   = Rmax (modulus_value rho T / 10 ^ 10) 0.
Proof.
  f_equal. unfold bmod_sesame, modulus_value. rewrite lt_scaled. destruct (Rlt_bool_spec 0 (E_t m rho T)) as [L|L]; destruct (Rlt_bool_spec 0 rho) as [L2|L2]; cbn [andb].
  - field. repeat split; lra.
  - field; lra.
  - rewrite <- (scale_max (rho * P_r m rho T)). replace (rho * P_r m rho T / 10 ^ 10) with (rho * (P_r m rho T / 10 ^ 10)) by (field; lra). field; lra.
  - field; lra.
Qed.
Lemma q_B u rho T : B_T p u rho T = Some (Rmax (modulus_value rho T) 0).
Proof.
  unfold B_T, FillEos, fill_rest. cbn -[pow bmod_sesame]. sesame. destruct (VE rho T) as (_ & -> & ->). destruct (VP rho T) as (-> & -> & ->).
  rewrite modulus_scaled, scale_max. reflexivity.
Qed.
Lemma q_Pe rho e : P_e p rho e = P_of_E m rho e.
Proof.
  unfold P_e, i_f. cbn [cf cx cy]. sesame. rewrite (v_PE _ _ V). replace (rho / 1) with rho by field. replace (10 ^ 10 * (e / (10 ^ 10 * 1))) with e by (field; lra). field; lra.
Qed.
Lemma q_Emin z rho : E_min p z rho = Ecold m rho.
Proof. unfold E_min, i_f. cbn [cf cx cy]. sesame. rewrite (v_Ec _ _ V). replace (rho / 1) with rho by field. field; lra. Qed.
Lemma q_G rho T : G_T p rho T = ratio (P_t m rho T / 10 ^ 10 / (E_t m rho T / 10 ^ 10)) rho.
Proof.
  unfold G_T. sesame. cbv zeta. destruct (VE rho T) as (_ & _ & ->). destruct (VP rho T) as (_ & _ & ->). f_equal. rewrite s10'. reflexivity.
Qed.

(** Every scalar query, in cgs units: T(rho,e) inverts e(rho,T); P, cv, the Gruneisen parameter and the isentropic bulk modulus are those of the
    material; both entry points give the same answers. *)
Theorem C78_scalar_queries : forall u rho T, right_at m rho T -> 0 < E_t m rho T -> tiny <= rho -> let e := E m rho T in
  E_T p u rho T = Some e /\ T_e p rho e = T /\ P_T p rho T = P m rho T /\ P_e p rho e = P m rho T /\
  (exists c, C_T p u rho T = Some c /\ C_e p u rho e = Some c /\ is_specific_heat (E m) rho T c) /\
  (exists b B, B_T p u rho T = Some b /\ B_e p u rho e = Some b /\ is_bulk_modulus (P_of_E m) rho e B /\ b = Rmax B 0) /\
  is_gruneisen (P_of_E m) rho e (G_T p rho T) /\ G_e p rho e = G_T p rho T /\ (forall z, E_min p z rho = Ecold m rho).
Proof.
  intros u rho T RA ET HR e. assert (R0 : 0 < rho) by (pose proof tiny_pos; lra).
  assert (IT : Tm m rho e = T) by apply (ra_inv _ _ _ RA).
  split; [apply q_E|]. split; [rewrite q_T; exact IT|]. split; [apply q_P|].
  split; [rewrite q_Pe; unfold P_of_E; rewrite IT; reflexivity|]. split; [|split; [|split; [|split]]].
  - exists (E_t m rho T). unfold C_e. rewrite !q_C, q_T, IT, Rmax_left by lra. split; [reflexivity|]. split; [reflexivity|].
    apply (partial_y _ _ _ _ _ (ra_E _ _ _ RA)).
  - exists (Rmax (modulus_value rho T) 0), (modulus_value rho T). unfold B_e. rewrite !q_B, q_T, IT. split; [reflexivity|]. split; [reflexivity|]. split; [|reflexivity].
    unfold modulus_value. rewrite (Rlt_bool_true _ _ ET), (Rlt_bool_true _ _ R0). cbn [andb]. apply modulus; [lra|exact RA].
  - unfold is_gruneisen. rewrite q_G, ratio_pos by exact HR. destruct (P_of_E_slopes m rho T RA) as [_ B]. fold e in B.
    destruct (inverse_slopes m rho T RA) as [_ I2]. fold e in I2.
    assert (TE : Sesame_Spec.T_e m rho e = / E_t m rho T) by (apply (Rmult_eq_reg_r (E_t m rho T)); [rewrite I2; field; lra|lra]). rewrite TE in B.
    eapply is_derive_eq; [exact B|]. field. lra.
  - unfold G_e. rewrite q_T, IT. reflexivity.
  - intros z. apply q_Emin.
Qed.
(** Entropy: present exactly when the table has it, in cgs units; the energy entry point goes through the temperature. *)
Theorem C78_entropy : forall rho T, 
  S_T p rho T = (if entropy_available p then Some (Sof m rho T) else None) /\
  (right_at m rho T -> S_e p rho (E m rho T) = S_T p rho T).
Proof.
  intros rho T. unfold S_e, S_T. destruct (entropy_available p); [|split; reflexivity]. sesame. rewrite (v_S _ _ V), s10. split; [reflexivity|].
  intros RA. rewrite q_T, (ra_inv _ _ _ RA), (v_S _ _ V), s10. reflexivity.
Qed.
(** Specific heat and bulk modulus are never negative, whatever the tables hold. *)
Theorem C78_nonnegative : forall u rho T v, (C_T p u rho T = Some v \/ B_T p u rho T = Some v) -> 0 <= v.
Proof. intros u rho T v [H|H]; [rewrite q_C in H|rewrite q_B in H]; inversion H; apply Rmax_r. Qed.
(** With the temperature derivative of the energy not positive the bulk modulus is the isothermal one, clipped at zero. *)
Theorem C78_isothermal_modulus : forall u rho T, right_at m rho T -> E_t m rho T <= 0 -> 0 < rho ->
  exists d, is_derive (fun r => P m r T) rho d /\ B_T p u rho T = Some (Rmax (rho * d) 0) /\ C_T p u rho T = Some 0.
Proof.
  intros u rho T RA ET R0. exists (P_r m rho T). split; [apply (partial_x _ _ _ _ _ (ra_P _ _ _ RA))|]. rewrite q_B, q_C. unfold modulus_value.
  rewrite (Rlt_bool_false _ _ ET), (Rlt_bool_true _ _ R0). cbn [andb]. rewrite (Rmax_left (Rmax _ 0) 0) by apply Rmax_r. rewrite (Rmax_right (E_t m rho T) 0) by exact ET. split; reflexivity.
Qed.
(** The (P, T) call returns a density with that pressure, and the energy there. *)
Theorem C78_pressure_temperature : inverts m -> total p = true -> forall Pr T, 0 < T -> exists rho e,
  DensityEnergyFromPressureTemperature p Pr T = Some (rho, e) /\ P m rho T = Pr /\ e = E m rho T.
Proof.
  intros [I1 I2] HT Pr T T0. unfold DensityEnergyFromPressureTemperature. rewrite HT. cbv zeta. sesame. rewrite (v_R _ _ V), s10'.
  exists (rhoPT m Pr T), (E m (rhoPT m Pr T) T). split; [|split; [apply I1; exact T0|reflexivity]]. destruct (VE (rhoPT m Pr T) T) as (-> & _ & _). rewrite s10. reflexivity.
Qed.
(** The derivatives at constant pressure and temperature are those of rho(P,T) and e(rho(P,T),T). *)
Theorem C78_PT_derivatives : inverts m -> total p = true -> forall Pr T, 0 < T -> let rho := rhoPT m Pr T in
  right_at m rho T -> smooth_density m Pr T -> tiny <= Rabs (P_r m rho T) ->
  exists drdP dedP drdT dedT, PTDerivativesFromPreferred p rho (E m rho T) Pr T = Some (drdP, dedP, drdT, dedT) /\
    is_PT_derivatives (rhoPT m) (fun P T => E m (rhoPT m P T) T) Pr T drdP dedP drdT dedT.
Proof.
  intros [I1 _] HT Pr T T0 rho RA [a [b D]] HP. unfold PTDerivativesFromPreferred. rewrite HT. cbv zeta. sesame.
  destruct (VE rho T) as (_ & -> & ->). destruct (VP rho T) as (_ & -> & ->). rewrite !s10. rewrite !ratio_abs by exact HP.
  assert (P0 : P_r m rho T <> 0) by (intros Z; rewrite Z, Rabs_R0 in HP; pose proof tiny_pos; lra).
  do 4 eexists. split; [reflexivity|].
  assert (DP := ra_P _ _ _ RA). assert (DE := ra_E _ _ _ RA).
  assert (Dx := partial_x _ _ _ _ _ D). assert (Dy := partial_y _ _ _ _ _ D). apply is_derive_Reals in Dx, Dy.
  (* a and b from the inverse identity *)
  assert (A : P_r m rho T * a = 1).
  { assert (K := derivable_pt_lim_comp_2d (P m) (fun q => rhoPT m q T) (fun _ => T) Pr _ _ a 0 DP Dx (derivable_pt_lim_const T Pr)).
    assert (C : derivable_pt_lim (fun q => P m (rhoPT m q T) T) Pr 1).
    { apply is_derive_Reals. apply is_derive_ext with (fun q : R => q); [intros t; symmetry; apply I1; exact T0|]. apply is_derive_Reals, derivable_pt_lim_id. }
    assert (Q := uniqueness_limite _ _ _ _ K C). lra. }
  assert (B : P_r m rho T * b + P_t m rho T = 0).
  { assert (K := derivable_pt_lim_comp_2d (P m) (fun t => rhoPT m Pr t) (fun t => t) T _ _ b 1 DP Dy (derivable_pt_lim_id T)).
    assert (C : derivable_pt_lim (fun t => P m (rhoPT m Pr t) t) T 0).
    { apply is_derive_Reals. apply is_derive_ext_loc with (fun _ : R => Pr); [generalize (loc_gt 0 T T0); apply filter_imp; intros t Ht; symmetry; apply I1; exact Ht|]. apply is_derive_Reals, derivable_pt_lim_const. }
    assert (Q := uniqueness_limite _ _ _ _ K C). lra. }
  assert (EA : a = 1 / P_r m rho T) by (apply (Rmult_eq_reg_l (P_r m rho T)); [rewrite A; field; exact P0|exact P0]).
  assert (EB : b = - (P_t m rho T / P_r m rho T)) by (apply (Rmult_eq_reg_l (P_r m rho T)); [replace (P_r m rho T * b) with (- P_t m rho T) by lra; field; exact P0|exact P0]).
  unfold is_PT_derivatives. split; [|split; [|split]].
  - rewrite <- EA. apply is_derive_Reals. exact Dx.
  - apply is_derive_Reals. assert (K := derivable_pt_lim_comp_2d (E m) (fun q => rhoPT m q T) (fun _ => T) Pr _ _ a 0 DE Dx (derivable_pt_lim_const T Pr)).
    replace (E_r m rho T / P_r m rho T) with (E_r m rho T * a + E_t m rho T * 0) by (rewrite EA; field; exact P0). exact K.
  - rewrite <- EB. apply is_derive_Reals. exact Dy.
  - apply is_derive_Reals. assert (K := derivable_pt_lim_comp_2d (E m) (fun t => rhoPT m Pr t) (fun t => t) T _ _ b 1 DE Dy (derivable_pt_lim_id T)).
    replace (E_t m rho T - E_r m rho T * P_t m rho T / P_r m rho T) with (E_r m rho T * b + E_t m rho T * 1) by (rewrite EB; field; exact P0). exact K.
Qed.
(** The reference state is normal density at 293 K, its values are those of the queries there, dpde is the slope of P(rho,e) and dvdt the slope of
    the specific volume along the isobar. *)
Theorem C78_reference_state : forall u, let r := ValuesAtReferenceState p in let rho := normalDensity p in let T := 293 in
  right_at m rho T -> tiny <= E_t m rho T / 10 ^ 10 -> tiny <= rho -> tiny <= Rabs (rho * rho * P_r m rho T) ->
  inverts m -> smooth_density m (P m rho T) T -> rhoPT m (P m rho T) T = rho ->
  r_rho r = rho /\ r_temp r = T /\ E_T p u rho T = Some (r_sie r) /\ P_T p rho T = r_press r /\ C_T p u rho T = Some (r_cv r) /\ B_T p u rho T = Some (r_bmod r) /\
  is_derive (fun x => P_of_E m rho x) (E m rho T) (r_dpde r) /\ is_derive (fun t => / rhoPT m (P m rho T) t) T (r_dvdt r).
Proof.
  intros u r rho T RA ET HR HP [I1 _] [a [b D]] IR. pose proof tiny_pos as TP. assert (R0 : 0 < rho) by lra.
  assert (E0 : 0 < E_t m rho T). { replace (E_t m rho T) with (10 ^ 10 * (E_t m rho T / 10 ^ 10)) by apply s10. apply Rmult_lt_0_compat; lra. }
  assert (P0 : P_r m rho T <> 0). { intros Z. rewrite Z, Rmult_0_r, Rabs_R0 in HP. lra. }
  rewrite q_E, q_P, q_C, q_B. unfold r, ValuesAtReferenceState. cbn [r_rho r_temp r_sie r_press r_cv r_bmod r_dpde r_dvdt]. fold rho. unfold temperatureToSesame. fold T.
  destruct (VE rho T) as (-> & -> & ->). destruct (VP rho T) as (-> & -> & ->). sesame. rewrite !s10, scale_max, !s10'.
  rewrite (ratio_pos _ (E_t m rho T / 10 ^ 10)) by exact ET. rewrite (ratio_pos _ rho) by exact HR. rewrite (ratio_abs _ (rho * rho * P_r m rho T)) by exact HP.
  repeat (split; [reflexivity|]). split; [|split].
  - f_equal. rewrite <- (scale_max (modulus_value rho T)). do 2 f_equal. unfold modulus_value. rewrite (Rlt_bool_true _ _ E0), (Rlt_bool_true _ _ R0). cbn [andb]. field. repeat split; lra.
  - destruct (P_of_E_slopes m rho T RA) as [_ B]. destruct (inverse_slopes m rho T RA) as [_ I2].
    assert (TE : Sesame_Spec.T_e m rho (E m rho T) = / E_t m rho T) by (apply (Rmult_eq_reg_r (E_t m rho T)); [rewrite I2; field; lra|lra]). rewrite TE in B.
    eapply is_derive_eq; [exact B|]. field. lra.
  - assert (DP := ra_P _ _ _ RA). rewrite <- IR in DP at 1. assert (Dy := partial_y _ _ _ _ _ D). apply is_derive_Reals in Dy.
    assert (B : P_r m rho T * b + P_t m rho T = 0).
    { rewrite <- IR in DP. rewrite IR in DP.
      assert (K := derivable_pt_lim_comp_2d (P m) (fun t => rhoPT m (P m rho T) t) (fun t => t) T (P_r m rho T) (P_t m rho T) b 1).
      cbn beta in K. rewrite IR in K. specialize (K (ra_P _ _ _ RA) Dy (derivable_pt_lim_id T)).
      assert (C : derivable_pt_lim (fun t => P m (rhoPT m (P m rho T) t) t) T 0).
      { apply is_derive_Reals. apply is_derive_ext_loc with (fun _ : R => P m rho T); [assert (T0 : 0 < T) by (unfold T; lra); generalize (loc_gt 0 T T0); apply filter_imp; intros t Ht; symmetry; apply I1; exact Ht|]. apply is_derive_Reals, derivable_pt_lim_const. }
      assert (Q := uniqueness_limite _ _ _ _ K C). lra. }
    assert (EB : b = - (P_t m rho T / P_r m rho T)) by (apply (Rmult_eq_reg_l (P_r m rho T)); [replace (P_r m rho T * b) with (- P_t m rho T) by lra; field; exact P0|exact P0]).
    apply is_derive_Reals in Dy. eapply is_derive_eq; [apply (is_derive_inv (fun t => rhoPT m (P m rho T) t) T b Dy); rewrite IR; lra|].
    rewrite IR, EB, Rmax_left by lra. field. repeat split; lra.
Qed.
End Scalar.

(** ** FillEos *)
(** the density and temperature that the inputs of a FillEos request determine *)
Inductive determines (m : material) (o : flags) (s : fstate) : R -> R -> Prop :=
| from_rho_T : f_rho o = false -> f_temp o = false -> determines m o s (s_rho s) (s_temp s)
| from_P_T : f_rho o = true -> f_press o = false -> f_temp o = false -> determines m o s (rhoPT m (s_press s) (s_temp s)) (s_temp s)
| from_rho_e : f_rho o = false -> f_temp o = true -> f_sie o = false -> determines m o s (s_rho s) (Tm m (s_rho s) (s_sie s))
| from_rho_P : f_rho o = false -> f_temp o = true -> f_sie o = true -> f_press o = false -> determines m o s (s_rho s) (TofP m (s_rho s) (s_press s)).
(** every requested quantity of s' is the query at (rho, T) *)
Definition values_at (p : eospac) (u : fstate) (o : flags) (rho T : R) (s' : fstate) : Prop :=
  (f_rho o = true -> s_rho s' = rho) /\ (f_temp o = true -> s_temp s' = T) /\
  (f_sie o = true -> E_T p u rho T = Some (s_sie s')) /\ (f_press o = true -> P_T p rho T = s_press s') /\
  (f_cv o = true -> C_T p u rho T = Some (s_cv s')) /\ (f_bmod o = true -> B_T p u rho T = Some (s_bmod s')).
Section Fill.
Variables (m : material) (p : eospac).
Hypothesis V : view m p.
(** Scalar FillEos: requests from (rho,T), (P,T) and (rho,P) are answered from the state the inputs determine and nothing else is changed; a request
    from (rho, e) is, if the temperature passed in already is that of (rho, e). (C79 shows what happens otherwise.) *)
Theorem C78_fill : forall u o s rho T, any o = true -> determines m o s rho T -> (f_rho o = true -> total p = true) ->
  (f_temp o = true -> f_sie o = false -> s_temp s = T) ->
  exists s', FillEos p o s = Some s' /\ values_at p u o rho T s' /\ fill_frame o s s'.
Proof.
  intros u o s rho T HA D HT HS. unfold FillEos. rewrite HA.
  assert (K : exists s2, match fill_rho p o s with Some (R', s1) => match fill_temp p o R' s1 with Some (T', s2) => Some (R', T', s2) | None => None end | None => None end = Some (rho, T, s2)
     /\ s_rho s2 = rho /\ (f_rho o = false -> s_rho s2 = s_rho s) /\ (f_temp o = true -> s_temp s2 = T) /\ (f_temp o = false -> s_temp s2 = s_temp s) /\
     s_sie s2 = s_sie s /\ s_press s2 = s_press s /\ s_cv s2 = s_cv s /\ s_bmod s2 = s_bmod s).
  { unfold fill_rho, fill_temp. sesame. destruct D as [A B|A B C|A B C|A B C D].
    - rewrite A, B. eexists. split; [reflexivity|]. repeat split; congruence.
    - rewrite A, B, C, (HT A), (v_R _ _ V), s10'. cbn [negb andb]. eexists. split; [reflexivity|]. cbn. repeat split; congruence.
    - rewrite A, B, C. cbn [negb andb]. eexists. split; [rewrite <- (HS B C); reflexivity|]. cbn. rewrite (q_T m p V). repeat split; congruence.
    - rewrite A, B, C, D, (v_TP _ _ V), s10'. cbn [negb andb]. eexists. split; [reflexivity|]. cbn. repeat split; congruence. }
  destruct K as (s2 & K & K1 & K2 & K3 & K4 & K5 & K6 & K7 & K8).
  destruct (fill_rho p o s) as [[R1 s1]|]; [|discriminate]. destruct (fill_temp p o R1 s1) as [[T1 s2']|]; [|discriminate]. inversion K; subst R1 T1 s2'. clear K.
  eexists. split; [reflexivity|].
  assert (VE := ev_E _ _ _ _ (v_base _ _ V) rho T). assert (VP := ev_P _ _ _ _ (v_base _ _ V) rho T).
  unfold values_at, fill_frame, fill_rest. sesame. destruct VE as (-> & -> & ->). destruct VP as (-> & -> & ->).
  rewrite (q_E m p V), (q_P m p V), (q_C m p V), (q_B m p V).
  assert (S1 : f_sie o = true -> forall x, s_sie (cond_upd (f_sie o) upd_sie (fun _ => x) s2) = x) by (intros -> x; reflexivity).
  unfold cond_upd. cbv zeta. rewrite !s10, scale_max.
  destruct (f_sie o), (f_press o), (f_cv o), (f_bmod o); cbn [upd_sie upd_press upd_cv upd_bmod s_rho s_temp s_sie s_press s_cv s_bmod]; rewrite ?K1, ?modulus_scaled, ?scale_max;
    (split; [repeat split; try discriminate; auto; try (intros; apply K3; assumption)|repeat split; try discriminate; auto; intros X; first [specialize (K2 X); congruence|specialize (K4 X); congruence|congruence]]).
Qed.
(** Requests that cannot be met are errors. *)
Theorem C78_fill_errors : forall o s, (forall rho T, ~ determines m o s rho T) -> FillEos p o s = None.
Proof.
  intros o s H. unfold FillEos. destruct (any o); [|reflexivity]. unfold fill_rho, fill_temp.
  destruct (f_rho o) eqn:A; destruct (f_temp o) eqn:B; destruct (f_press o) eqn:C; destruct (f_sie o) eqn:D; cbn [negb andb]; try reflexivity; exfalso;
    [ eapply H; apply from_P_T; assumption | eapply H; apply from_P_T; assumption
    | .. ];
  solve [ eapply H; first [apply from_rho_e; assumption | apply from_rho_P; assumption | apply from_rho_T; assumption | apply from_P_T; assumption] ].
Qed.
End Fill.
Print Assumptions C78_scalar_queries.
Print Assumptions C78_entropy.
Print Assumptions C78_nonnegative.
Print Assumptions C78_isothermal_modulus.
Print Assumptions C78_pressure_temperature.
Print Assumptions C78_PT_derivatives.
Print Assumptions C78_reference_state.
Print Assumptions C78_fill.
Print Assumptions C78_fill_errors.
