(** C27-C29 on concrete wrapped EOS; C30 (bilinear ramp); C31 (floored energy, relativistic, Z-split).
    Trust: Reals; Mods_Model. *)
From Coq Require Import Reals Bool Lra List ZArith Lia.
From Coquelicot Require Import Coquelicot.
From Flocq Require Import Core.
From Verif Require Import Robust_Model Thermo_Spec Thermo_Tools Mods_Spec Mods_Model Mods_View Mods_Instances Mods_Props.
From Verif Require Ideal_Model Ideal_Props Stiff_Model Stiff_Props Vinet_Model.
Local Open Scope R_scope.

Lemma tiny_small : tiny < 1/1000000.
Proof.
  unfold tiny. apply Rlt_le_trans with (bpow radix2 (-20)); [apply bpow_lt; lia|]. cbn. lra.
Qed.
Ltac tp := pose proof tiny_pos; pose proof tiny_small.

(** ** C27-C29 on IdealGas, StiffGas, Vinet *)
Definition ep0 : R -> R -> R -> R := fun _ _ _ => 0.
Definition de0 : R -> R -> R * R -> R * R := fun _ _ x => x.
Definition pd0 : R -> R -> R -> R -> ptd := fun _ _ _ _ => mkPtd 0 0 0 0.
Definition g1 : Stiff_Model.stiff := Stiff_Model.mkStiff 1 (4/10) 1 0 1 1 0 1 1 1 1 1 29 14.

(** FillEos of ShiftedEOS and ScaledEOS over IdealGas always fails, whatever is asked *)
Theorem C60_shifted_ideal_fill_refuted : forall g shift s f st,
  qFill (Shifted shift (ideal_EOS g)) f tt st = None /\ qFill (Scaled s (ideal_EOS g)) f tt st = None.
Proof.
  intros. split.
  - apply C60_shifted_fill_refuted; discriminate.
  - apply C60_scaled_fill_refuted; discriminate.
Qed.
(** over StiffGas a request for the energy from (rho, T) returns the caller's stale value *)
Theorem C60_shifted_stiff_fill_refuted : forall ep pd g shift st,
  exists st', qFill (Shifted shift (stiff_EOS ep pd g)) (mkF false false true true false false) tt st = Some st' /\ s_sie st' = s_sie st.
Proof. intros. eexists. split; reflexivity. Qed.
(** over Vinet an input energy is changed *)
Theorem C60_shifted_vinet_fill_refuted : forall ep de pd N g shift st, shift <> 0 ->
  exists st', qFill (Shifted shift (vinet_EOS ep de pd N g)) (mkF false true false true false false) tt st = Some st' /\
    s_sie st' = s_sie st + shift /\ s_sie st' <> s_sie st.
Proof. intros ep de pd N g shift st H. eexists. split; [reflexivity|]. cbn. split; [reflexivity|]. lra. Qed.
(** ScaledEOS<StiffGas>: temperature -> energy -> temperature is not the identity *)
Theorem C60_scaled_roundtrip_refuted : forall ep pd,
  Stiff_Props.admissible g1 /\ Scaled_check 2 = true /\
  roundtrip_T (stiff_EOS ep pd g1) 2 1 tt /\ qE_T (Scaled 2 (stiff_EOS ep pd g1)) 1 1 tt = 4 /\
  qT_e (Scaled 2 (stiff_EOS ep pd g1)) 1 4 tt = 3/2.
Proof.
  intros ep pd. tp. repeat split; try (cbn; lra).
  - apply Scaled_check_ne. lra.
  - unfold roundtrip_T. cbn. unfold two, Stiff_Model.InternalEnergyFromDensityTemperature, Stiff_Model.TemperatureFromDensityInternalEnergy. cbn.
    rewrite !ratio_pos by lra. rewrite (Rmax_right 0) by lra. pose proof SMALL_lt_tiny. rewrite Rmax_right by lra. lra.
  - cbn. unfold two, Stiff_Model.InternalEnergyFromDensityTemperature. cbn. rewrite ratio_pos by lra. rewrite Rmax_right by lra. lra.
  - cbn. unfold two, Stiff_Model.TemperatureFromDensityInternalEnergy. cbn. rewrite ratio_pos by lra. pose proof SMALL_lt_tiny. rewrite Rmax_right by lra. lra.
Qed.
(** non-vacuity: an ideal gas in other units satisfies first law, round trip and FillEos in those units; shifted and scaled too *)
Definition gi : Ideal_Model.ideal := Ideal_Model.mkIdeal 2 (4/10) 1 1 1 1 1 1 1 1 1.
Definition uu : units := mkUnits 3 5 7.
Example C29_example : Units_check uu = true /\
  first_law (fun r x => qS_T (Units uu (ideal_EOS gi)) r x tt) (fun r x => qE_T (Units uu (ideal_EOS gi)) r x tt)
            (fun r x => qP_T (Units uu (ideal_EOS gi)) r x tt) 1 1 /\
  roundtrip_T (Units uu (ideal_EOS gi)) 1 1 tt.
Proof.
  assert (Hu : Units_check uu = true) by (apply Units_check_pos; cbn; lra). tp.
  assert (Hadm : Ideal_Props.admissible gi) by (split; cbn; lra).
  destruct (C29_units_consistent (ideal_EOS gi) uu 1 tt Hu) as (A & _ & _ & _ & B & _); [cbn; lra..|].
  split; [exact Hu|]. split.
  - apply B; [lra|]. cbn. apply (Ideal_Props.C16_first_law gi); try exact Hadm; cbn; lra.
  - apply A. unfold roundtrip_T. cbn. unfold two. apply (Ideal_Props.C16_temperature_energy_round_trip gi); [exact Hadm|lra].
Qed.
Example C27_example : roundtrip_T (Shifted (-3) (ideal_EOS gi)) 1 1 tt /\ guess_free (ideal_EOS gi) /\
  is_bulk_modulus (fun r x => qP_e (Shifted (-3) (ideal_EOS gi)) r x tt) 1 (-1) (qB_e (ideal_EOS gi) 1 2 tt).
Proof.
  assert (Hadm : Ideal_Props.admissible gi) by (split; cbn; lra).
  destruct (C27_shifted_consistent (ideal_EOS gi) (-3) 1 tt) as (A & _ & _ & B & _). split; [|split].
  - apply A. unfold roundtrip_T. cbn. unfold two. apply (Ideal_Props.C16_temperature_energy_round_trip gi); [exact Hadm|lra].
  - intros P T l x y. reflexivity.
  - apply B; [lra|]. replace (-1 - -3) with 2 by lra. apply (Ideal_Props.C16_derivatives gi 1 2 1 Hadm); lra.
Qed.
Example C28_example : Scaled_check 2 = true /\ roundtrip_T (Scaled 2 (ideal_EOS gi)) 1 1 tt /\
  is_bulk_modulus (fun r x => qP_e (Scaled 2 (ideal_EOS gi)) r x tt) 1 4 (qB_e (Scaled 2 (ideal_EOS gi)) 1 4 tt).
Proof.
  assert (Hadm : Ideal_Props.admissible gi) by (split; cbn; lra).
  assert (Hs : Scaled_check 2 = true) by (apply Scaled_check_ne; lra). split; [exact Hs|]. split.
  - apply (C28_scaled_density_free_energy (ideal_EOS gi) 2 Hs); [reflexivity|].
    unfold roundtrip_T. cbn. unfold two. apply (Ideal_Props.C16_temperature_energy_round_trip gi); [exact Hadm|lra].
  - apply (C28_scaled_consistent (ideal_EOS gi) 2 1 4 tt Hs); [lra|]. apply (Ideal_Props.C16_derivatives gi (2 * 1) (4 / 2) 1 Hadm); lra.
Qed.

(** ** C30 BilinearRampEOS *)
(** the ramps the class is meant for: accepted parameters with the break point not below r0, above the threshold at which
    robust::ratio perturbs denominators *)
Definition good_ramp (p : ramp) (r0 a b c : R) : Prop :=
  p = ramp_ctor r0 a b c /\ ramp_check p = true /\ tiny <= r0 /\ p_r0 p <= p_rmid p.

Lemma good_facts p r0 a b c : good_ramp p r0 a b c ->
  0 < r0 /\ 0 < a /\ 0 <= b /\ a <> b /\ p_r0 p = r0 /\ p_a p = a /\ p_b p = b /\ p_c p = c /\ tiny <= r0 /\ r0 <= p_rmid p /\
  p_rmid p = r0 * (a - b * c) / (a - b) /\ p_Pmid p = a * (p_rmid p / r0 - 1) /\ p_Pmid p = b * (p_rmid p / r0 - c).
Proof.
  intros (E & H & Ht & Hm). unfold ramp_check in H. rewrite !andb_true_iff, negb_true_iff in H.
  rewrite E in *. cbn in *. destruct H as [[[A B] C] D].
  destruct (Rlt_bool_spec 0 r0); [|discriminate]. destruct (Rlt_bool_spec 0 a); [|discriminate].
  destruct (Rle_bool_spec 0 b); [|discriminate]. destruct (Req_bool_spec a b); [discriminate|].
  repeat split; auto. field. split; lra.
Qed.
Ltac eqR := match goal with |- @eq _ ?x ?y => change (@eq R x y) end.
Section Ramp1.
Variables (p : ramp) (r0 a b c : R).
Hypothesis G : good_ramp p r0 a b c.
Let rm := p_rmid p.
Definition lin1 (rho : R) : R := a * (rho / r0 - 1).
Definition lin2 (rho : R) : R := b * (rho / r0 - c).
Lemma pressure_eq rho : get_ramp_pressure p rho = if Rlt_bool rho r0 then 0 else if Rlt_bool rho rm then lin1 rho else lin2 rho.
Proof.
  destruct (good_facts _ _ _ _ _ G) as (H1 & H2 & H3 & H4 & E0 & Ea & Eb & Ec & Ht & Hm & _). unfold get_ramp_pressure.
  rewrite E0, Ea, Eb, Ec, ratio_pos by exact Ht. reflexivity.
Qed.
Lemma meet : lin1 rm = lin2 rm.
Proof.
  destruct (good_facts _ _ _ _ _ G) as (H1 & H2 & H3 & H4 & E0 & Ea & Eb & Ec & Ht & Hm & Er & E1 & E2). unfold lin1, lin2, rm.
  rewrite <- E1. exact E2.
Qed.
Lemma lin1_cont rho : continuous lin1 rho.
Proof. destruct (good_facts _ _ _ _ _ G) as (H1 & _). apply (derive_cont lin1 rho (a / r0)). unfold lin1. auto_derive; [repeat split; try exact I; lra|field; lra]. Qed.
Lemma lin2_cont rho : continuous lin2 rho.
Proof. destruct (good_facts _ _ _ _ _ G) as (H1 & _). apply (derive_cont lin2 rho (b / r0)). unfold lin2. auto_derive; [repeat split; try exact I; lra|field; lra]. Qed.
(** as a composition of max/min, hence continuous *)
Lemma shape_cont (f h k : R -> R) (c1 c2 x : R) : c1 <= c2 -> (forall y, continuous f y) -> (forall y, continuous h y) -> (forall y, continuous k y) ->
  f c1 = h c1 -> h c2 = k c2 ->
  continuous (fun y => if Rlt_bool y c1 then f y else if Rlt_bool y c2 then h y else k y) x.
Proof.
  intros Hc Hf Hh Hk E1 E2.
  apply (continuous_ext (fun y => f (Rmin y c1) - f c1 + h (Rmin (Rmax y c1) c2) + (k (Rmax y c2) - k c2))).
  - intros y. destruct (Rlt_bool_spec y c1).
    + rewrite (Rmin_left y c1), (Rmax_right y c1), (Rmin_left c1 c2), (Rmax_right y c2) by lra. rewrite E1. eqR; ring.
    + destruct (Rlt_bool_spec y c2).
      * rewrite (Rmin_right y c1), (Rmax_left y c1), (Rmin_left y c2), (Rmax_right y c2) by lra. eqR; ring.
      * rewrite (Rmin_right y c1), (Rmax_left y c1), (Rmin_right y c2), (Rmax_left y c2) by lra. rewrite E2. eqR; ring.
  - assert (Cmin : forall (u : R -> R) d z, continuous u z -> continuous (fun y => Rmin (u y) d) z).
    { intros u d z Hu. apply (continuous_ext (fun y => (u y + d - Rabs (u y - d)) / 2)).
      - intros y. unfold Rmin. destruct (Rle_dec (u y) d); [rewrite Rabs_left1 by lra|rewrite Rabs_right by lra]; eqR; field.
      - apply (continuous_mult (K := R_AbsRing) (fun y => u y + d - Rabs (u y - d)) (fun _ => / 2)); [|apply continuous_const].
        apply (continuous_minus (V := R_NormedModule)).
        + apply (continuous_plus (V := R_NormedModule)); [exact Hu|apply continuous_const].
        + apply (continuous_comp (fun y => u y - d) Rabs).
          * apply (continuous_minus (V := R_NormedModule)); [exact Hu|apply continuous_const].
          * apply continuous_Rabs. }
    assert (Cmax : forall (u : R -> R) d z, continuous u z -> continuous (fun y => Rmax (u y) d) z).
    { intros u d z Hu. apply (continuous_ext (fun y => - Rmin (- u y) (- d))).
      - intros y. unfold Rmin, Rmax. destruct (Rle_dec (- u y) (- d)), (Rle_dec (u y) d); eqR; lra.
      - apply (continuous_opp (V := R_NormedModule)). apply Cmin. apply (continuous_opp (V := R_NormedModule)). exact Hu. }
    apply (continuous_plus (V := R_NormedModule)).
    + apply (continuous_plus (V := R_NormedModule)).
      * apply (continuous_minus (V := R_NormedModule)); [|apply continuous_const].
        apply (continuous_comp (fun y => Rmin y c1) f); [apply Cmin, continuous_id|apply Hf].
      * apply (continuous_comp (fun y => Rmin (Rmax y c1) c2) h); [apply Cmin, Cmax, continuous_id|apply Hh].
    + apply (continuous_minus (V := R_NormedModule)); [|apply continuous_const].
      apply (continuous_comp (fun y => Rmax y c2) k); [apply Cmax, continuous_id|apply Hk].
Qed.
Lemma ramp_cont rho : continuous (get_ramp_pressure p) rho.
Proof.
  destruct (good_facts _ _ _ _ _ G) as (H1 & H2 & H3 & H4 & E0 & Ea & Eb & Ec & Ht & Hm & _).
  apply (continuous_ext (fun y => if Rlt_bool y r0 then (fun _ => 0) y else if Rlt_bool y rm then lin1 y else lin2 y)).
  - intros y. symmetry. apply pressure_eq.
  - apply shape_cont; [exact Hm| | | | |exact meet].
    + intros y. apply continuous_const.
    + exact lin1_cont.
    + exact lin2_cont.
    + unfold lin1. field. lra.
Qed.
Lemma lin1_mono x y : x <= y -> lin1 x <= lin1 y.
Proof.
  destruct (good_facts _ _ _ _ _ G) as (H1 & H2 & _). intros H. unfold lin1. apply Rmult_le_compat_l; [lra|].
  apply Rplus_le_compat_r. apply Rmult_le_compat_r; [left; apply Rinv_0_lt_compat; exact H1|exact H].
Qed.
Lemma lin2_mono x y : x <= y -> lin2 x <= lin2 y.
Proof.
  destruct (good_facts _ _ _ _ _ G) as (H1 & H2 & H3 & _). intros H. unfold lin2. apply Rmult_le_compat_l; [lra|].
  apply Rplus_le_compat_r. apply Rmult_le_compat_r; [left; apply Rinv_0_lt_compat; exact H1|exact H].
Qed.
Lemma lin1_r0 : lin1 r0 = 0.
Proof. destruct (good_facts _ _ _ _ _ G) as (H1 & _). unfold lin1. field. lra. Qed.
Lemma ramp_mono x y : x <= y -> get_ramp_pressure p x <= get_ramp_pressure p y.
Proof.
  destruct (good_facts _ _ _ _ _ G) as (H1 & H2 & H3 & H4 & E0 & Ea & Eb & Ec & Ht & Hm & _). fold rm in Hm.
  intros H. rewrite !pressure_eq. pose proof lin1_r0 as Z. pose proof meet as M.
  destruct (Rlt_bool_spec x r0), (Rlt_bool_spec y r0), (Rlt_bool_spec x rm), (Rlt_bool_spec y rm); try lra.
  - rewrite <- Z. apply lin1_mono. lra.
  - rewrite <- Z. apply Rle_trans with (lin1 rm); [apply lin1_mono; lra|]. rewrite M. apply lin2_mono. lra.
  - apply lin1_mono. lra.
  - apply Rle_trans with (lin1 rm); [apply lin1_mono; lra|]. rewrite M. apply lin2_mono. lra.
  - apply lin2_mono. lra.
Qed.
Lemma ramp_nonneg x : 0 <= get_ramp_pressure p x.
Proof.
  destruct (Rle_lt_dec r0 x) as [H|H].
  - apply Rle_trans with (get_ramp_pressure p (r0 - 1)); [|apply ramp_mono; lra].
    rewrite pressure_eq, Rlt_bool_true by lra. lra.
  - rewrite pressure_eq, Rlt_bool_true by lra. lra.
Qed.
(** density is the inverse of the ramp pressure on the ramp *)
Lemma ramp_density_inv rho : tiny <= a -> tiny <= b -> r0 <= rho -> get_ramp_density p (get_ramp_pressure p rho) = rho.
Proof.
  destruct (good_facts _ _ _ _ _ G) as (H1 & H2 & H3 & H4 & E0 & Ea & Eb & Ec & Ht & Hm & Er & EP1 & EP2).
  intros Ha Hb Hr. tp. unfold get_ramp_density. rewrite E0, Ea, Eb, Ec, !ratio_pos by assumption.
  rewrite pressure_eq, (Rlt_bool_false rho r0) by exact Hr. destruct (Rlt_bool_spec rho rm) as [Hl|Hl].
  - rewrite Rlt_bool_true.
    + unfold lin1. field. lra.
    + rewrite EP1. unfold lin1. apply Rmult_lt_compat_l; [lra|]. apply Rplus_lt_compat_r.
      apply Rmult_lt_compat_r; [apply Rinv_0_lt_compat; exact H1|exact Hl].
  - rewrite Rlt_bool_false.
    + unfold lin2. field. lra.
    + rewrite EP2. apply (lin2_mono (p_rmid p) rho Hl).
Qed.
Lemma ramp_pressure_inv P : tiny <= a -> tiny <= b -> 0 <= P -> get_ramp_pressure p (get_ramp_density p P) = P /\ r0 <= get_ramp_density p P.
Proof.
  destruct (good_facts _ _ _ _ _ G) as (H1 & H2 & H3 & H4 & E0 & Ea & Eb & Ec & Ht & Hm & Er & EP1 & EP2).
  intros Ha Hb HP. tp. unfold get_ramp_density. rewrite E0, Ea, Eb, Ec, !ratio_pos by assumption. rewrite pressure_eq.
  assert (Hb0 : 0 < b) by lra. assert (Hrm : 0 < rm) by (unfold rm; lra).
  destruct (Rlt_bool_spec P (p_Pmid p)) as [Hl|Hl].
  - assert (K : r0 * (P / a + 1) < rm).
    { apply Rmult_lt_reg_l with (a / r0); [apply Rdiv_lt_0_compat; lra|].
      replace (a / r0 * (r0 * (P / a + 1))) with (P + a) by (field; lra). replace (a / r0 * rm) with (p_Pmid p + a); [lra|].
      rewrite EP1. unfold rm. field. lra. }
    assert (Kp : 0 <= P / a) by (apply Rmult_le_pos; [exact HP|left; apply Rinv_0_lt_compat; lra]).
    assert (K0 : r0 <= r0 * (P / a + 1)). { rewrite <- (Rmult_1_r r0) at 1. apply Rmult_le_compat_l; lra. }
    rewrite Rlt_bool_false by exact K0. rewrite Rlt_bool_true by exact K. split; [unfold lin1; field; lra|exact K0].
  - assert (K : rm <= r0 * (P / b + c)).
    { apply Rmult_le_reg_l with (b / r0); [apply Rdiv_lt_0_compat; lra|].
      replace (b / r0 * (r0 * (P / b + c))) with (P + b * c) by (field; lra). replace (b / r0 * rm) with (p_Pmid p + b * c); [lra|].
      rewrite EP2. unfold rm. field. lra. }
    fold rm in Hm.
    rewrite (Rlt_bool_false _ r0) by lra. rewrite Rlt_bool_false by exact K. split; [unfold lin2; field; lra|lra].
Qed.
(** slope *)
Lemma ramp_slope rho : r0 < rho -> rho <> rm -> is_derive (get_ramp_pressure p) rho (get_ramp_dpdrho p rho).
Proof.
  destruct (good_facts _ _ _ _ _ G) as (H1 & H2 & H3 & H4 & E0 & Ea & Eb & Ec & Ht & Hm & _).
  intros Hr Hn. unfold get_ramp_dpdrho. rewrite E0, Ea, Eb, !ratio_pos by exact Ht.
  assert (L0 : locally rho (fun y => r0 < y)) by (apply loc_gt; exact Hr).
  destruct (Rlt_bool_spec rho (p_rmid p)) as [Hl|Hl].
  - apply (derive_loc _ lin1).
    + generalize (loc_and _ _ _ L0 (loc_lt rm rho Hl)). apply filter_imp. intros y [Y1 Y2].
      rewrite pressure_eq, Rlt_bool_false, Rlt_bool_true by lra. reflexivity.
    + unfold lin1. auto_derive; [lra|field; lra].
  - assert (Hg : rm < rho) by (unfold rm in *; lra). apply (derive_loc _ lin2).
    + generalize (loc_and _ _ _ L0 (loc_gt rm rho Hg)). apply filter_imp. intros y [Y1 Y2].
      rewrite pressure_eq, !Rlt_bool_false by lra. reflexivity.
    + unfold lin2. auto_derive; [lra|field; lra].
Qed.
End Ramp1.

(** the ramp: 0 up to r0, then two straight lines of slopes a/r0 and b/r0 meeting at the break point: continuous,
    non-negative, non-decreasing, and its inverse is the density function *)
Theorem C30_ramp_shape : forall p r0 a b c, good_ramp p r0 a b c ->
  (forall rho, continuous (get_ramp_pressure p) rho) /\
  (forall x y, x <= y -> 0 <= get_ramp_pressure p x <= get_ramp_pressure p y) /\
  (forall rho, rho <= r0 -> get_ramp_pressure p rho = 0) /\
  (forall rho, r0 < rho -> rho <> p_rmid p ->
     is_derive (get_ramp_pressure p) rho (get_ramp_dpdrho p rho) /\
     get_ramp_dpdrho p rho = (if Rlt_dec rho (p_rmid p) then a else b) / r0).
Proof.
  intros p r0 a b c G. refine (conj (ramp_cont _ _ _ _ _ G) (conj _ (conj _ _))).
  - intros x y H. split; [apply (ramp_nonneg _ _ _ _ _ G)|apply (ramp_mono _ _ _ _ _ G); exact H].
  - intros rho H. rewrite (pressure_eq _ _ _ _ _ G). destruct (Rlt_bool_spec rho r0); [reflexivity|]. assert (rho = r0) by lra. subst rho.
    pose proof (lin1_r0 _ _ _ _ _ G) as Z. pose proof (meet _ _ _ _ _ G) as M. destruct (Rlt_bool_spec r0 (p_rmid p)); [exact Z|].
    destruct (good_facts _ _ _ _ _ G) as (_ & _ & _ & _ & _ & _ & _ & _ & _ & Hm & _). assert (Er : p_rmid p = r0) by lra. rewrite Er in M. rewrite <- M. exact Z.
  - intros rho H Hn. split; [apply (ramp_slope _ _ _ _ _ G); assumption|]. unfold get_ramp_dpdrho.
    destruct (good_facts _ _ _ _ _ G) as (H1 & H2 & H3 & H4 & E0 & Ea & Eb & Ec & Ht & Hm & _). rewrite E0, Ea, Eb, !ratio_pos by exact Ht.
    destruct (Rlt_bool_spec rho (p_rmid p)), (Rlt_dec rho (p_rmid p)); try lra; reflexivity.
Qed.
Theorem C30_ramp_density_inverse : forall p r0 a b c, good_ramp p r0 a b c -> tiny <= a -> tiny <= b ->
  (forall rho, r0 <= rho -> get_ramp_density p (get_ramp_pressure p rho) = rho) /\
  (forall P, 0 <= P -> get_ramp_pressure p (get_ramp_density p P) = P /\ r0 <= get_ramp_density p P).
Proof. intros p r0 a b c G Ha Hb. split; intros; [apply (ramp_density_inv _ _ _ _ _ G)|apply (ramp_pressure_inv _ _ _ _ _ G)]; assumption. Qed.

Section Ramp2.
Context {L : Type}.
Variable ep : R -> R -> R -> L -> R.
Variable pd : R -> R -> R -> R -> L -> ptd.
(** for any parameters: the pressure is the larger of the ramp and the wrapped pressure; temperature, energy, entropy and
    specific heat are the wrapped ones *)
Theorem C30_ramp_pressure : forall (t : EOS L) p rho x l, let o := Ramp p ep pd t in
  qP_e o rho x l = Rmax (get_ramp_pressure p rho) (qP_e t rho x l) /\
  qP_T o rho x l = Rmax (get_ramp_pressure p rho) (qP_T t rho x l) /\
  qT_e o rho x l = qT_e t rho x l /\ qE_T o rho x l = qE_T t rho x l /\ qS_T o rho x l = qS_T t rho x l /\ qC_T o rho x l = qC_T t rho x l.
Proof.
  assert (K : forall (t : EOS L) p rho q, ramp_P p rho q = Rmax (get_ramp_pressure p rho) q).
  { intros t p rho q. unfold ramp_P. destruct (Rlt_bool_spec q (get_ramp_pressure p rho)); [rewrite Rmax_left by lra|rewrite Rmax_right by lra]; reflexivity. }
  intros t p rho x l o. cbn. rewrite !(K t). repeat split; reflexivity.
Qed.
(** the pressure is continuous in density wherever the wrapped pressure is *)
Theorem C30_pressure_continuous : forall (t : EOS L) p r0 a b c rho x l, good_ramp p r0 a b c ->
  continuous (fun r => qP_e t r x l) rho -> continuous (fun r => qP_e (Ramp p ep pd t) r x l) rho.
Proof.
  intros t p r0 a b c rho x l G H.
  apply (continuous_ext (fun r => (get_ramp_pressure p r + qP_e t r x l + Rabs (get_ramp_pressure p r - qP_e t r x l)) / 2)).
  - intros r. rewrite (proj1 (C30_ramp_pressure t p r x l)). unfold Rmax. destruct (Rle_dec _ _); [rewrite Rabs_left1 by lra|rewrite Rabs_right by lra]; eqR; field.
  - pose proof (ramp_cont _ _ _ _ _ G rho) as HC.
    apply (continuous_mult (K := R_AbsRing) (fun r => get_ramp_pressure p r + qP_e t r x l + Rabs (get_ramp_pressure p r - qP_e t r x l)) (fun _ => / 2)); [|apply continuous_const].
    apply (continuous_plus (V := R_NormedModule)).
    + apply (continuous_plus (V := R_NormedModule)); [exact HC|exact H].
    + apply (continuous_comp (fun r => get_ramp_pressure p r - qP_e t r x l) Rabs).
      * apply (continuous_minus (V := R_NormedModule)); [exact HC|exact H].
      * apply continuous_Rabs.
Qed.
(** the bulk modulus is that of the branch in force, for densities above r0 away from the kinks *)
Theorem C30_bulk_modulus : forall (t : EOS L) p r0 a b c rho x l, good_ramp p r0 a b c -> r0 < rho -> rho <> p_rmid p ->
  continuous (fun r => qP_e t r x l) rho -> continuous (fun e => qP_e t rho e l) x ->
  (qP_e t rho x l < get_ramp_pressure p rho ->
     is_bulk_modulus (fun r e => qP_e (Ramp p ep pd t) r e l) rho x (qB_e (Ramp p ep pd t) rho x l)) /\
  (get_ramp_pressure p rho < qP_e t rho x l ->
     is_bulk_modulus (fun r e => qP_e t r e l) rho x (qB_e t rho x l) ->
     is_bulk_modulus (fun r e => qP_e (Ramp p ep pd t) r e l) rho x (qB_e (Ramp p ep pd t) rho x l)).
Proof.
  intros t p r0 a b c rho x l G Hr Hn C1 C2. pose proof (ramp_cont _ _ _ _ _ G rho) as HC.
  pose proof (fun r e => proj1 (C30_ramp_pressure t p r e l)) as HP.
  assert (HD : continuous (fun r => get_ramp_pressure p r - qP_e t r x l) rho) by (apply (continuous_minus (V := R_NormedModule)); assumption).
  split.
  - intros Hlt. exists (get_ramp_dpdrho p rho), 0. refine (conj _ (conj _ _)).
    + apply (derive_loc _ (get_ramp_pressure p)); [|apply (ramp_slope _ _ _ _ _ G); assumption].
      generalize (loc_gt_f (fun r => get_ramp_pressure p r - qP_e t r x l) 0 rho HD ltac:(cbv beta; lra)). apply filter_imp.
      intros y Hy. rewrite HP, Rmax_left by lra. reflexivity.
    + apply (derive_loc _ (fun _ => get_ramp_pressure p rho)); [|apply (is_derive_const (V := R_NormedModule))].
      generalize (loc_lt_f (fun e => qP_e t rho e l) (get_ramp_pressure p rho) x C2 Hlt). apply filter_imp.
      intros y Hy. rewrite HP, Rmax_left by lra. reflexivity.
    + cbn. unfold ramp_B. rewrite Rlt_bool_true by exact Hlt. ring.
  - intros Hlt (d1 & d2 & D1 & D2 & EB). exists d1, d2. refine (conj _ (conj _ _)).
    + apply (derive_loc _ (fun r => qP_e t r x l)); [|exact D1].
      generalize (loc_lt_f (fun r => get_ramp_pressure p r - qP_e t r x l) 0 rho HD ltac:(cbv beta; lra)). apply filter_imp.
      intros y Hy. rewrite HP, Rmax_right by lra. reflexivity.
    + apply (derive_loc _ (fun e => qP_e t rho e l)); [|exact D2].
      generalize (loc_gt_f (fun e => qP_e t rho e l) (get_ramp_pressure p rho) x C2 Hlt). apply filter_imp.
      intros y Hy. rewrite HP, Rmax_right by lra. reflexivity.
    + rewrite HP. rewrite Rmax_right by lra. cbn. unfold ramp_B. rewrite Rlt_bool_false by lra. exact EB.
Qed.
(** FillEos from (rho, e), for every wrapped EOS whose own FillEos is right: pressure, temperature and specific heat are the
    ramped queries' *)
Theorem C30_fill_rho_sie : forall (t : EOS L) p f l s s', mode_of f InRhoSie -> f_bmod f = true ->
  (forall s0 s0', qFill t (mkF (f_rho f) (f_temp f) (f_sie f) false (f_cv f) (f_bmod f)) l s0 = Some s0' ->
     fill_ok (fun r x => qT_e t r x l) (fun r x => qP_e t r x l) (fun r x => qC_e t r x l) (fun r x => qB_e t r x l) InRhoSie
       (mkF (f_rho f) (f_temp f) (f_sie f) false (f_cv f) (f_bmod f)) s0 s0') ->
  let o := Ramp p ep pd t in
  qFill o f l s = Some s' ->
  fill_ok (fun r x => qT_e o r x l) (fun r x => qP_e o r x l) (fun r x => qC_e o r x l) (fun r x => qB_e o r x l) InRhoSie f s s'.
Proof.
  intros t p [fr ft fe fp fc fb] l s s' Hm Hb Hin o Hs. destruct Hm as [Hm1 Hm2]. cbn [f_rho f_sie f_bmod f_temp f_press f_cv] in *. subst fr fe fb.
  cbn in Hs. unfold ramp_Fill in Hs. cbn [f_rho f_sie f_bmod f_temp f_press f_cv negb] in Hs.
  set (s1 := if fp then _ else s) in Hs. destruct (qFill t _ l s1) as [s2|] eqn:E; [|discriminate]. injection Hs as <-.
  specialize (Hin _ _ E). destruct Hin as [(Fr & Ft & Fe & Fp & Fc & _) (_ & Vt & Vc & _)].
  cbn [f_rho f_sie f_bmod f_temp f_press f_cv] in *.
  specialize (Fr eq_refl). specialize (Fe eq_refl). specialize (Fp eq_refl).
  rewrite Rlt_bool_false by lra.
  assert (E1 : s_rho s1 = s_rho s) by (unfold s1; destruct fp; reflexivity).
  assert (E2 : s_sie s1 = s_sie s) by (unfold s1; destruct fp; reflexivity).
  assert (E3 : s_temp s1 = s_temp s) by (unfold s1; destruct fp; reflexivity).
  assert (E4 : s_cv s1 = s_cv s) by (unfold s1; destruct fp; reflexivity).
  split.
  - unfold fill_frame; cbn. refine (conj _ (conj _ (conj _ (conj _ (conj _ _))))); intros Hf; try discriminate.
    + congruence. + rewrite Ft by exact Hf. exact E3. + congruence.
    + rewrite Fp. unfold s1. rewrite Hf. reflexivity. + rewrite Fc by exact Hf. exact E4.
  - unfold fill_values; cbn. refine (conj _ (conj _ (conj _ (conj _ I)))); intros Hf.
    + rewrite Fp. unfold s1. rewrite Hf. cbn. rewrite Fr, Fe, E1, E2. reflexivity.
    + apply Vt. exact Hf.
    + apply Vc. exact Hf.
    + reflexivity.
Qed.
(** Refuted: "nothing that was not requested is modified": FillEos overwrites the bulk modulus always *)
Theorem C60_ramp_fill_bmod_refuted : forall (t : EOS L) p f l s s', qFill (Ramp p ep pd t) f l s = Some s' ->
  s_bmod s' = qB_e (Ramp p ep pd t) (s_rho s') (s_sie s') l.
Proof.
  intros t p f l s s' H. cbn in H. unfold ramp_Fill in H. destruct (qFill t _ l _) as [s2|]; [|discriminate]. injection H as <-. reflexivity.
Qed.
(** Refuted: DensityEnergyFromPressureTemperature is not the inverse of the ramped pressure: it is the wrapped inversion, so
    where the ramp is in force at the density found the pressure there exceeds the one asked for *)
Theorem C60_ramp_PT_inversion_refuted : forall (t : EOS L) p P T l g rho e,
  qDE (Ramp p ep pd t) P T l g = (rho, e) -> qDE t P T l g = (rho, e) /\
  (qP_T t rho T l = P -> P < get_ramp_pressure p rho -> qP_T (Ramp p ep pd t) rho T l > P).
Proof.
  intros t p P T l g rho e H. split; [exact H|]. intros H1 H2. rewrite (proj1 (proj2 (C30_ramp_pressure t p rho T l))).
  rewrite H1, Rmax_left by lra. lra.
Qed.
(** Refuted: below r0 with the wrapped pressure negative, the pressure is constant (zero) but the bulk modulus returned is
    rho a / r0; and on the ramp the Gruneisen parameter is the wrapped one although the pressure does not depend on energy *)
Theorem C60_ramp_bulk_modulus_below_r0_refuted : forall (t : EOS L) p r0 a b c rho x l, good_ramp p r0 a b c -> rho < r0 -> 0 < rho ->
  continuous (fun r => qP_e t r x l) rho -> continuous (fun e => qP_e t rho e l) x -> qP_e t rho x l < 0 ->
  is_bulk_modulus (fun r e => qP_e (Ramp p ep pd t) r e l) rho x 0 /\ qB_e (Ramp p ep pd t) rho x l = rho * (a / r0) /\
  0 < qB_e (Ramp p ep pd t) rho x l.
Proof.
  intros t p r0 a b c rho x l G Hr H0 C1 C2 Hlt. pose proof (fun r e => proj1 (C30_ramp_pressure t p r e l)) as HP.
  destruct (good_facts _ _ _ _ _ G) as (H1 & H2 & H3 & H4 & E0 & Ea & Eb & Ec & Ht & Hm & _).
  assert (Z : forall r, r < r0 -> get_ramp_pressure p r = 0) by (intros r Hrr; rewrite (pressure_eq _ _ _ _ _ G), Rlt_bool_true by exact Hrr; reflexivity).
  assert (EB : qB_e (Ramp p ep pd t) rho x l = rho * (a / r0)).
  { cbn. unfold ramp_B. rewrite (Z rho Hr), Rlt_bool_true by exact Hlt. unfold get_ramp_dpdrho. rewrite Rlt_bool_true by lra. rewrite E0, Ea, ratio_pos by exact Ht. reflexivity. }
  refine (conj _ (conj EB _)).
  - exists 0, 0. refine (conj _ (conj _ _)).
    + apply (derive_loc _ (fun _ => 0)); [|apply (is_derive_const (V := R_NormedModule))].
      generalize (loc_and _ _ _ (loc_lt r0 rho Hr) (loc_lt_f (fun r => qP_e t r x l) 0 rho C1 Hlt)). apply filter_imp.
      intros y [Y1 Y2]. rewrite HP, (Z y Y1), Rmax_left by lra. reflexivity.
    + apply (derive_loc _ (fun _ => 0)); [|apply (is_derive_const (V := R_NormedModule))].
      generalize (loc_lt_f (fun e => qP_e t rho e l) 0 x C2 Hlt). apply filter_imp. intros y Y2. rewrite HP, (Z rho Hr), Rmax_left by lra. reflexivity.
    + rewrite HP, (Z rho Hr), Rmax_left by lra. field. lra.
  - rewrite EB. apply Rmult_lt_0_compat; [exact H0|apply Rdiv_lt_0_compat; lra].
Qed.
Theorem C60_ramp_gruneisen_on_ramp_refuted : forall (t : EOS L) p rho x l G, continuous (fun e => qP_e t rho e l) x -> 0 < rho ->
  qP_e t rho x l < get_ramp_pressure p rho ->
  is_gruneisen (fun r e => qP_e (Ramp p ep pd t) r e l) rho x G -> G = 0.
Proof.
  intros t p rho x l G C Hr Hlt H. pose proof (fun r e => proj1 (C30_ramp_pressure t p r e l)) as HP.
  assert (D : is_derive (fun s => qP_e (Ramp p ep pd t) rho s l) x 0).
  { apply (derive_loc _ (fun _ => get_ramp_pressure p rho)); [|apply (is_derive_const (V := R_NormedModule))].
    generalize (loc_lt_f (fun e => qP_e t rho e l) _ x C Hlt). apply filter_imp. intros y Y2. rewrite HP, Rmax_left by lra. reflexivity. }
  unfold is_gruneisen in H. apply is_derive_unique in H. apply is_derive_unique in D. rewrite H in D. 
  apply Rmult_integral in D. destruct D; lra.
Qed.
End Ramp2.
(** Refuted: CheckParams accepts ramps whose break point lies below r0; their pressure jumps at r0 and goes negative *)
Theorem C60_ramp_CheckParams_refuted : exists p, p = ramp_ctor 1 2 1 (3/2) /\ ramp_check p = true /\ p_rmid p < 1 /\
  get_ramp_pressure p 1 = - (1/2) /\ forall rho, rho < 1 -> get_ramp_pressure p rho = 0.
Proof.
  exists (ramp_ctor 1 2 1 (3/2)). split; [reflexivity|]. tp.
  assert (E : p_rmid (ramp_ctor 1 2 1 (3/2)) = 1/2) by (cbn; field).
  split; [unfold ramp_check; cbn; rewrite !Rlt_bool_true, Rle_bool_true, Req_bool_false by lra; reflexivity|].
  split; [lra|]. split.
  - unfold get_ramp_pressure. rewrite E. cbn. rewrite ratio_pos by lra. rewrite !Rlt_bool_false by lra. lra.
  - intros rho Hrho. unfold get_ramp_pressure. cbn. rewrite Rlt_bool_true by lra. reflexivity.
Qed.
(** Refuted: BilinearRampEOS<IdealGas>::FillEos from (rho, T) leaves the energy unset *)
Theorem C60_ramp_fill_rho_T_refuted : forall p ep pd g st, exists st',
  qFill (Ramp p ep pd (ideal_EOS g)) (mkF false false true true false false) tt st = Some st' /\ s_sie st' = s_sie st.
Proof. intros. eexists. split; [reflexivity|]. reflexivity. Qed.
(** the P-alpha constructor: the ramp passes through (rmid, Pe) and (r1, Pc) and the class recomputes the same break point *)
Theorem C30_palpha_params : forall r0 rmid r1 Pe Pc, tiny <= r0 -> 0 < Pe -> Pe < Pc ->
  tiny <= rmid - r0 -> tiny <= r1 - rmid -> tiny <= r0 * (Pc - Pe) ->
  let '(a, b, c) := palpha_abc r0 rmid r1 Pe Pc in
  a <> b -> let p := ramp_ctor r0 a b c in
  good_ramp p r0 a b c /\ p_rmid p = rmid /\ p_Pmid p = Pe /\
  get_ramp_pressure p r0 = 0 /\ get_ramp_pressure p rmid = Pe /\ get_ramp_pressure p r1 = Pc.
Proof.
  intros r0 rmid r1 Pe Pc H0 HP1 HP2 H1 H2 H3. unfold palpha_abc. rewrite !ratio_pos by assumption. cbv beta iota. intros Hab. set (p := ramp_ctor _ _ _ _). cbv zeta. tp.
  assert (D1 : rmid - r0 <> 0) by lra. assert (D2 : r1 - rmid <> 0) by lra. assert (D3 : Pc - Pe <> 0) by lra. assert (D0 : r0 <> 0) by lra.
  assert (Hne : Pe * (r1 - rmid) - (Pc - Pe) * (rmid - r0) <> 0).
  { intros HH. apply Hab. assert (E : Pe * (r1 - rmid) = (Pc - Pe) * (rmid - r0)) by lra.
    apply Rmult_eq_reg_r with ((rmid - r0) * (r1 - rmid)); [|apply Rmult_integral_contrapositive_currified; assumption].
    replace (r0 * Pe / (rmid - r0) * ((rmid - r0) * (r1 - rmid))) with (r0 * (Pe * (r1 - rmid))) by (field; exact D1).
    replace (r0 * (Pc - Pe) / (r1 - rmid) * ((rmid - r0) * (r1 - rmid))) with (r0 * ((Pc - Pe) * (rmid - r0))) by (field; exact D2).
    rewrite E. reflexivity. }
  assert (Em : p_rmid p = rmid).
  { unfold p; cbn. field. repeat split; try assumption. replace (r0 * Pe * (r1 - rmid) - r0 * (Pc - Pe) * (rmid - r0)) with (r0 * (Pe * (r1 - rmid) - (Pc - Pe) * (rmid - r0))) by ring. apply Rmult_integral_contrapositive_currified; assumption. }
  assert (EP : p_Pmid p = Pe).
  { change (p_Pmid p) with (r0 * Pe / (rmid - r0) * (p_rmid p / r0 - 1)). rewrite Em. field. auto. }
  assert (GR : good_ramp p r0 (r0 * Pe / (rmid - r0)) (r0 * (Pc - Pe) / (r1 - rmid)) ((Pc * rmid - Pe * r1) / (r0 * (Pc - Pe)))).
  { split; [reflexivity|]. split; [|split; [exact H0|cbn -[Rmult Rdiv]; fold p; change (r0 <= p_rmid p); rewrite Em; lra]].
    unfold ramp_check, p; cbn. rewrite Rlt_bool_true by lra. rewrite Rlt_bool_true by (apply Rdiv_lt_0_compat; [apply Rmult_lt_0_compat|]; lra).
    rewrite Rle_bool_true by (left; apply Rdiv_lt_0_compat; [apply Rmult_lt_0_compat|]; lra). rewrite Req_bool_false by exact Hab. reflexivity. }
  refine (conj GR (conj Em (conj EP _))).
  rewrite !(pressure_eq _ _ _ _ _ GR), Em. rewrite (Rlt_bool_false r0 r0), (Rlt_bool_true r0 rmid), (Rlt_bool_false rmid r0), (Rlt_bool_false rmid rmid),
    (Rlt_bool_false r1 r0), (Rlt_bool_false r1 rmid) by lra.
  unfold lin1, lin2. repeat split; field; repeat split; assumption.
Qed.
Example C30_example : exists p, good_ramp p 1 2 1 (1/2) /\ p_rmid p = 3/2 /\ get_ramp_pressure p (5/4) = 1/2 /\ get_ramp_pressure p 2 = 3/2.
Proof.
  exists (ramp_ctor 1 2 1 (1/2)). tp. assert (E : p_rmid (ramp_ctor 1 2 1 (1/2)) = 3/2) by (cbn; field).
  assert (G : good_ramp (ramp_ctor 1 2 1 (1/2)) 1 2 1 (1/2)).
  { split; [reflexivity|]. split; [|split; [lra|rewrite E; cbn; lra]]. unfold ramp_check; cbn. rewrite !Rlt_bool_true, Rle_bool_true, Req_bool_false by lra. reflexivity. }
  split; [exact G|]. split; [exact E|]. rewrite !(pressure_eq _ _ _ _ _ G), E. rewrite (Rlt_bool_false (5/4)), (Rlt_bool_true (5/4)), (Rlt_bool_false 2 1), (Rlt_bool_false 2) by lra.
  unfold lin1, lin2. lra.
Qed.
Print Assumptions C60_shifted_ideal_fill_refuted.
Print Assumptions C60_shifted_stiff_fill_refuted.
Print Assumptions C60_shifted_vinet_fill_refuted.
Print Assumptions C60_scaled_roundtrip_refuted.
Print Assumptions C30_ramp_shape.
Print Assumptions C30_ramp_density_inverse.
Print Assumptions C30_ramp_pressure.
Print Assumptions C30_pressure_continuous.
Print Assumptions C30_bulk_modulus.
Print Assumptions C30_fill_rho_sie.
Print Assumptions C60_ramp_fill_bmod_refuted.
Print Assumptions C60_ramp_PT_inversion_refuted.
Print Assumptions C60_ramp_bulk_modulus_below_r0_refuted.
Print Assumptions C60_ramp_gruneisen_on_ramp_refuted.
Print Assumptions C60_ramp_CheckParams_refuted.
Print Assumptions C60_ramp_fill_rho_T_refuted.
Print Assumptions C30_palpha_params.
