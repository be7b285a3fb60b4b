(** C95, temperature: the EOS a C or Fortran constructor stores has the manual's relation between density, energy and temperature in
    the parameters of the call. Together with the pressure this pins down the arguments that do not enter the pressure. *)
From Coq Require Import Reals ZArith List Bool Lra Lia.
From Flocq Require Import Core.
From Verif Require Import Arith Robust_Model Thermo_Tools Doc_Spec Bindings_Model Init_Model Init_Spec Init_Props.
From Verif Require Import Doc_Props Doc_Solid_Props.
From Verif Require Ideal_Model Stiff_Model NobleAbel_Model Carnahan_Model JWL_Model Gruneisen_Model DavisProducts_Model DavisReactants_Model DavisReactants_Props SAP_Model Mods_Model.
Import ListNotations.
Local Open Scope R_scope.

Section Init.
Variable palpha : eos -> R -> R -> R -> R * R * R * R.

Lemma applied_T m (on : nat -> bool) (v : nat -> R) e r :
  applyAll (Plain m) (on 0%nat) (on 1%nat) r (v 0%nat) (v 1%nat) (v 2%nat) (v 3%nat) (v 4%nat) (v 5%nat) = Some e -> forall rho sie,
  let k := if on 0%nat then v 0%nat else 1 in let s := if on 1%nat then v 1%nat else 0 in
  TemperatureFromDensityInternalEnergy e rho sie = material_temperature m (k * rho) (sie / k - s).
Proof.
  intros H rho sie. cbv zeta. unfold applyAll, applyWrappedShiftAndScale, applyShiftAndScale in H.
  assert (E0 : sie / 1 - 0 = sie) by field. assert (E1 : forall s, sie / 1 - s = sie - s) by (intros; field).
  assert (E2 : 1 / v 0%nat * sie = sie / v 0%nat - 0) by (unfold Rdiv; ring). assert (E3 : 1 / v 0%nat * sie - v 1%nat = sie / v 0%nat - v 1%nat) by (unfold Rdiv; ring).
  destruct r, (on 1%nat), (on 0%nat); cbn [andb] in H;
    repeat match goal with
    | H : bind _ _ = Some _ |- _ => apply bound in H; destruct H as (? & ? & H)
    | H : mk_checked _ = Some _ |- _ => apply checked in H; subst
    end; try (injection H as <-); cbn [TemperatureFromDensityInternalEnergy]; rewrite ?E3, ?E0, ?E1, ?E2, ?Rmult_1_l; reflexivity.
Qed.
(** with or without the P-alpha flag *)
Lemma init_T m l A e v err l' v' : init palpha (m - 1) l A e v = Some (err, l', v') ->
  exists mat, A = Some mat /\ forall Rel : R -> R -> R -> Prop, (forall rho sie, Rel rho sie (material_temperature mat rho sie)) -> thermometer m l' e v Rel.
Proof.
  intros H. unfold init in H. destruct (Z.ltb_spec (m - 1) 0); [discriminate|]. cbn [orb] in H.
  destruct (Z.leb_spec (Z.of_nat (length l)) (m - 1)); [discriminate|].
  apply bound in H. destruct H as (mat & EA & H). apply bound in H. destruct H as (ei & _ & H). cbv zeta in H. apply bound in H. destruct H as (s & ES & H).
  injection H as _ <- _. exists mat. split; [exact EA|]. intros Rel HR. exists s.
  set (j := Z.to_nat (m - 1)) in *. assert (L : (j < length l)%nat) by (unfold j; lia).
  change (match l with [] => [] | _ :: l0 => skipn j l0 end) with (skipn (S j) l). split; [now apply nth_at|].
  set (w := if (e 3%nat =? 1)%Z then _ else v) in ES. intros rho sie.
  pose proof (applied_T mat (fun i => (e i =? 1)%Z) w s _ ES) as X. cbv beta zeta in X. rewrite X.
  assert (W : w 0%nat = v 0%nat /\ w 1%nat = v 1%nat). { unfold w. destruct (e 3%nat =? 1)%Z; [destruct (palpha _ _ _ _) as [[[? ?] ?] ?]|]; split; reflexivity. }
  destruct W as [-> ->]. unfold scale_of, shift_of. apply HR.
Qed.
Lemma init_f_T m l A e v err l' v' : returned (init palpha (m - 1) l A (enabled_use e) (values_use v)) v = Some (err, l', v') ->
  exists mat, A = Some mat /\ forall Rel : R -> R -> R -> Prop, (forall rho sie, Rel rho sie (material_temperature mat rho sie)) -> thermometer m l' (flags_given e) (values_given v) Rel.
Proof.
  unfold returned. intros H. destruct (init _ _ _ _ _ _) as [[[err0 l0] v0]|] eqn:E; [|discriminate]. injection H as <- <- <-.
  rewrite flags_use, values_used in E. exact (init_T _ _ _ _ _ _ _ _ E).
Qed.

Theorem C95_ideal_gas_temperature : forall m l gm1 Cv e v err l' v', init_sg_IdealGas_f palpha m l gm1 Cv e v = Some (err, l', v') -> 0 < Cv ->
  thermometer m l' (flags_given e) (values_given v) (fun _ e T => 0 <= e -> e = ideal_e Cv T).
Proof.
  intros m l gm1 Cv e v err l' v' H G. apply init_f_T in H. destruct H as (mat & EA & B). apply mapped in EA. destruct EA as (g & EG & ->).
  apply B. intros rho sie He. unfold Ideal_Model.make_default in EG. destruct (Ideal_Model.CheckParams _) eqn:EC; [|discriminate]. injection EG as <-.
  cbn [material_temperature]. unfold Ideal_Model.TemperatureFromDensityInternalEnergy, Ideal_Model.ctor5, ideal_e. cbn [Ideal_Model.Cv].
  rewrite Rmax_r_eq by (apply div_ge; lra). field. lra.
Qed.
Theorem C95_stiff_gas_temperature : forall m l gm1 Cv Pinf q e v err l' v', init_sg_StiffGas_f palpha m l gm1 Cv Pinf q e v = Some (err, l', v') -> 0 < gm1 ->
  thermometer m l' (flags_given e) (values_given v) (fun rho e T => 0 < rho -> tiny <= rho * Cv -> SMALL * (rho * Cv) <= rho * (e - q) - Pinf ->
    e = stiff_e gm1 Cv Pinf q (stiff_P gm1 Pinf q rho e) T).
Proof.
  intros m l gm1 Cv Pinf q e v err l' v' H HG. apply init_f_T in H. destruct H as (mat & EA & B). apply mapped in EA. destruct EA as (g & EG & ->).
  apply B. intros rho sie Hr Hd Hs. unfold Stiff_Model.make in EG. destruct (Stiff_Model.CheckParams _) eqn:EC; [|discriminate]. injection EG as <-.
  cbn [material_temperature]. unfold Stiff_Model.TemperatureFromDensityInternalEnergy, Stiff_Model.ctor. cbv zeta. cbn [Stiff_Model.qq Stiff_Model.Pinf Stiff_Model.Cv].
  pose proof tiny_pos. assert (0 < SMALL) by (unfold SMALL; pose proof (bpow_gt_0 radix2 (-1022)); lra). rewrite ratio_pos by assumption.
  rewrite Rmax_r_eq by (apply Rmult_le_reg_r with (rho * Cv); [lra|]; unfold Rdiv; rewrite Rmult_assoc, Rinv_l by lra; lra).
  assert (0 < SMALL * (rho * Cv)) by (apply Rmult_lt_0_compat; lra).
  assert (Cv <> 0) by (intros ->; lra).
  unfold stiff_e, stiff_P. field. repeat split; try lra.
  intros Z. assert (gm1 * (rho * (sie - q) - Pinf) = 0) by lra. assert (0 < gm1 * (rho * (sie - q) - Pinf)) by (apply Rmult_lt_0_compat; lra). lra.
Qed.
Theorem C95_noble_abel_temperature : forall m l gm1 Cv b q e v err l' v', init_sg_NobleAbel_f palpha m l gm1 Cv b q e v = Some (err, l', v') ->
  thermometer m l' (flags_given e) (values_given v) (fun _ e T => SMALL <= (e - q) / Cv -> e = noble_e Cv q T).
Proof.
  intros m l gm1 Cv b q e v err l' v' H. apply init_f_T in H. destruct H as (mat & EA & B). apply mapped in EA. destruct EA as (g & EG & ->).
  apply B. intros rho sie He. unfold NobleAbel_Model.make in EG. destruct (NobleAbel_Model.CheckParams _) eqn:EC; [|discriminate]. injection EG as <-.
  unfold NobleAbel_Model.CheckParams, NobleAbel_Model.ctor in EC. cbv zeta in EC. rewrite !andb_true_iff in EC. cbn [NobleAbel_Model.Cv] in EC.
  assert (0 < Cv) by (destruct (Rlt_bool_spec 0 Cv); [assumption|]; intuition discriminate).
  cbn [material_temperature]. unfold NobleAbel_Model.TemperatureFromDensityInternalEnergy, NobleAbel_Model.ctor, noble_e. cbv zeta. cbn [NobleAbel_Model.qq NobleAbel_Model.Cv].
  rewrite Rmax_r_eq by exact He. field. lra.
Qed.
Theorem C95_carnahan_starling_temperature : forall m l gm1 Cv b q e v err l' v', init_sg_CarnahanStarling_f palpha m l gm1 Cv b q e v = Some (err, l', v') ->
  thermometer m l' e v (fun _ e T => SMALL <= (e - q) / Cv -> e = noble_e Cv q T).
Proof.
  intros m l gm1 Cv b q e v err l' v' H. apply init_T in H. destruct H as (mat & EA & B). apply mapped in EA. destruct EA as (g & EG & ->).
  apply B. intros rho sie He. unfold Carnahan_Model.make, Carnahan_Model.ctor in EG. destruct (Carnahan_Model.DensityFromPT _ _ _ _ _) as [r0|]; [|discriminate].
  destruct (Carnahan_Model.CheckParams _) eqn:EC; [|discriminate]. injection EG as <-.
  unfold Carnahan_Model.CheckParams in EC. rewrite !andb_true_iff in EC. cbn [Carnahan_Model.Cv] in EC.
  assert (0 < Cv) by (destruct (Rlt_bool_spec 0 Cv); [assumption|]; intuition discriminate).
  cbn [material_temperature]. unfold Carnahan_Model.TemperatureFromDensityInternalEnergy, noble_e. cbn [Carnahan_Model.qq Carnahan_Model.Cv].
  rewrite Rmax_r_eq by exact He. field. lra.
Qed.
Theorem C95_jwl_temperature : forall m l A B R1 R2 w rho0 Cv e v err l' v', init_sg_JWL_f palpha m l A B R1 R2 w rho0 Cv e v = Some (err, l', v') ->
  0 < R1 -> 0 < R2 -> tiny <= rho0 * R1 -> tiny <= rho0 * R2 -> tiny <= Cv ->
  thermometer m l' (flags_given e) (values_given v) (fun rho e T => tiny <= rho -> R1 * (rho0 / rho) <= 511 -> R2 * (rho0 / rho) <= 511 ->
    e = jwl_e_S A B R1 R2 rho0 rho + Cv * T).
Proof.
  intros m l A B R1 R2 w rho0 Cv e v err l' v' H K1 K2 K3 K4 K5. apply init_f_T in H. destruct H as (mat & EA & Bu). apply mapped in EA. destruct EA as (g & EG & ->).
  apply Bu. intros rho sie H1 H2 H4.
  destruct (C82_jwl A B R1 R2 w rho0 Cv 1 1 g rho EG K1 K2 K3 K4 K5 H1) as (PS & eS & _ & _ & X & _ & _ & Q & _). destruct (X H2 H4) as [_ <-]. apply Q.
Qed.
Theorem C95_gruneisen_temperature : forall m l C0 s1 s2 s3 G0 b rho0 T0 P0 Cv e v err l' v',
  init_sg_Gruneisen_f palpha m l C0 s1 s2 s3 G0 b rho0 T0 P0 Cv e v = Some (err, l', v') ->
  thermometer m l' (flags_given e) (values_given v) (fun _ e T => T = steinberg_T Cv T0 e).
Proof.
  intros m l C0 s1 s2 s3 G0 b rho0 T0 P0 Cv e v err l' v' H. apply init_f_T in H. destruct H as (mat & EA & Bu). apply mapped in EA. destruct EA as (g & EG & ->).
  unfold Gruneisen_Model.make_auto in EG. destruct (Gruneisen_Model.ComputeRhoMax s1 s2 s3 rho0) as [rm|]; [|discriminate]. injection EG as <-.
  apply Bu. intros rho sie. cbn [material_temperature]. unfold Gruneisen_Model.TemperatureFromDensityInternalEnergy, steinberg_T. cbn [Gruneisen_Model.T0 Gruneisen_Model.Cv]. ring.
Qed.
(** the energy is the heat capacity of the call times the temperature plus a function of the density (the manual's formula for that
    function is not the one in the code, C83) *)
Theorem C95_davis_products_temperature : forall m l a b k n vc pc Cv e v err l' v', init_sg_DavisProducts_f palpha m l a b k n vc pc Cv e v = Some (err, l', v') ->
  tiny <= Cv ->
  exists c : R -> R, thermometer m l' (flags_given e) (values_given v) (fun rho e T => e = c rho + Cv * T).
Proof.
  intros m l a b k n vc pc Cv e v err l' v' H K4. apply init_f_T in H. destruct H as (mat & [= <-] & Bu).
  set (g := DavisProducts_Model.ctor a b k n vc pc Cv 1 1) in *.
  exists (fun rho => DavisProducts_Model.Es g rho - Cv * DavisProducts_Model.Ts g rho). apply Bu. intros rho sie.
  cbn [material_temperature]. unfold DavisProducts_Model.TemperatureFromDensityInternalEnergy.
  change (DavisProducts_Model.Cv g) with Cv. pose proof tiny_pos. rewrite ratio_pos by assumption. field. lra.
Qed.
Theorem C95_davis_reactants_temperature : forall m l rho0 e0 P0 T0 A B C G0 Z alpha Cv0 e v err l' v',
  init_sg_DavisReactants_f palpha m l rho0 e0 P0 T0 A B C G0 Z alpha Cv0 e v = Some (err, l', v') ->
  tiny < rho0 -> tiny <= 4 * B -> 0 <= alpha -> 0 < Cv0 -> 0 < T0 ->
  thermometer m l' (flags_given e) (values_given v) (fun rho e T =>
    DavisReactants_Props.ok_rho (DavisReactants_Model.ctor rho0 e0 P0 T0 A B C G0 Z alpha Cv0 1 1) rho -> rho0 <= rho -> 0 < T ->
    e = davisr_e (davisr_e_S e0 P0 A B C rho0 rho) (davisr_T_S T0 G0 Z rho0 rho) Cv0 alpha T).
Proof.
  intros m l rho0 e0 P0 T0 A B C G0 Z alpha Cv0 e v err l' v' H K1 K2 K3 K4 K5. apply init_f_T in H. destruct H as (mat & [= <-] & Bu).
  apply Bu. intros rho sie H1 H2 H4. cbn [material_temperature] in *.
  set (g := DavisReactants_Model.ctor rho0 e0 P0 T0 A B C G0 Z alpha Cv0 1 1) in *.
  assert (AD : DavisReactants_Props.admissible g) by (split; [unfold g; do 13 eexists; reflexivity|]; unfold g; cbn; tauto).
  destruct (C82_davis_reactants g rho AD H1) as (_ & _ & Q & _). specialize (Q H2 _ H4).
  destruct (DavisReactants_Props.C24_reactants_round_trip g rho AD H1) as (_ & R1 & _ & R2).
  destruct (Rle_or_lt (DavisReactants_Model.MinInternalEnergyFromDensity g rho) sie) as [L|L].
  - rewrite (R1 _ L) in Q. exact Q.
  - exfalso. rewrite R2 in H4 by lra. lra.
Qed.
Lemma init_palpha m l A : palpha_is_ramp palpha m (fun e v => option_map fst (init palpha (m - 1) l A e v)).
Proof.
  intros e v err l' H3 H. unfold init in *. destruct (Z.ltb_spec (m - 1) 0); [discriminate|]. cbn [orb] in *.
  destruct (Z.leb_spec (Z.of_nat (length l)) (m - 1)); [discriminate|]. destruct A as [A|]; [|discriminate]. cbn [bind] in *.
  cbn [with_ramp without_ramp] in *. rewrite H3 in H. cbn [Z.eqb Pos.eqb] in *. cbv zeta in *.
  destruct (applyShiftAndScale (Plain A) _ _ _ _) as [s|] eqn:ES; [|discriminate]. cbn [bind] in *.
  destruct (palpha s (v 2%nat) (v 3%nat) (v 4%nat)) as [[[r0 a] b] c] eqn:EP. rewrite orb_true_r in H.
  destruct (applyAll (Plain A) _ _ true _ _ _ _ _ _) as [x|] eqn:EX; [|discriminate]. cbn [bind option_map fst] in H. injection H as <- <-.
  exists (firstn (Z.to_nat (m - 1)) l ++ s :: skipn (S (Z.to_nat (m - 1))) l), s, (fun i => match i with 2%nat => r0 | 3%nat => a | 4%nat => b | 5%nat => c | _ => v i end).
  split; [unfold applyAll; cbn [orb]; rewrite ES; reflexivity|].
  split; [apply nth_at; lia|]. split; [reflexivity|]. split; [reflexivity|]. split; [exact EP|].
  rewrite ES. cbn [bind orb]. rewrite EX. reflexivity.
Qed.
(** P-alpha: nothing but a bilinear ramp with computed parameters, whose pressure the class theorems then give *)
Theorem C95_palpha_flag : forall m l,
  (forall gm1 Cv, palpha_is_ramp palpha m (fun e v => option_map fst (init_sg_IdealGas_f palpha m l gm1 Cv (Some e) (Some v)))) /\
  (forall C0 s1 s2 s3 G0 b rho0 T0 P0 Cv, palpha_is_ramp palpha m (fun e v => option_map fst (init_sg_Gruneisen_f palpha m l C0 s1 s2 s3 G0 b rho0 T0 P0 Cv (Some e) (Some v)))) /\
  (forall A B R1 R2 w rho0 Cv, palpha_is_ramp palpha m (fun e v => option_map fst (init_sg_JWL_f palpha m l A B R1 R2 w rho0 Cv (Some e) (Some v)))) /\
  (forall a b k n vc pc Cv, palpha_is_ramp palpha m (fun e v => option_map fst (init_sg_DavisProducts_f palpha m l a b k n vc pc Cv (Some e) (Some v)))) /\
  (forall rho0 e0 P0 T0 A B C G0 Z0 alpha Cv0, palpha_is_ramp palpha m (fun e v => option_map fst (init_sg_DavisReactants_f palpha m l rho0 e0 P0 T0 A B C G0 Z0 alpha Cv0 (Some e) (Some v)))) /\
  (forall rho0 a0 a1 a2c a2e a3 b0 b1 b2c b2e b3, palpha_is_ramp palpha m (fun e v => option_map fst (init_sg_SAP_Polynomial_f palpha m l rho0 a0 a1 a2c a2e a3 b0 b1 b2c b2e b3 (Some e) (Some v)))) /\
  (forall gm1 Cv Pinf qq, palpha_is_ramp palpha m (fun e v => option_map fst (init_sg_StiffGas_f palpha m l gm1 Cv Pinf qq (Some e) (Some v)))) /\
  (forall gm1 Cv bb qq, palpha_is_ramp palpha m (fun e v => option_map fst (init_sg_NobleAbel_f palpha m l gm1 Cv bb qq (Some e) (Some v)))) /\
  (forall gm1 Cv bb qq, palpha_is_ramp palpha m (fun e v => option_map fst (init_sg_CarnahanStarling_f palpha m l gm1 Cv bb qq e v))).
Proof.
  intros m l.
  assert (G : forall A, palpha_is_ramp palpha m (fun e v => option_map fst (returned (init palpha (m - 1) l A e v) (Some v)))).
  { intros A e v err l' H3 H. assert (F : forall e v, option_map fst (returned (init palpha (m - 1) l A e v) (Some v)) = option_map fst (init palpha (m - 1) l A e v))
      by (intros e0 v0; destruct (init palpha (m - 1) l A e0 v0) as [[[? ?] ?]|]; reflexivity).
    rewrite F in H. destruct (init_palpha m l A e v err l' H3 H) as (l0 & s & vr & Q). exists l0, s, vr. rewrite !F. exact Q. }
  repeat (apply conj; [intros; apply G|]). intros. apply init_palpha.
Qed.
End Init.

(** non-vacuity: the scaled and shifted ideal gas of C95_nonvacuous has the temperature 4 / 7 at density 3 and energy 10 *)
Example C95_temperature_nonvacuous : forall palpha l l' w, length l = 3%nat ->
  let e := fun i : nat => match i with 0%nat | 1%nat => 1%Z | _ => 0%Z end in let v := fun i : nat => match i with 0%nat => 2 | 1%nat => 1 | _ => 0 end in
  init_sg_IdealGas_f palpha 2 l (1 / 2) 7 (Some e) (Some v) = Some (0%Z, l', w) ->
  exists s, nth_error l' 1 = Some s /\ TemperatureFromDensityInternalEnergy s 3 10 = 4 / 7.
Proof.
  intros palpha l l' w L e v H. apply C95_ideal_gas_temperature in H; [|lra]. destruct H as (s & E & Q). exists s. split; [exact E|].
  specialize (Q 3 10). unfold scale_of, shift_of, flags_given, values_given, ideal_e in Q. cbn [e v Z.eqb Pos.eqb] in Q.
  assert (0 <= 10 / 2 - 1) by lra. specialize (Q H). lra.
Qed.
(** non-vacuity of C95_palpha_flag: a P-alpha call that succeeds, with parameters computed from the three values *)
Example C95_palpha_nonvacuous : forall l, length l = 3%nat ->
  let pal := fun (s : eos) (alpha0 Pe Pc : R) => (1 / alpha0, Pe, Pc, 0) in
  let e := fun i : nat => match i with 3%nat => 1%Z | _ => 0%Z end in let v := fun i : nat => match i with 2%nat => 2 | 3%nat => 6 | 4%nat => 5 | _ => 0 end in
  exists l' s, init_sg_IdealGas_f pal 2 l (1 / 2) 7 (Some e) (Some v) = Some (0%Z, l', Some v) /\ nth_error l' 1 = Some s /\
    exists t, s = BilinearRamp t (Mods_Model.ramp_ctor (1 / 2) 6 5 0).
Proof.
  intros l L pal e v.
  assert (C : Ideal_Model.CheckParams (Ideal_Model.ctor5 (1 / 2) 7 Ideal_Model.ROOM_TEMPERATURE (Ideal_Model.ATMOSPHERIC_PRESSURE / (1 / 2 * 7 * Ideal_Model.ROOM_TEMPERATURE)) 1 1) = true).
  { unfold Ideal_Model.CheckParams, Ideal_Model.ctor5, Ideal_Model.ROOM_TEMPERATURE, Ideal_Model.ATMOSPHERIC_PRESSURE.
    cbn [Ideal_Model.Cv Ideal_Model.gm1 Ideal_Model.EntropyT0 Ideal_Model.EntropyRho0 Ideal_Model.Abar Ideal_Model.Zbar].
    rewrite !Rle_bool_true, !Rlt_bool_true by lra. reflexivity. }
  assert (C2 : Mods_Model.ramp_check (Mods_Model.ramp_ctor (1 / 2) 6 5 0) = true).
  { unfold Mods_Model.ramp_check, Mods_Model.ramp_ctor. cbn [Mods_Model.p_r0 Mods_Model.p_a Mods_Model.p_b].
    rewrite !Rle_bool_true, !Rlt_bool_true by lra. rewrite Req_bool_false by lra. reflexivity. }
  eexists. eexists. split; [|split].
  - unfold init_sg_IdealGas_f, init_sg_IdealGas, returned, init. replace (Z.of_nat (length l)) with 3%Z by (rewrite L; reflexivity).
    change ((2 - 1 <? 0)%Z || (3 <=? 2 - 1)%Z) with false. cbv iota. unfold Ideal_Model.make_default. cbv zeta. rewrite C.
    cbn [option_map bind enabled_use values_use f_mods e v pal Z.eqb Pos.eqb orb]. unfold applyAll, applyShiftAndScale, applyWrappedShiftAndScale. cbn [andb orb bind].
    unfold mk_checked. cbn [CheckParams material_check]. rewrite C, C2. cbn [andb bind option_map fst snd]. reflexivity.
  - change 1%nat with (Z.to_nat (2 - 1)). apply nth_at. lia.
  - eexists. reflexivity.
Qed.
Print Assumptions C95_ideal_gas_temperature.
Print Assumptions C95_stiff_gas_temperature.
Print Assumptions C95_noble_abel_temperature.
Print Assumptions C95_carnahan_starling_temperature.
Print Assumptions C95_jwl_temperature.
Print Assumptions C95_gruneisen_temperature.
Print Assumptions C95_davis_products_temperature.
Print Assumptions C95_davis_reactants_temperature.
Print Assumptions C95_palpha_flag.
