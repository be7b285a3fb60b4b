(** C95: the constructors of the C and Fortran interfaces build the EOS their arguments name: a later pressure query of that
    material returns the closed form of the manual in exactly those parameters, with the modifiers asked for, and the other
    materials are untouched. Part of C81: the wrapper that does not copy the caller's modifier arrays. *)
From Coq Require Import Reals ZArith List Bool Lra Lia.
From Flocq Require Import Core.
From Verif Require Import Arith Robust_Model Thermo_Tools Doc_Spec Vector_Model Vector_Spec Bindings_Model Bindings_Spec Bindings_Props Init_Model Init_Spec.
From Verif Require Import Doc_Props Doc_Solid_Props.
From Verif Require Ideal_Model Stiff_Model NobleAbel_Model Carnahan_Model JWL_Model Gruneisen_Model DavisProducts_Model DavisReactants_Model DavisReactants_Props SAP_Model Mods_Model.
Import ListNotations.
Local Open Scope R_scope.

Lemma flags_use e : enabled_use e = flags_given e. Proof. destruct e; reflexivity. Qed.
Lemma values_used v : values_use v = values_given v. Proof. destruct v; reflexivity. Qed.

Lemma ramp_eq p rho r0 a b c base : p = Mods_Model.ramp_ctor r0 a b c -> tiny <= r0 ->
  Mods_Model.ramp_P p rho base = Rmax base (ramp_pressure r0 a b c rho).
Proof.
  intros -> H. unfold Mods_Model.ramp_P, Mods_Model.get_ramp_pressure, Mods_Model.ramp_ctor, ramp_pressure.
  cbn [Mods_Model.p_r0 Mods_Model.p_a Mods_Model.p_b Mods_Model.p_c Mods_Model.p_rmid]. cbv zeta. rewrite ratio_pos by assumption.
  destruct (Rlt_bool_spec rho r0) as [H1|H1], (Rlt_dec rho r0); try lra.
  - destruct (Rlt_bool_spec base 0); [rewrite Rmax_right|rewrite Rmax_left]; lra.
  - destruct (Rlt_bool_spec rho (r0 * (a - b * c) / (a - b))), (Rlt_dec rho (r0 * (a - b * c) / (a - b))); try lra;
    match goal with |- context [Rlt_bool base ?x] => destruct (Rlt_bool_spec base x); [rewrite (Rmax_right base x)|rewrite (Rmax_left base x)]; lra end.
Qed.

Section Init.
Variable palpha : eos -> R -> R -> R -> R * R * R * R.

Lemma checked e r : mk_checked e = Some r -> r = e.
Proof. unfold mk_checked. destruct (CheckParams e); congruence. Qed.
Lemma bound {A B} (x : option A) (f : A -> option B) r : bind x f = Some r -> exists a, x = Some a /\ f a = Some r.
Proof. destruct x; cbn; [eauto|discriminate]. Qed.

Lemma applied m (on : nat -> bool) (v : nat -> R) e :
  applyAll (Plain m) (on 0%nat) (on 1%nat) (on 2%nat || false) (v 0%nat) (v 1%nat) (v 2%nat) (v 3%nat) (v 4%nat) (v 5%nat) = Some e ->
  (on 2%nat = true -> tiny <= v 2%nat) -> forall rho sie,
  let k := if on 0%nat then v 0%nat else 1 in let s := if on 1%nat then v 1%nat else 0 in
  PressureFromDensityInternalEnergy e rho sie =
    let p := material_pressure m (k * rho) (sie / k - s) in
    if on 2%nat then Rmax p (ramp_pressure (v 2%nat) (v 3%nat) (v 4%nat) (v 5%nat) rho) else p.
Proof.
  intros H HT rho sie. cbv zeta. unfold applyAll, applyWrappedShiftAndScale, applyShiftAndScale in H. rewrite orb_false_r in H.
  assert (E0 : sie / 1 - 0 = sie) by field. assert (E1 : forall s, sie / 1 - s = sie - s) by (intros; field).
  assert (E2 : 1 / v 0%nat * sie = sie / v 0%nat - 0) by (unfold Rdiv; ring). assert (E3 : 1 / v 0%nat * sie - v 1%nat = sie / v 0%nat - v 1%nat) by (unfold Rdiv; ring).
  destruct (on 2%nat) eqn:O2, (on 1%nat), (on 0%nat); cbn [andb] in H;
    repeat match goal with
    | H : bind _ _ = Some _ |- _ => apply bound in H; destruct H as (? & ? & H)
    | H : mk_checked _ = Some _ |- _ => apply checked in H; subst
    end; try (injection H as <-); cbn [PressureFromDensityInternalEnergy];
    try (erewrite ramp_eq by (reflexivity || auto)); rewrite ?E3, ?E0, ?E1, ?E2, ?Rmult_1_l; reflexivity.
Qed.

Lemma nth_before {A} (l : list A) (e : A) j q : (j < length l)%nat -> (q < j)%nat -> nth_error (firstn j l ++ e :: skipn (S j) l) q = nth_error l q.
Proof.
  intros L Q. rewrite nth_error_app1 by (rewrite firstn_length; lia). rewrite <- (firstn_skipn j l) at 2.
  rewrite nth_error_app1 by (rewrite firstn_length; lia). reflexivity.
Qed.
Lemma nth_at {A} (l : list A) (e : A) j : (j < length l)%nat -> nth_error (firstn j l ++ e :: skipn (S j) l) j = Some e.
Proof. intros L. rewrite nth_error_app2 by (rewrite firstn_length; lia). rewrite firstn_length. replace (j - Nat.min j (length l))%nat with 0%nat by lia. reflexivity. Qed.
Lemma nth_after {A} (l : list A) (e : A) j q : (j < length l)%nat -> (j < q)%nat -> nth_error (firstn j l ++ e :: skipn (S j) l) q = nth_error l q.
Proof.
  intros L Q. rewrite nth_error_app2 by (rewrite firstn_length; lia). rewrite firstn_length. replace (Nat.min j (length l)) with j by lia.
  destruct (q - j)%nat as [|d] eqn:E; [lia|]. cbn [nth_error]. rewrite <- (firstn_skipn (S j) l) at 2.
  rewrite nth_error_app2 by (rewrite firstn_length; lia). rewrite firstn_length. f_equal. lia.
Qed.

Lemma queries l m e (D : R -> R -> Prop) P : (1 <= m)%Z -> nth_error l (Z.to_nat (m - 1)) = Some e ->
  (forall rho sie, D rho sie -> PressureFromDensityInternalEnergy e rho sie = P rho sie) -> answers_fortran l m D P /\ answers_c l (m - 1) D P.
Proof.
  intros Hm N H. assert (N' : nth_error (map as_ceos l) (Z.to_nat (m - 1)) = Some (as_ceos e)) by (now apply map_nth_error).
  assert (K : keeps_lambda (c_fun (as_ceos e))) by (intros x y z; reflexivity). split.
  - intros rhos sies prs n1 n2 n3 stride lam m0 n C1 C2 C3 A1 A2 S.
    destruct (C80_fortran_query_no_lambda R _ _ m rhos sies prs n1 n2 n3 stride lam m0 Hm N' K C1 C2 C3 A1 A2 S) as (k & E & Q).
    exists k. split; [exact E|]. intros sched C mm. destruct (Q sched C) as [Q1 Q2]. split.
    + intros a b c V Hd. destruct (Q1 a b c V) as [Q1' _]. unfold mm. rewrite Q1'. cbn [as_ceos c_fun fst]. now apply H.
    + intros x X. apply Q2. intros a b c V. split; [now apply X|intros []].
  - intros p q r n s d m0 P1 P2 P3 P4 P5 P6 A1 A2 S.
    destruct (C80_c_query_no_lambda R _ _ (m - 1) p q r n s d m0 ltac:(lia) N' K P1 P2 P3 P4 P5 P6 A1 A2 S) as (k & E & Q).
    exists k. split; [exact E|]. intros sched C mm i Hi x y Hd. destruct (Q sched C) as [Q1 _]. destruct (Q1 i Hi) as [Q1' _].
    unfold mm. rewrite Q1'. cbn [as_ceos c_fun fst]. now apply H.
Qed.

Lemma init_built m l A e v err l' v' : init palpha (m - 1) l A e v = Some (err, l', v') -> e 3%nat <> 1%Z ->
  exists mat, A = Some mat /\ err = 0%Z /\ v' = v /\
    forall (D : R -> R -> Prop) P, (forall rho sie, D rho sie -> material_pressure mat rho sie = P rho sie) -> built m l l' e v D P.
Proof.
  intros H H3. unfold init in H. destruct (Z.ltb_spec (m - 1) 0); [discriminate|]. cbn [orb] in H.
  destruct (Z.leb_spec (Z.of_nat (length l)) (m - 1)); [discriminate|].
  apply bound in H. destruct H as (mat & EA & H). apply bound in H. destruct H as (ei & _ & H).
  destruct (Z.eqb_spec (e 3%nat) 1); [contradiction|]. cbv zeta in H. apply bound in H. destruct H as (s & ES & H).
  injection H as <- <- <-. exists mat. split; [exact EA|]. split; [reflexivity|]. split; [reflexivity|]. intros D P HP.
  set (j := Z.to_nat (m - 1)) in *. assert (L : (j < length l)%nat) by (unfold j; lia).
  change (match l with [] => [] | _ :: l0 => skipn j l0 end) with (skipn (S j) l). unfold built. split.
  - split.
    + rewrite app_length, firstn_length. cbn [length]. rewrite skipn_length. lia.
    + intros m' M1 M2. destruct (Nat.lt_ge_cases (Z.to_nat (m' - 1)) j); [now apply nth_before|]. apply nth_after; [exact L|]. unfold j in *. lia.
  - apply (queries _ m s); [lia|now apply nth_at|]. intros rho sie [Hd Hr].
    pose proof (applied mat (fun i => (e i =? 1)%Z) v s ES) as X. cbv beta zeta in X. rewrite X.
    + unfold modified, scale_of, shift_of in *. rewrite HP by exact Hd. reflexivity.
    + intros E. apply Hr. now apply Z.eqb_eq.
Qed.
Lemma init_f m l A e v err l' v' : returned (init palpha (m - 1) l A (enabled_use e) (values_use v)) v = Some (err, l', v') -> flags_given e 3%nat <> 1%Z ->
  exists mat, A = Some mat /\ err = 0%Z /\ v' = v /\
    forall (D : R -> R -> Prop) P, (forall rho sie, D rho sie -> material_pressure mat rho sie = P rho sie) -> built m l l' (flags_given e) (values_given v) D P.
Proof.
  unfold returned. intros H H3. destruct (init _ _ _ _ _ _) as [[[err0 l0] v0]|] eqn:E; [|discriminate]. injection H as <- <- <-.
  rewrite flags_use, values_used in E. apply init_built in E; [|exact H3]. destruct E as (mat & E1 & E2 & _ & E4). exists mat. auto.
Qed.
Lemma mapped {A B} (f : A -> B) x r : option_map f x = Some r -> exists a, x = Some a /\ r = f a.
Proof. destruct x; cbn; [intros [= <-]; eauto|discriminate]. Qed.

Theorem C95_ideal_gas : forall m l gm1 Cv e v err l' v', init_sg_IdealGas_f palpha m l gm1 Cv e v = Some (err, l', v') -> flags_given e 3%nat <> 1%Z ->
  err = 0%Z /\ v' = v /\ built m l l' (flags_given e) (values_given v) (fun rho e => 0 <= rho /\ 0 <= e) (ideal_P gm1).
Proof.
  intros m l gm1 Cv e v err l' v' H H3. apply init_f in H; [|exact H3]. destruct H as (mat & EA & -> & -> & B).
  apply mapped in EA. destruct EA as (g & EG & ->). split; [reflexivity|]. split; [reflexivity|]. apply B. intros rho sie [H1 H2].
  unfold Ideal_Model.make_default in EG. destruct (Ideal_Model.CheckParams _) eqn:EC; [|discriminate]. injection EG as <-.
  unfold Ideal_Model.CheckParams in EC. rewrite !andb_true_iff in EC. destruct EC as (((((_ & EC) & _) & _) & _) & _).
  cbn [Ideal_Model.gm1 Ideal_Model.ctor5] in EC. destruct (Rle_bool_spec 0 gm1) as [G|]; [|discriminate].
  cbn [material_pressure]. unfold Ideal_Model.PressureFromDensityInternalEnergy, ideal_P. cbn [Ideal_Model.gm1 Ideal_Model.ctor5].
  apply Rmax_r_eq. apply Rmult_le_pos; [apply Rmult_le_pos|]; assumption.
Qed.
Theorem C95_stiff_gas : forall m l gm1 Cv Pinf q e v err l' v', init_sg_StiffGas_f palpha m l gm1 Cv Pinf q e v = Some (err, l', v') -> flags_given e 3%nat <> 1%Z ->
  err = 0%Z /\ v' = v /\ built m l l' (flags_given e) (values_given v) (fun rho e => - Pinf <= stiff_P gm1 Pinf q rho e) (stiff_P gm1 Pinf q).
Proof.
  intros m l gm1 Cv Pinf q e v err l' v' H H3. apply init_f in H; [|exact H3]. destruct H as (mat & EA & -> & -> & B).
  apply mapped in EA. destruct EA as (g & EG & ->). split; [reflexivity|]. split; [reflexivity|]. apply B. intros rho sie H1.
  unfold Stiff_Model.make in EG. destruct (Stiff_Model.CheckParams _) eqn:EC; [|discriminate]. injection EG as <-.
  cbn [material_pressure]. unfold Stiff_Model.PressureFromDensityInternalEnergy, Stiff_Model.ctor. cbv zeta.
  cbn [Stiff_Model.gm1 Stiff_Model.qq Stiff_Model.Pinf]. apply Rmax_r_eq. exact H1.
Qed.
Theorem C95_noble_abel : forall m l gm1 Cv b q e v err l' v', init_sg_NobleAbel_f palpha m l gm1 Cv b q e v = Some (err, l', v') -> flags_given e 3%nat <> 1%Z ->
  err = 0%Z /\ v' = v /\ built m l l' (flags_given e) (values_given v)
    (fun rho e => tiny <= 1 - b * rho /\ SMALL <= noble_P gm1 b q rho e) (noble_P gm1 b q).
Proof.
  intros m l gm1 Cv b q e v err l' v' H H3. apply init_f in H; [|exact H3]. destruct H as (mat & EA & -> & -> & B).
  apply mapped in EA. destruct EA as (g & EG & ->). split; [reflexivity|]. split; [reflexivity|]. apply B. intros rho sie [H1 H2].
  unfold NobleAbel_Model.make in EG. destruct (NobleAbel_Model.CheckParams _) eqn:EC; [|discriminate]. injection EG as <-.
  cbn [material_pressure]. unfold NobleAbel_Model.PressureFromDensityInternalEnergy, NobleAbel_Model.ctor. cbv zeta.
  cbn [NobleAbel_Model.gm1 NobleAbel_Model.qq NobleAbel_Model.bb]. rewrite ratio_pos by assumption.
  replace (gm1 * rho * (sie - q) / (1 - b * rho)) with (noble_P gm1 b q rho sie) by (unfold noble_P; f_equal; ring). apply Rmax_r_eq. exact H2.
Qed.
Lemma tiny_293 : tiny <= 293. Proof. pose proof tiny_lt_1. lra. Qed.
Theorem C95_carnahan_starling : forall m l gm1 Cv b q e v err l' v', init_sg_CarnahanStarling_f palpha m l gm1 Cv b q e v = Some (err, l', v') -> e 3%nat <> 1%Z ->
  err = 0%Z /\ v' = v /\ built m l l' e v
    (fun rho e => tiny <= rho /\ b * rho < 1 /\ tiny <= (1 - b * rho) ^ 3 /\ SMALL <= carnahan_P gm1 b q rho e) (carnahan_P gm1 b q).
Proof.
  intros m l gm1 Cv b q e v err l' v' H H3. apply init_built in H; [|exact H3]. destruct H as (mat & EA & -> & -> & B).
  apply mapped in EA. destruct EA as (g & EG & ->). split; [reflexivity|]. split; [reflexivity|]. apply B. intros rho sie (H1 & H2 & H4 & H5).
  cbn [material_pressure]. assert (P : 0 < Cv /\ 0 < gm1 /\ 0 <= b).
  { clear - EG. unfold Carnahan_Model.make, Carnahan_Model.ctor in EG. destruct (Carnahan_Model.DensityFromPT _ _ _ _ _) as [r0|]; [|discriminate].
    destruct (Carnahan_Model.CheckParams _) eqn:EC; [|discriminate]. unfold Carnahan_Model.CheckParams in EC. rewrite !andb_true_iff in EC.
    destruct EC as ((((C1 & C2) & C3) & _) & _). cbn [Carnahan_Model.Cv Carnahan_Model.gm1 Carnahan_Model.bb] in C1, C2, C3.
    destruct (Rlt_bool_spec 0 Cv), (Rlt_bool_spec 0 gm1), (Rle_bool_spec 0 b); try discriminate. auto. }
  destruct P as (P1 & P2 & P3).
  apply (proj1 (C82_carnahan_starling gm1 Cv b q 0 293 1000000 1 1 g rho EG P2 P1 P3 tiny_293 H1 H2 H4)). exact H5.
Qed.
Theorem C95_jwl : forall m l A B R1 R2 w rho0 Cv e v err l' v', init_sg_JWL_f palpha m l A B R1 R2 w rho0 Cv e v = Some (err, l', v') -> flags_given e 3%nat <> 1%Z ->
  0 < R1 -> 0 < R2 -> tiny <= rho0 * R1 -> tiny <= rho0 * R2 -> tiny <= Cv ->
  err = 0%Z /\ v' = v /\ built m l l' (flags_given e) (values_given v)
    (fun rho _ => tiny <= rho /\ R1 * (rho0 / rho) <= 511 /\ R2 * (rho0 / rho) <= 511)
    (fun rho => mie_gruneisen (jwl_P_S A B R1 R2 rho0 rho) (jwl_e_S A B R1 R2 rho0 rho) w rho).
Proof.
  intros m l A B R1 R2 w rho0 Cv e v err l' v' H H3 K1 K2 K3 K4 K5. apply init_f in H; [|exact H3]. destruct H as (mat & EA & -> & -> & Bu).
  apply mapped in EA. destruct EA as (g & EG & ->). split; [reflexivity|]. split; [reflexivity|]. apply Bu. intros rho sie (H1 & H2 & H4).
  destruct (C82_jwl A B R1 R2 w rho0 Cv 1 1 g rho EG K1 K2 K3 K4 K5 H1) as (PS & eS & _ & _ & X & Q & _). destruct (X H2 H4) as [-> ->]. apply Q.
Qed.
(** rho_max is the density the constructor computes (C22): the pressure is that of the fit below it and held at that density above *)
Theorem C95_gruneisen : forall m l C0 s1 s2 s3 G0 b rho0 T0 P0 Cv e v err l' v',
  init_sg_Gruneisen_f palpha m l C0 s1 s2 s3 G0 b rho0 T0 P0 Cv e v = Some (err, l', v') -> flags_given e 3%nat <> 1%Z -> 0 < rho0 -> 0 < Cv ->
  exists rho_max, Gruneisen_Model.ComputeRhoMax s1 s2 s3 rho0 = Some rho_max /\
  err = 0%Z /\ v' = v /\ built m l l' (flags_given e) (values_given v) (fun rho _ => 0 < rho)
    (fun rho => let r := pinned (option_map (Rmult (99 / 100)) rho_max) rho in
       mie_gruneisen (steinberg_P_H C0 s1 s2 s3 rho0 P0 r) (steinberg_E_H C0 s1 s2 s3 rho0 P0 r) (steinberg_Gamma G0 b (compression rho0 r)) r).
Proof.
  intros m l C0 s1 s2 s3 G0 b rho0 T0 P0 Cv e v err l' v' H H3 K1 K2. apply init_f in H; [|exact H3]. destruct H as (mat & EA & -> & -> & Bu).
  apply mapped in EA. destruct EA as (g & EG & ->). unfold Gruneisen_Model.make_auto in EG.
  destruct (Gruneisen_Model.ComputeRhoMax s1 s2 s3 rho0) as [rm|] eqn:ER; [|discriminate]. exists rm. split; [reflexivity|]. split; [reflexivity|]. split; [reflexivity|].
  injection EG as <-. apply Bu. intros rho sie H1. cbn [material_pressure].
  assert (M : match rm with Some m => Some (Gruneisen_Model.RHOMAX_SAFETY * m) | None => None end = option_map (Rmult (99 / 100)) rm) by (destruct rm; reflexivity).
  rewrite M. refine (proj1 (proj1 (C82_gruneisen C0 s1 s2 s3 G0 b rho0 T0 P0 Cv (option_map (Rmult (99 / 100)) rm) 1 1 rho K1 K2 H1 _) sie)).
  destruct rm as [mx|]; [|exact I]. cbn [option_map]. unfold Gruneisen_Model.ComputeRhoMax in ER. destruct (Gruneisen_Model.eta_root s1 s2 s3) as [root|]; [|discriminate].
  destruct (Rlt_bool_spec 0 root); [|discriminate]. destruct (Rlt_bool_spec root 1); [|discriminate]. injection ER as <-.
  assert (0 < EPS) by (unfold EPS; pose proof (bpow_gt_0 radix2 (-52)); lra). apply Rmult_lt_0_compat; [lra|]. apply Rdiv_lt_0_compat; lra.
Qed.
Theorem C95_davis_products : forall m l a b k n vc pc Cv e v err l' v', init_sg_DavisProducts_f palpha m l a b k n vc pc Cv e v = Some (err, l', v') -> flags_given e 3%nat <> 1%Z ->
  tiny <= n -> 0 < vc -> 0 < pc -> tiny <= Cv -> tiny <= k - 1 + a ->
  err = 0%Z /\ v' = v /\ built m l l' (flags_given e) (values_given v)
    (fun rho _ => tiny <= rho * vc /\ 0 < rho /\ tiny <= Rpower (rho * vc) (- (k + a)) /\ tiny <= Rpower (rho * vc) (- (k - 1 + a)))
    (fun rho => mie_gruneisen (davisp_P_S a k n vc pc rho) (davisp_e_S a k n vc pc rho) (davisp_Gamma a b k n vc rho) rho).
Proof.
  intros m l a b k n vc pc Cv e v err l' v' H H3 K1 K2 K3 K4 K5. apply init_f in H; [|exact H3]. destruct H as (mat & [= <-] & -> & -> & Bu).
  split; [reflexivity|]. split; [reflexivity|]. apply Bu. intros rho sie (H1 & H2 & H4 & H5).
  exact (proj1 (proj1 (C82_davis_products a b k n vc pc Cv 1 1 rho K1 K2 K3 K4 K5 H1 H2 H4 H5) sie)).
Qed.
Theorem C95_davis_reactants : forall m l rho0 e0 P0 T0 A B C G0 Z alpha Cv0 e v err l' v',
  init_sg_DavisReactants_f palpha m l rho0 e0 P0 T0 A B C G0 Z alpha Cv0 e v = Some (err, l', v') -> flags_given e 3%nat <> 1%Z ->
  tiny < rho0 -> tiny <= 4 * B -> 0 <= alpha -> 0 < Cv0 -> 0 < T0 ->
  err = 0%Z /\ v' = v /\ built m l l' (flags_given e) (values_given v)
    (fun rho _ => let g := DavisReactants_Model.ctor rho0 e0 P0 T0 A B C G0 Z alpha Cv0 1 1 in DavisReactants_Props.ok_rho g rho)
    (fun rho e => mie_gruneisen (davisr_P_S P0 A B C rho0 rho) (davisr_e_S e0 P0 A B C rho0 rho) (davisr_Gamma G0 Z rho0 rho) rho e - P0).
Proof.
  intros m l rho0 e0 P0 T0 A B C G0 Z alpha Cv0 e v err l' v' H H3 K1 K2 K3 K4 K5. apply init_f in H; [|exact H3]. destruct H as (mat & [= <-] & -> & -> & Bu).
  split; [reflexivity|]. split; [reflexivity|]. apply Bu. intros rho sie H1. cbv zeta in H1. cbn [material_pressure].
  set (g := DavisReactants_Model.ctor rho0 e0 P0 T0 A B C G0 Z alpha Cv0 1 1) in *.
  assert (AD : DavisReactants_Props.admissible g) by (split; [unfold g; do 13 eexists; reflexivity|]; unfold g; cbn; tauto).
  destruct (C82_davis_reactants g rho AD H1) as (_ & Q & _). specialize (Q sie). unfold g in Q at 3 4 5 6 7 8 9 10 11 12 13 14 15 16. cbn in Q. lra.
Qed.
Theorem C95_sap_polynomial : forall m l rho0 a0 a1 a2c a2e a3 b0 b1 b2c b2e b3 e v err l' v',
  init_sg_SAP_Polynomial_f palpha m l rho0 a0 a1 a2c a2e a3 b0 b1 b2c b2e b3 e v = Some (err, l', v') -> flags_given e 3%nat <> 1%Z ->
  err = 0%Z /\ v' = v /\ built m l l' (flags_given e) (values_given v) (fun _ _ => rho0 <> 0) (sap_P rho0 a0 a1 a2c a2e a3 b0 b1 b2c b2e b3).
Proof.
  intros m l rho0 a0 a1 a2c a2e a3 b0 b1 b2c b2e b3 e v err l' v' H H3. apply init_f in H; [|exact H3]. destruct H as (mat & EA & -> & -> & Bu).
  split; [reflexivity|]. split; [reflexivity|]. apply Bu. intros rho sie _. destruct (SAP_Model.CheckParams _); [|discriminate]. injection EA as <-.
  cbn [material_pressure]. unfold SAP_Model.PressureFromDensityInternalEnergy, SAP_Model.MuFromDensity, sap_P. cbn [SAP_Model.rho0 SAP_Model.a0 SAP_Model.a1 SAP_Model.a2c SAP_Model.a2e SAP_Model.a3 SAP_Model.b0 SAP_Model.b1 SAP_Model.b2c SAP_Model.b2e SAP_Model.b3].
  cbv zeta. destruct (Rle_bool_spec 0 (rho / rho0 - 1)), (Rle_dec 0 (rho / rho0 - 1)); try lra; ring.
Qed.

(** The C functions count materials from 0 and take the modifier arrays always; the C++ overloads without them hand over arrays of
    zeros. Everything above holds of them too. *)
Theorem C95_c_interface : forall m l e v,
  let same (c : option (Z * list eos * (nat -> R))) (f : option (Z * list eos * option (nat -> R))) :=
    option_map fst f = option_map fst c in
  (forall gm1 Cv, same (init_sg_IdealGas palpha m l gm1 Cv e v) (init_sg_IdealGas_f palpha (m + 1) l gm1 Cv (Some e) (Some v))) /\
  (forall C0 s1 s2 s3 G0 b rho0 T0 P0 Cv, same (init_sg_Gruneisen palpha m l C0 s1 s2 s3 G0 b rho0 T0 P0 Cv e v) (init_sg_Gruneisen_f palpha (m + 1) l C0 s1 s2 s3 G0 b rho0 T0 P0 Cv (Some e) (Some v))) /\
  (forall A B R1 R2 w rho0 Cv, same (init_sg_JWL palpha m l A B R1 R2 w rho0 Cv e v) (init_sg_JWL_f palpha (m + 1) l A B R1 R2 w rho0 Cv (Some e) (Some v))) /\
  (forall a b k n vc pc Cv, same (init_sg_DavisProducts palpha m l a b k n vc pc Cv e v) (init_sg_DavisProducts_f palpha (m + 1) l a b k n vc pc Cv (Some e) (Some v))) /\
  (forall rho0 e0 P0 T0 A B C G0 Z0 alpha Cv0, same (init_sg_DavisReactants palpha m l rho0 e0 P0 T0 A B C G0 Z0 alpha Cv0 e v) (init_sg_DavisReactants_f palpha (m + 1) l rho0 e0 P0 T0 A B C G0 Z0 alpha Cv0 (Some e) (Some v))) /\
  (forall rho0 a0 a1 a2c a2e a3 b0 b1 b2c b2e b3, same (init_sg_SAP_Polynomial palpha m l rho0 a0 a1 a2c a2e a3 b0 b1 b2c b2e b3 e v) (init_sg_SAP_Polynomial_f palpha (m + 1) l rho0 a0 a1 a2c a2e a3 b0 b1 b2c b2e b3 (Some e) (Some v))) /\
  (forall gm1 Cv Pinf qq, same (init_sg_StiffGas palpha m l gm1 Cv Pinf qq e v) (init_sg_StiffGas_f palpha (m + 1) l gm1 Cv Pinf qq (Some e) (Some v))) /\
  (forall gm1 Cv bb qq, same (init_sg_NobleAbel palpha m l gm1 Cv bb qq e v) (init_sg_NobleAbel_f palpha (m + 1) l gm1 Cv bb qq (Some e) (Some v))) /\
  (forall gm1 Cv bb qq, init_sg_CarnahanStarling_f palpha (m + 1) l gm1 Cv bb qq e v = init_sg_CarnahanStarling palpha m l gm1 Cv bb qq e v).
Proof.
  intros m l e v same.
  assert (G : forall (x : option (Z * list eos * (nat -> R))) w, option_map fst (returned x w) = option_map fst x).
  { intros [[[? ?] ?]|] w; reflexivity. }
  assert (M : (m + 1 - 1 = m)%Z) by lia. unfold same.
  repeat (apply conj; [intros; first [unfold init_sg_IdealGas_f|idtac]; cbv [init_sg_Gruneisen_f init_sg_JWL_f init_sg_DavisProducts_f init_sg_DavisReactants_f
    init_sg_SAP_Polynomial_f init_sg_StiffGas_f init_sg_NobleAbel_f]; rewrite G, M; reflexivity|]).
  intros. unfold init_sg_CarnahanStarling_f. now rewrite M.
Qed.

(** Acceptance: without modifiers the call succeeds in every slot of the array exactly for the parameters the class accepts. *)
Theorem C95_accepts : forall m l, (1 <= m <= Z.of_nat (length l))%Z ->
  (forall gm1 Cv, 0 < gm1 -> 0 < Cv -> init_sg_IdealGas_f palpha m l gm1 Cv None None <> None) /\
  (forall A B R1 R2 w rho0 Cv, init_sg_JWL_f palpha m l A B R1 R2 w rho0 Cv None None <> None <-> 0 < w /\ 0 < rho0 /\ 0 < Cv) /\
  (forall a b k n vc pc Cv, init_sg_DavisProducts_f palpha m l a b k n vc pc Cv None None <> None) /\
  (forall rho0 e0 P0 T0 A B C G0 Z0 alpha Cv0, init_sg_DavisReactants_f palpha m l rho0 e0 P0 T0 A B C G0 Z0 alpha Cv0 None None <> None) /\
  (forall rho0 a0 a1 a2c a2e a3 b0 b1 b2c b2e b3, init_sg_SAP_Polynomial_f palpha m l rho0 a0 a1 a2c a2e a3 b0 b1 b2c b2e b3 None None <> None <-> 0 <= rho0) /\
  (forall gm1 Cv Pinf qq, init_sg_StiffGas_f palpha m l gm1 Cv Pinf qq None None <> None <-> 0 <= gm1 /\ 0 <= Cv) /\
  (forall gm1 Cv bb qq, init_sg_NobleAbel_f palpha m l gm1 Cv bb qq None None <> None <-> 0 <= gm1 /\ 0 < Cv /\ 0 <= bb).
Proof.
  intros m l Hm.
  assert (G : forall A, returned (init palpha (m - 1) l A (enabled_use None) (values_use None)) None <> None <-> A <> None).
  { intros A. unfold init. destruct (Z.ltb_spec (m - 1) 0); [lia|]. destruct (Z.leb_spec (Z.of_nat (length l)) (m - 1)); [lia|].
    destruct A as [A|]; cbn; split; congruence. }
  assert (B0 : forall x, Rle_bool 0 x = true <-> 0 <= x) by (intros; destruct (Rle_bool_spec 0 x); split; intros; try lra; try discriminate; reflexivity).
  assert (B1 : forall x, Rlt_bool 0 x = true <-> 0 < x) by (intros; destruct (Rlt_bool_spec 0 x); split; intros; try lra; try discriminate; reflexivity).
  assert (U : forall (b : bool) {T S} (f : T -> S) x, option_map f (if b then Some x else None) <> None <-> b = true) by (intros [] T S f x; cbn; split; congruence).
  unfold init_sg_IdealGas_f, init_sg_JWL_f, init_sg_DavisProducts_f, init_sg_DavisReactants_f, init_sg_SAP_Polynomial_f, init_sg_StiffGas_f, init_sg_NobleAbel_f.
  unfold init_sg_IdealGas, init_sg_JWL, init_sg_DavisProducts, init_sg_DavisReactants, init_sg_SAP_Polynomial, init_sg_StiffGas, init_sg_NobleAbel.
  refine (conj _ (conj _ (conj _ (conj _ (conj _ (conj _ _)))))).
  - intros gm1 Cv H1 H2. apply G. unfold Ideal_Model.make_default. apply U. unfold Ideal_Model.CheckParams, Ideal_Model.ctor5. rewrite !andb_true_iff, !B0, !B1.
    cbn [Ideal_Model.Cv Ideal_Model.gm1 Ideal_Model.EntropyT0 Ideal_Model.EntropyRho0 Ideal_Model.Abar Ideal_Model.Zbar].
    unfold Ideal_Model.ROOM_TEMPERATURE, Ideal_Model.ATMOSPHERIC_PRESSURE.
    assert (0 < 1000000 / (gm1 * Cv * 293)) by (apply Rdiv_lt_0_compat; [lra|]; apply Rmult_lt_0_compat; [apply Rmult_lt_0_compat|]; lra). intuition lra.
  - intros. rewrite G. unfold JWL_Model.make. cbv zeta. rewrite U. unfold JWL_Model.CheckParams, JWL_Model.ctor. rewrite !andb_true_iff, !B1.
    cbn [JWL_Model.w JWL_Model.rho0 JWL_Model.Cv JWL_Model.Abar JWL_Model.Zbar]. intuition lra.
  - intros. apply G. discriminate.
  - intros. apply G. discriminate.
  - intros. rewrite G. unfold SAP_Model.CheckParams. cbn [SAP_Model.rho0 SAP_Model.Abar SAP_Model.Zbar].
    rewrite <- (B0 rho0). destruct (Rle_bool 0 rho0); cbn [andb]; [|split; congruence].
    replace (Rlt_bool 0 1) with true by (symmetry; apply B1; lra). cbn. split; congruence.
  - intros. rewrite G. unfold Stiff_Model.make. cbv zeta. rewrite U. unfold Stiff_Model.CheckParams, Stiff_Model.ctor. cbv zeta. rewrite !andb_true_iff, !B0, !B1.
    cbn [Stiff_Model.gm1 Stiff_Model.Cv Stiff_Model.Abar Stiff_Model.Zbar]. intuition lra.
  - intros. rewrite G. unfold NobleAbel_Model.make. cbv zeta. rewrite U. unfold NobleAbel_Model.CheckParams, NobleAbel_Model.ctor. cbv zeta. rewrite !andb_true_iff, !B0, !B1.
    cbn [NobleAbel_Model.gm1 NobleAbel_Model.Cv NobleAbel_Model.bb NobleAbel_Model.Abar NobleAbel_Model.Zbar]. intuition lra.
Qed.
End Init.

(** What happens to the caller's array of modifier values. The wrappers with optional arguments leave it alone. The Carnahan-Starling
    wrapper hands it to C, and when the P-alpha flag is set a successful call leaves the four computed ramp parameters in
    elements 2-5, over the three P-alpha inputs: the same array cannot be used for a second material. *)
Theorem C95_caller_values : forall palpha m l,
  (forall gm1 Cv bb qq e v err l' v', init_sg_CarnahanStarling_f palpha m l gm1 Cv bb qq e v = Some (err, l', v') ->
     (e 3%nat <> 1%Z -> v' = v) /\
     (e 3%nat = 1%Z -> v' 0%nat = v 0%nat /\ v' 1%nat = v 1%nat /\
        exists t, palpha t (v 2%nat) (v 3%nat) (v 4%nat) = (v' 2%nat, v' 3%nat, v' 4%nat, v' 5%nat))) /\
  (forall gm1 Cv bb qq e v err l' v', init_sg_NobleAbel_f palpha m l gm1 Cv bb qq e v = Some (err, l', v') -> v' = v) /\
  (forall gm1 Cv Pinf qq e v err l' v', init_sg_StiffGas_f palpha m l gm1 Cv Pinf qq e v = Some (err, l', v') -> v' = v) /\
  (forall gm1 Cv e v err l' v', init_sg_IdealGas_f palpha m l gm1 Cv e v = Some (err, l', v') -> v' = v) /\
  (forall A B R1 R2 w rho0 Cv e v err l' v', init_sg_JWL_f palpha m l A B R1 R2 w rho0 Cv e v = Some (err, l', v') -> v' = v).
Proof.
  intros palpha m l. split.
  - intros gm1 Cv bb qq e v err l' v' H. unfold init_sg_CarnahanStarling_f, init_sg_CarnahanStarling, init in H.
    destruct ((m - 1 <? 0)%Z || (Z.of_nat (length l) <=? m - 1)%Z); [discriminate|].
    destruct (option_map CarnahanStarling _) as [A|]; [|discriminate]. cbn [bind] in H.
    destruct (applyShiftAndScale _ _ _ _ _) as [eosi|]; [|discriminate]. cbn [bind] in H.
    destruct (Z.eqb_spec (e 3%nat) 1) as [E|E].
    + destruct (palpha eosi (v 2%nat) (v 3%nat) (v 4%nat)) as [[[r0 a] b] c] eqn:P.
      destruct (applyAll _ _ _ _ _ _ _ _ _ _) as [x|]; [|discriminate]. cbn [bind] in H. injection H as _ _ <-.
      split; [congruence|]. intros _. repeat split. exists eosi. exact P.
    + destruct (applyAll _ _ _ _ _ _ _ _ _ _) as [x|]; [|discriminate]. cbn [bind] in H. injection H as _ _ <-.
      split; [reflexivity|congruence].
  - assert (G : forall r w err l' (v' : option (nat -> R)), returned r w = Some (err, l', v') -> v' = w)
      by (intros [[[? ?] ?]|] w err l' v' H; [now injection H as _ _ <-|discriminate]).
    repeat split; intros; eapply G; eassumption.
Qed.

(** non-vacuity: a scaled and shifted ideal gas in slot 2 of 3; the pressure at density 3 and energy 10 is that at density 6 and energy 4 *)
Example C95_nonvacuous : forall palpha l, length l = 3%nat -> let e := fun i : nat => match i with 0%nat | 1%nat => 1%Z | _ => 0%Z end in let v := fun i : nat => match i with 0%nat => 2 | 1%nat => 1 | _ => 0 end in
  exists l', init_sg_IdealGas_f palpha 2 l (1 / 2) 7 (Some e) (Some v) = Some (0%Z, l', Some v) /\
    within e v (fun rho e => 0 <= rho /\ 0 <= e) 3 10 /\ modified e v (ideal_P (1 / 2)) 3 10 = 12.
Proof.
  intros palpha l L e v.
  assert (C : Ideal_Model.CheckParams (Ideal_Model.ctor5 (1 / 2) 7 Ideal_Model.ROOM_TEMPERATURE (Ideal_Model.ATMOSPHERIC_PRESSURE / (1 / 2 * 7 * Ideal_Model.ROOM_TEMPERATURE)) 1 1) = true).
  { unfold Ideal_Model.CheckParams, Ideal_Model.ctor5, Ideal_Model.ROOM_TEMPERATURE, Ideal_Model.ATMOSPHERIC_PRESSURE.
    cbn [Ideal_Model.Cv Ideal_Model.gm1 Ideal_Model.EntropyT0 Ideal_Model.EntropyRho0 Ideal_Model.Abar Ideal_Model.Zbar].
    rewrite !Rle_bool_true, !Rlt_bool_true by lra. reflexivity. }
  assert (C2 : Rlt_bool 0 (Rabs 2) = true) by (apply Rlt_bool_true; rewrite Rabs_right; lra).
  assert (C3 : Rlt_bool 0 (Rabs (1 / 2)) = true) by (apply Rlt_bool_true; rewrite Rabs_right; lra).
  eexists. split; [|split].
  - unfold init_sg_IdealGas_f, init_sg_IdealGas, returned, init. replace (Z.of_nat (length l)) with 3%Z by (rewrite L; reflexivity).
    change ((2 - 1 <? 0)%Z || (3 <=? 2 - 1)%Z) with false. cbv iota. unfold Ideal_Model.make_default. cbv zeta. rewrite C.
    cbn [option_map bind enabled_use values_use f_mods e v Z.eqb Pos.eqb]. unfold applyAll, applyShiftAndScale. cbn [andb orb bind mk_checked CheckParams material_check].
    unfold mk_checked. cbn [CheckParams material_check]. rewrite C. cbn [bind CheckParams material_check]. rewrite C, C2, C3. cbn [andb bind option_map fst snd]. reflexivity.
  - unfold within, scale_of, shift_of. cbn [e v Z.eqb Pos.eqb]. repeat split; try lra. intros; discriminate.
  - unfold modified, scale_of, shift_of, ideal_P. cbn [e v Z.eqb Pos.eqb]. lra.
Qed.
Print Assumptions C95_ideal_gas.
Print Assumptions C95_stiff_gas.
Print Assumptions C95_noble_abel.
Print Assumptions C95_carnahan_starling.
Print Assumptions C95_jwl.
Print Assumptions C95_gruneisen.
Print Assumptions C95_davis_products.
Print Assumptions C95_davis_reactants.
Print Assumptions C95_sap_polynomial.
Print Assumptions C95_c_interface.
Print Assumptions C95_accepts.
Print Assumptions C95_caller_values.
