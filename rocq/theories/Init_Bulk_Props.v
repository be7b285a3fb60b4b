(** C95, bulk modulus: the EOS a C or Fortran constructor stores answers a bulk modulus query with the isentropic bulk modulus of its
    own pressure, whatever scale, shift and ramp were asked for, wherever the ramp is not in force. *)
From Coq Require Import Reals ZArith List Bool Lra Lia.
From Flocq Require Import Core.
From Coquelicot Require Import Coquelicot.
From Verif Require Import Arith Robust_Model Thermo_Tools Thermo_Spec Doc_Spec Vector_Model Vector_Spec Bindings_Model Bindings_Spec Bindings_Props Init_Model Init_Spec Init_Bulk_Model Init_Bulk_Spec Init_Props.
From Verif Require Ideal_Model Stiff_Model NobleAbel_Model Carnahan_Model JWL_Model Gruneisen_Model DavisProducts_Model DavisReactants_Model SAP_Model Mods_Model.
From Verif Require Mods_Props2 Ideal_Props Stiff_Props NobleAbel_Props Carnahan_Props JWL_Props Gruneisen_Props DavisProducts_Props DavisReactants_Props.
Import ListNotations.
Local Open Scope R_scope.

Lemma SMALL_pos : 0 < SMALL.
Proof. unfold SMALL; pose proof (bpow_gt_0 radix2 (-1022)); lra. Qed.
Lemma above_floor a x : a < Rmax a x -> a < x.
Proof. unfold Rmax. destruct (Rle_dec a x); lra. Qed.
(** change of units of density and of the zero of energy *)
Lemma bulk_units (P : R -> R -> R) k s rho sie B : k <> 0 -> rho <> 0 ->
  is_bulk_modulus P (k * rho) (sie / k - s) B -> is_bulk_modulus (fun r x => P (k * r) (x / k - s)) rho sie B.
Proof.
  intros Hk Hr (a & b & Da & Db & ->). exists (k * a), (b / k). split; [|split].
  - apply (is_derive_ext (fun r => P (k * r) (sie / k - s))); [reflexivity|].
    evar_last; [apply (is_derive_comp (fun r => P r (sie / k - s)) (fun r => k * r)); [exact Da|]; apply (is_derive_scal (fun r => r) rho k 1), is_derive_Reals, derivable_pt_lim_id|].
    unfold scal; cbn; unfold mult; cbn. ring.
  - evar_last; [apply (is_derive_comp (fun x => P (k * rho) x) (fun x => x / k - s)); [exact Db|]; auto_derive; [exact I|reflexivity]|].
    unfold scal; cbn; unfold mult; cbn. field. exact Hk.
  - cbv beta. field. split; assumption.
Qed.

Section Init.
Variable palpha : eos -> R -> R -> R -> R * R * R * R.

Lemma applied_B m (on : nat -> bool) (v : nat -> R) e :
  applyAll (Plain m) (on 0%nat) (on 1%nat) false (v 0%nat) (v 1%nat) (v 2%nat) (v 3%nat) (v 4%nat) (v 5%nat) = Some e ->
  let k := if on 0%nat then v 0%nat else 1 in let s := if on 1%nat then v 1%nat else 0 in
  (forall rho sie, PressureFromDensityInternalEnergy e rho sie = material_pressure m (k * rho) (sie / k - s)) /\
  forall rho sie, BulkModulusFromDensityInternalEnergy e rho sie = material_bulk m (k * rho) (sie / k - s).
Proof.
  intros H. cbv zeta. unfold applyAll, applyShiftAndScale in H.
  assert (E0 : forall sie, sie / 1 - 0 = sie) by (intros; field). assert (E1 : forall sie s, sie / 1 - s = sie - s) by (intros; field).
  assert (E2 : forall sie, 1 / v 0%nat * sie = sie / v 0%nat - 0) by (intros; unfold Rdiv; ring). assert (E3 : forall sie, 1 / v 0%nat * sie - v 1%nat = sie / v 0%nat - v 1%nat) by (intros; unfold Rdiv; ring).
  destruct (on 1%nat), (on 0%nat); cbn [andb] in H;
    repeat match goal with
    | H : bind _ _ = Some _ |- _ => apply bound in H; destruct H as (? & ? & H)
    | H : mk_checked _ = Some _ |- _ => apply checked in H; subst
    end; try (injection H as <-); split; intros rho sie; cbn [PressureFromDensityInternalEnergy BulkModulusFromDensityInternalEnergy];
    rewrite ?E3, ?E0, ?E1, ?E2, ?Rmult_1_l; reflexivity.
Qed.
Definition sound (mat : material) (D : R -> R -> Prop) : Prop := forall rho sie, 0 < rho -> D rho sie ->
  SMALL < material_pressure mat rho sie -> SMALL < material_bulk mat rho sie -> is_bulk_modulus (material_pressure mat) rho sie (material_bulk mat rho sie).
Lemma ramp_val p rho r0 a b c : p = Mods_Model.ramp_ctor r0 a b c -> tiny <= r0 -> Mods_Model.get_ramp_pressure p rho = ramp_pressure r0 a b c rho.
Proof.
  intros -> H. unfold Mods_Model.get_ramp_pressure, Mods_Model.ramp_ctor, ramp_pressure.
  cbn [Mods_Model.p_r0 Mods_Model.p_a Mods_Model.p_b Mods_Model.p_c Mods_Model.p_rmid]. cbv zeta. rewrite ratio_pos by assumption.
  destruct (Rlt_bool_spec rho r0), (Rlt_dec rho r0); try lra.
  destruct (Rlt_bool_spec rho (r0 * (a - b * c) / (a - b))), (Rlt_dec rho (r0 * (a - b * c) / (a - b))); lra.
Qed.
(** a ramp below the pressure changes neither the pressure nor the modulus nearby *)
Lemma bulk_ramp (P : R -> R -> R) p r0 a b c rho sie B : Mods_Props2.good_ramp p r0 a b c -> Mods_Model.get_ramp_pressure p rho < P rho sie ->
  is_bulk_modulus P rho sie B -> is_bulk_modulus (fun r x => Mods_Model.ramp_P p r (P r x)) rho sie B.
Proof.
  intros G Hlt (d1 & d2 & D1 & D2 & ->). exists d1, d2.
  pose proof (Mods_Props2.ramp_cont _ _ _ _ _ G rho) as HC. pose proof (derive_cont _ _ _ D1) as C1. pose proof (derive_cont _ _ _ D2) as C2.
  assert (K : forall r x, Mods_Model.get_ramp_pressure p r < P r x -> Mods_Model.ramp_P p r (P r x) = P r x).
  { intros r x H. unfold Mods_Model.ramp_P. cbv zeta. rewrite Rlt_bool_false by lra. reflexivity. }
  split; [|split].
  - apply (derive_loc _ (fun r => P r sie)); [|exact D1].
    assert (HD : continuous (fun r => Mods_Model.get_ramp_pressure p r - P r sie) rho) by (apply (continuous_minus (V := R_NormedModule)); assumption).
    generalize (loc_lt_f (fun r => Mods_Model.get_ramp_pressure p r - P r sie) 0 rho HD ltac:(cbv beta; lra)). apply filter_imp. intros y Hy. rewrite K by lra. reflexivity.
  - apply (derive_loc _ (fun x => P rho x)); [|exact D2].
    generalize (loc_gt_f (fun x => P rho x) (Mods_Model.get_ramp_pressure p rho) sie C2 Hlt). apply filter_imp. intros y Hy. rewrite K by exact Hy. reflexivity.
  - rewrite K by exact Hlt. reflexivity.
Qed.
(** a ramp is put around what the call without one stores *)
Lemma ramped_of X sc sh s1 s2 r0 a b c e : applyAll X sc sh true s1 s2 r0 a b c = Some e ->
  exists t, applyAll X sc sh false s1 s2 r0 a b c = Some t /\ e = BilinearRamp t (Mods_Model.ramp_ctor r0 a b c) /\ Mods_Model.ramp_check (Mods_Model.ramp_ctor r0 a b c) = true.
Proof.
  unfold applyAll, applyWrappedShiftAndScale, applyShiftAndScale. cbv zeta. intros H.
  assert (K : forall t, mk_checked (BilinearRamp t (Mods_Model.ramp_ctor r0 a b c)) = Some e ->
    e = BilinearRamp t (Mods_Model.ramp_ctor r0 a b c) /\ Mods_Model.ramp_check (Mods_Model.ramp_ctor r0 a b c) = true).
  { intros t. unfold mk_checked. cbn [CheckParams]. destruct (Mods_Model.ramp_check _); cbn [andb]; [|discriminate]. destruct (CheckParams t); [|discriminate]. intros [= <-]. auto. }
  destruct sh, sc; cbn [andb] in *.
  - apply bound in H. destruct H as (x & -> & H). cbn [bind]. apply bound in H. destruct H as (y & -> & H). exists y. split; [reflexivity|apply K; exact H].
  - apply bound in H. destruct H as (x & -> & H). exists x. split; [reflexivity|apply K; exact H].
  - apply bound in H. destruct H as (x & -> & H). exists x. split; [reflexivity|apply K; exact H].
  - exists X. split; [reflexivity|apply K; exact H].
Qed.
Lemma init_B m l A e v err l' v' : init palpha (m - 1) l A e v = Some (err, l', v') -> e 3%nat <> 1%Z ->
  exists mat, A = Some mat /\ forall D, sound mat D -> isentropic_modulus m l' e v D.
Proof.
  intros H N3. unfold init in H. destruct (Z.ltb_spec (m - 1) 0); [discriminate|]. cbn [orb] in H.
  destruct (Z.leb_spec (Z.of_nat (length l)) (m - 1)); [discriminate|].
  apply bound in H. destruct H as (mat & EA & H). apply bound in H. destruct H as (ei & _ & H).
  destruct (Z.eqb_spec (e 3%nat) 1); [contradiction|]. cbv zeta in H. apply bound in H. destruct H as (s & ES & H).
  injection H as _ <- _. exists mat. split; [exact EA|]. intros D HD. exists s.
  set (j := Z.to_nat (m - 1)) in *. assert (L : (j < length l)%nat) by (unfold j; lia).
  change (match l with [] => [] | _ :: l0 => skipn j l0 end) with (skipn (S j) l). split; [now apply nth_at|].
  rewrite orb_false_r in ES.
  (* without a ramp *)
  assert (BASE : forall t, applyAll (Plain mat) (e 0%nat =? 1)%Z (e 1%nat =? 1)%Z false (v 0%nat) (v 1%nat) (v 2%nat) (v 3%nat) (v 4%nat) (v 5%nat) = Some t ->
    forall rho sie, 0 < scale_of e v * rho -> D (scale_of e v * rho) (sie / scale_of e v - shift_of e v) ->
      SMALL < PressureFromDensityInternalEnergy t rho sie -> SMALL < BulkModulusFromDensityInternalEnergy t rho sie ->
      is_bulk_modulus (PressureFromDensityInternalEnergy t) rho sie (BulkModulusFromDensityInternalEnergy t rho sie)).
  { intros t ET rho sie Hp Hd HP HB.
    destruct (applied_B mat (fun i => (e i =? 1)%Z) v t ET) as [XP XB]. fold (scale_of e v) (shift_of e v) in XP, XB.
    assert (Hk : scale_of e v <> 0) by (intros E; rewrite E in Hp; lra). assert (Hr : rho <> 0) by (intros E; rewrite E in Hp; lra).
    rewrite XP in HP. rewrite XB in HB |- *.
    destruct (bulk_units (material_pressure mat) _ _ _ _ _ Hk Hr (HD _ _ Hp Hd HP HB)) as (a & b & Da & Db & E).
    exists a, b. split; [|split].
    - apply (is_derive_ext _ _ _ _ (fun r => eq_sym (XP r sie)) Da).
    - apply (is_derive_ext _ _ _ _ (fun x => eq_sym (XP rho x)) Db).
    - rewrite XP. exact E. }
  intros rho sie Hp Hd HR HP HB. destruct (Z.eqb_spec (e 2%nat) 1) as [E2|]; [|exact (BASE _ ES rho sie Hp Hd HP HB)].
  destruct (HR E2) as (R1 & R2 & R3). apply ramped_of in ES. destruct ES as (t & ET & -> & EC).
  assert (G : Mods_Props2.good_ramp (Mods_Model.ramp_ctor (v 2%nat) (v 3%nat) (v 4%nat) (v 5%nat)) (v 2%nat) (v 3%nat) (v 4%nat) (v 5%nat))
    by (split; [reflexivity|split; [exact EC|split; [exact R1|exact R2]]]).
  set (p := Mods_Model.ramp_ctor _ _ _ _) in *.
  assert (V : Mods_Model.get_ramp_pressure p rho < PressureFromDensityInternalEnergy t rho sie).
  { cbn [PressureFromDensityInternalEnergy] in R3. rewrite <- (ramp_val p rho _ _ _ _ eq_refl R1) in R3. unfold Mods_Model.ramp_P in R3. cbv zeta in R3.
    destruct (Rlt_bool_spec (PressureFromDensityInternalEnergy t rho sie) (Mods_Model.get_ramp_pressure p rho)); lra. }
  cbn [PressureFromDensityInternalEnergy BulkModulusFromDensityInternalEnergy] in *. unfold Mods_Model.ramp_B in *. cbv zeta in *.
  unfold Mods_Model.ramp_P in HP. cbv zeta in HP. rewrite Rlt_bool_false in HP, HB |- * by lra.
  apply (bulk_ramp _ _ _ _ _ _ _ _ _ G V). exact (BASE _ ET rho sie Hp Hd HP HB).
Qed.
Lemma init_f_B m l A e v err l' v' : returned (init palpha (m - 1) l A (enabled_use e) (values_use v)) v = Some (err, l', v') -> flags_given e 3%nat <> 1%Z ->
  exists mat, A = Some mat /\ forall D, sound mat D -> isentropic_modulus m l' (flags_given e) (values_given v) D.
Proof.
  unfold returned. intros H HN. destruct (init _ _ _ _ _ _) as [[[err0 l0] v0]|] eqn:E; [|discriminate]. injection H as <- <- <-.
  rewrite flags_use, values_used in E. exact (init_B _ _ _ _ _ _ _ _ E HN).
Qed.

Theorem C95_ideal_gas_bulk_modulus : forall m l gm1 Cv e v err l' v', init_sg_IdealGas_f palpha m l gm1 Cv e v = Some (err, l', v') -> flags_given e 3%nat <> 1%Z ->
  0 < gm1 -> 0 < Cv -> isentropic_modulus m l' (flags_given e) (values_given v) (fun _ _ => True).
Proof.
  intros m l gm1 Cv e v err l' v' H HN G1 G2. apply init_f_B in H; [|exact HN]. destruct H as (mat & EA & B). apply mapped in EA. destruct EA as (g & EG & ->).
  apply B. intros rho sie Hr _ HP _. unfold Ideal_Model.make_default in EG. destruct (Ideal_Model.CheckParams _) eqn:EC; [|discriminate]. injection EG as <-.
  pose proof SMALL_pos. cbn [material_pressure material_bulk] in *.
  assert (He : 0 < sie).
  { assert (0 < gm1 * rho * sie).
    { unfold Ideal_Model.PressureFromDensityInternalEnergy in HP. cbn [Ideal_Model.gm1 Ideal_Model.ctor5] in HP. apply above_floor. lra. }
    apply (Rmult_lt_reg_l (gm1 * rho)); [apply Rmult_lt_0_compat; assumption|lra]. }
  match goal with |- is_bulk_modulus (_ ?gg) _ _ _ => set (g := gg) in * end.
  assert (AD : Ideal_Props.admissible g) by (split; assumption).
  exact (proj1 (proj2 (Ideal_Props.C16_derivatives g rho sie 1 AD Hr He ltac:(lra)))).
Qed.
Theorem C95_stiff_gas_bulk_modulus : forall m l gm1 Cv Pinf q e v err l' v', init_sg_StiffGas_f palpha m l gm1 Cv Pinf q e v = Some (err, l', v') -> flags_given e 3%nat <> 1%Z ->
  0 < gm1 -> 0 < Cv -> 0 <= Pinf ->
  isentropic_modulus m l' (flags_given e) (values_given v) (fun rho sie => tiny <= rho /\ tiny <= rho * Cv /\ SMALL * (rho * Cv) <= rho * (sie - q) - Pinf).
Proof.
  intros m l gm1 Cv Pinf q e v err l' v' H HN G1 G2 G3. apply init_f_B in H; [|exact HN]. destruct H as (mat & EA & B). apply mapped in EA. destruct EA as (g & EG & ->).
  apply B. intros rho sie Hr (D1 & D2 & D3) HP HB. unfold Stiff_Model.make in EG. destruct (Stiff_Model.CheckParams _) eqn:EC; [|discriminate]. injection EG as <-.
  pose proof SMALL_pos. pose proof tiny_pos. cbn [material_pressure material_bulk] in *.
  match goal with |- is_bulk_modulus (_ ?gg) _ _ _ => set (g := gg) in * end.
  assert (AD : Stiff_Props.admissible g) by (repeat split; assumption).
  assert (AC : Stiff_Props.above_cold g rho sie).
  { split; [exact D1|]. split; [exact D2|]. change (SMALL <= (rho * (sie - q) - Pinf) / (rho * Cv)).
    apply Rmult_le_reg_r with (rho * Cv); [lra|]. unfold Rdiv. rewrite Rmult_assoc, Rinv_l by lra. lra. }
  apply (proj1 (proj2 (Stiff_Props.C17_derivatives g rho sie 1 AD AC ltac:(lra)))).
  unfold Stiff_Model.BulkModulusFromDensityInternalEnergy in HB. apply above_floor in HB. lra.
Qed.
Theorem C95_noble_abel_bulk_modulus : forall m l gm1 Cv b q e v err l' v', init_sg_NobleAbel_f palpha m l gm1 Cv b q e v = Some (err, l', v') -> flags_given e 3%nat <> 1%Z ->
  0 < gm1 -> isentropic_modulus m l' (flags_given e) (values_given v) (fun rho _ => tiny < rho /\ tiny < 1 - b * rho /\ tiny < (1 - b * rho) * (1 - b * rho)).
Proof.
  intros m l gm1 Cv b q e v err l' v' H HN G1. apply init_f_B in H; [|exact HN]. destruct H as (mat & EA & B). apply mapped in EA. destruct EA as (g & EG & ->).
  apply B. intros rho sie Hr D HP HB. unfold NobleAbel_Model.make in EG. destruct (NobleAbel_Model.CheckParams _) eqn:EC; [|discriminate]. injection EG as <-.
  pose proof SMALL_pos. pose proof tiny_pos. cbn [material_pressure material_bulk] in *.
  unfold NobleAbel_Model.CheckParams in EC. rewrite !andb_true_iff in EC.
  match goal with |- is_bulk_modulus (_ ?gg) _ _ _ => set (g := gg) in * end.
  assert (C1 : 0 < Cv). { change (NobleAbel_Model.Cv g) with Cv in EC. destruct (Rlt_bool_spec 0 Cv); [assumption|]. intuition discriminate. }
  assert (C2 : 0 <= b). { change (NobleAbel_Model.bb g) with b in EC. destruct (Rle_bool_spec 0 b); [assumption|]. intuition discriminate. }
  assert (AD : NobleAbel_Props.admissible g) by (repeat split; assumption).
  refine (proj1 (proj2 (NobleAbel_Props.C18_derivatives g rho sie 1 AD D _ ltac:(lra)))).
  unfold NobleAbel_Model.PressureFromDensityInternalEnergy in HP. apply above_floor in HP. rewrite ratio_pos in HP; [exact HP|]. exact (Rlt_le _ _ (proj1 (proj2 D))).
Qed.
Theorem C95_carnahan_starling_bulk_modulus : forall m l gm1 Cv b q e v err l' v', init_sg_CarnahanStarling_f palpha m l gm1 Cv b q e v = Some (err, l', v') -> e 3%nat <> 1%Z ->
  0 < gm1 -> isentropic_modulus m l' e v (fun rho _ => tiny < rho /\ b * rho < 1 /\ tiny < (1 - b * rho) ^ 3 /\ tiny < (1 - b * rho) ^ 4).
Proof.
  intros m l gm1 Cv b q e v err l' v' H HN G1. apply init_B in H; [|exact HN]. destruct H as (mat & EA & B). apply mapped in EA. destruct EA as (g & EG & ->).
  apply B. intros rho sie Hr D HP HB. unfold Carnahan_Model.make, Carnahan_Model.ctor in EG. destruct (Carnahan_Model.DensityFromPT _ _ _ _ _) as [r0|]; [|discriminate].
  destruct (Carnahan_Model.CheckParams _) eqn:EC; [|discriminate]. injection EG as <-. cbn [material_pressure material_bulk] in *.
  unfold Carnahan_Model.CheckParams in EC. rewrite !andb_true_iff in EC.
  match goal with |- is_bulk_modulus (_ ?gg) _ _ _ => set (g := gg) in * end.
  assert (C1 : 0 < Cv). { change (Carnahan_Model.Cv g) with Cv in EC. destruct (Rlt_bool_spec 0 Cv); [assumption|]. intuition discriminate. }
  assert (C2 : 0 <= b). { change (Carnahan_Model.bb g) with b in EC. destruct (Rle_bool_spec 0 b); [assumption|]. intuition discriminate. }
  assert (AD : Carnahan_Props.admissible g) by (repeat split; assumption).
  exact (proj1 (proj2 (Carnahan_Props.C19_derivatives g rho sie 1 AD D ltac:(lra) HP HB))).
Qed.
Theorem C95_jwl_bulk_modulus : forall m l A B R1 R2 w rho0 Cv e v err l' v', init_sg_JWL_f palpha m l A B R1 R2 w rho0 Cv e v = Some (err, l', v') -> flags_given e 3%nat <> 1%Z ->
  0 < R1 -> 0 < R2 -> tiny <= rho0 -> tiny <= rho0 * R1 -> tiny <= rho0 * R2 -> tiny <= Cv ->
  isentropic_modulus m l' (flags_given e) (values_given v) (fun rho _ => tiny < rho /\ - R1 * (rho0 / rho) <> min_exp_arg /\ - R2 * (rho0 / rho) <> min_exp_arg).
Proof.
  intros m l A B R1 R2 w rho0 Cv e v err l' v' H HN K1 K2 K0 K3 K4 K5. apply init_f_B in H; [|exact HN]. destruct H as (mat & EA & Bu). apply mapped in EA. destruct EA as (g & EG & ->).
  apply Bu. intros rho sie Hr D HP HB. cbn [material_pressure material_bulk] in *.
  unfold JWL_Model.make in EG. cbv zeta in EG. destruct (JWL_Model.CheckParams _) eqn:EC; [|discriminate]. injection EG as <-.
  unfold JWL_Model.CheckParams in EC. rewrite !andb_true_iff in EC.
  match goal with |- is_bulk_modulus (_ ?gg) _ _ _ => set (g := gg) in * end.
  assert (C1 : 0 < w). { change (JWL_Model.w g) with w in EC. destruct (Rlt_bool_spec 0 w); [assumption|]. intuition discriminate. }
  assert (AD : JWL_Props.admissible g) by (repeat split; first [assumption|reflexivity]).
  exact (proj1 (proj2 (JWL_Props.C21_derivatives g rho sie 1 AD D))).
Qed.
(** linear and quadratic shock relations, off the reference density and below the maximum density the constructor computes *)
Theorem C95_gruneisen_bulk_modulus : forall m l C0 s1 s2 G0 b rho0 T0 P0 Cv e v err l' v',
  init_sg_Gruneisen_f palpha m l C0 s1 s2 0 G0 b rho0 T0 P0 Cv e v = Some (err, l', v') -> flags_given e 3%nat <> 1%Z ->
  0 < rho0 -> 0 < Cv -> s2 = 0 \/ EPS <= Rabs s2 ->
  exists rho_max, Gruneisen_Model.ComputeRhoMax s1 s2 0 rho0 = Some rho_max /\
  isentropic_modulus m l' (flags_given e) (values_given v) (fun rho _ => rho <> rho0 /\ match rho_max with Some mx => rho < 99 / 100 * mx | None => True end).
Proof.
  intros m l C0 s1 s2 G0 b rho0 T0 P0 Cv e v err l' v' H HN K1 K2 K3. apply init_f_B in H; [|exact HN]. destruct H as (mat & EA & Bu).
  apply mapped in EA. destruct EA as (g & EG & ->).
  assert (SF := Gruneisen_Props.C22_automatic_maximum_density_safe C0 s1 s2 G0 b rho0 T0 P0 Cv 1 1 g K1 K3 EG). unfold Gruneisen_Model.make_auto in EG.
  destruct (Gruneisen_Model.ComputeRhoMax s1 s2 0 rho0) as [rm|] eqn:ER; [|discriminate]. exists rm. split; [reflexivity|].
  injection EG as <-. apply Bu. intros rho sie Hr [D1 D2] _ _. cbn [material_pressure material_bulk].
  match goal with |- is_bulk_modulus (_ ?gg) _ _ _ => set (g := gg) in * end.
  assert (AD : Gruneisen_Props.regular g) by (split; [exact K1|split; [exact K2|exact SF]]).
  refine (proj1 (proj2 (Gruneisen_Props.C22_derivatives g rho sie 1 AD Hr _ D1))).
  unfold Gruneisen_Props.strictly_below_max, g. cbn [Gruneisen_Model.rho_max]. destruct rm; [|exact I]. unfold Gruneisen_Model.RHOMAX_SAFETY. exact D2.
Qed.
Theorem C95_davis_products_bulk_modulus : forall m l a b k n vc pc Cv e v err l' v', init_sg_DavisProducts_f palpha m l a b k n vc pc Cv e v = Some (err, l', v') -> flags_given e 3%nat <> 1%Z ->
  tiny <= n -> tiny <= vc -> 0 < pc -> tiny <= Cv -> tiny <= k - 1 + a -> tiny <= Cv * (k - 1 + a) ->
  isentropic_modulus m l' (flags_given e) (values_given v) (fun rho _ => let x := 1 / (rho * vc) in
    tiny < rho /\ tiny < rho * vc /\ tiny < x /\ tiny < Rpower x (k + a) /\ tiny < Rpower x (k - 1 + a) /\ tiny < Rpower x (k - 1 + a * (1 - b))).
Proof.
  intros m l a b k n vc pc Cv e v err l' v' H HN K1 K2 K3 K4 K5 K6. apply init_f_B in H; [|exact HN]. destruct H as (mat & [= <-] & Bu).
  apply Bu. intros rho sie Hr D _ _. cbn [material_pressure material_bulk]. cbv zeta in D.
  set (g := DavisProducts_Model.ctor a b k n vc pc Cv 1 1) in *.
  assert (AD : DavisProducts_Props.admissible g) by (split; [unfold g; do 9 eexists; reflexivity|]; repeat split; assumption).
  exact (proj2 (proj2 (DavisProducts_Props.C24_products_derivatives g rho sie 1 AD D))).
Qed.
(** in expansion, with zero reference pressure (elsewhere it is not, C59) *)
Theorem C95_davis_reactants_bulk_modulus : forall m l rho0 e0 T0 A B C G0 Z alpha Cv0 e v err l' v',
  init_sg_DavisReactants_f palpha m l rho0 e0 0 T0 A B C G0 Z alpha Cv0 e v = Some (err, l', v') -> flags_given e 3%nat <> 1%Z ->
  tiny < rho0 -> tiny <= 4 * B -> 0 <= alpha -> 0 < Cv0 -> 0 < T0 ->
  isentropic_modulus m l' (flags_given e) (values_given v)
    (fun rho _ => DavisReactants_Props.ok_rho (DavisReactants_Model.ctor rho0 e0 0 T0 A B C G0 Z alpha Cv0 1 1) rho /\ rho < rho0).
Proof.
  intros m l rho0 e0 T0 A B C G0 Z alpha Cv0 e v err l' v' H HN K1 K2 K3 K4 K5. apply init_f_B in H; [|exact HN]. destruct H as (mat & [= <-] & Bu).
  apply Bu. intros rho sie Hr [D1 D2] _ _. cbn [material_pressure material_bulk].
  set (g := DavisReactants_Model.ctor rho0 e0 0 T0 A B C G0 Z alpha Cv0 1 1) in *.
  assert (AD : DavisReactants_Props.admissible g) by (split; [unfold g; do 13 eexists; reflexivity|]; unfold g; cbn; tauto).
  exact (DavisReactants_Props.C24_reactants_bulk_modulus_expansion g rho sie AD D1 D2 eq_refl).
Qed.
End Init.

(** where a ramp is in force, away from its kinks, the query answers with the isentropic modulus of the ramped pressure: any stored EOS *)
Theorem C95_ramp_in_force_bulk_modulus : forall t r0 a b c rho sie, let s := BilinearRamp t (Mods_Model.ramp_ctor r0 a b c) in
  CheckParams s = true -> tiny <= r0 -> r0 <= r0 * (a - b * c) / (a - b) -> r0 < rho -> rho <> r0 * (a - b * c) / (a - b) ->
  continuous (fun r => PressureFromDensityInternalEnergy t r sie) rho -> continuous (fun x => PressureFromDensityInternalEnergy t rho x) sie ->
  PressureFromDensityInternalEnergy t rho sie < ramp_pressure r0 a b c rho ->
  PressureFromDensityInternalEnergy s rho sie = ramp_pressure r0 a b c rho /\
  is_bulk_modulus (PressureFromDensityInternalEnergy s) rho sie (BulkModulusFromDensityInternalEnergy s rho sie).
Proof.
  intros t r0 a b c rho sie s HC H0 Hm Hr Hn C1 C2 Hlt. unfold s in *. cbn [CheckParams] in HC. apply andb_true_iff in HC. destruct HC as [EC _].
  cbn [PressureFromDensityInternalEnergy BulkModulusFromDensityInternalEnergy].
  assert (G : Mods_Props2.good_ramp (Mods_Model.ramp_ctor r0 a b c) r0 a b c) by (split; [reflexivity|split; [exact EC|split; [exact H0|exact Hm]]]).
  rewrite <- (ramp_val (Mods_Model.ramp_ctor r0 a b c) rho r0 a b c eq_refl H0) in Hlt |- *. change (rho <> Mods_Model.p_rmid (Mods_Model.ramp_ctor r0 a b c)) in Hn.
  set (p := Mods_Model.ramp_ctor r0 a b c) in *.
  assert (K : forall r x, PressureFromDensityInternalEnergy t r x < Mods_Model.get_ramp_pressure p r ->
    Mods_Model.ramp_P p r (PressureFromDensityInternalEnergy t r x) = Mods_Model.get_ramp_pressure p r).
  { intros r x H. unfold Mods_Model.ramp_P. cbv zeta. rewrite Rlt_bool_true by exact H. reflexivity. }
  split; [apply K; exact Hlt|]. pose proof (Mods_Props2.ramp_cont _ _ _ _ _ G rho) as HR.
  exists (Mods_Model.get_ramp_dpdrho p rho), 0. split; [|split].
  - apply (derive_loc _ (Mods_Model.get_ramp_pressure p)); [|apply (Mods_Props2.ramp_slope _ _ _ _ _ G); assumption].
    assert (HD : continuous (fun r => Mods_Model.get_ramp_pressure p r - PressureFromDensityInternalEnergy t r sie) rho) by (apply (continuous_minus (V := R_NormedModule)); assumption).
    generalize (loc_gt_f (fun r => Mods_Model.get_ramp_pressure p r - PressureFromDensityInternalEnergy t r sie) 0 rho HD ltac:(cbv beta; lra)). apply filter_imp. intros y Hy. rewrite K by lra. reflexivity.
  - apply (derive_loc _ (fun _ => Mods_Model.get_ramp_pressure p rho)); [|apply (is_derive_const (V := R_NormedModule))].
    generalize (loc_lt_f (fun x => PressureFromDensityInternalEnergy t rho x) (Mods_Model.get_ramp_pressure p rho) sie C2 Hlt). apply filter_imp. intros y Hy. rewrite K by exact Hy. reflexivity.
  - unfold Mods_Model.ramp_B. cbv zeta. rewrite Rlt_bool_true by exact Hlt. ring.
Qed.

(** the query functions hand out these moduli *)
Theorem C95_bulk_modulus_queries : forall l m s, (1 <= m)%Z -> nth_error l (Z.to_nat (m - 1)) = Some s -> answers_bulk_fortran l m s.
Proof.
  intros l m e Hm N. assert (N' : nth_error (map as_ceos_bulk l) (Z.to_nat (m - 1)) = Some (as_ceos_bulk e)) by (now apply map_nth_error).
  assert (K : keeps_lambda (c_fun (as_ceos_bulk e))) by (intros x y z; reflexivity).
  intros rhos sies prs n1 n2 n3 stride lam m0 n C1 C2 C3 A1 A2 S.
  destruct (C80_fortran_query_no_lambda R _ _ m rhos sies prs n1 n2 n3 stride lam m0 Hm N' K C1 C2 C3 A1 A2 S) as (k & E & Q).
  exists k. split; [exact E|]. intros sched C mm. destruct (Q sched C) as [Q1 Q2]. split.
  - intros a b c V. destruct (Q1 a b c V) as [Q1' _]. unfold mm. rewrite Q1'. reflexivity.
  - intros x X. apply Q2. intros a b c V. split; [now apply X|intros []].
Qed.

(** non-vacuity: the ideal gas at density 3 and energy 1 has pressure 3/2, under a ramp of pressure 3 *)
Example C95_ramp_in_force_nonvacuous : let t := Plain (IdealGas (Ideal_Model.ctor5 (1 / 2) 7 293 1 1 1)) in let s := BilinearRamp t (Mods_Model.ramp_ctor 1 2 1 0) in
  CheckParams s = true /\ tiny <= 1 /\ 1 <= 1 * (2 - 1 * 0) / (2 - 1) /\ 1 < 3 /\ 3 <> 1 * (2 - 1 * 0) / (2 - 1) /\
  continuous (fun r => PressureFromDensityInternalEnergy t r 1) 3 /\ continuous (fun x => PressureFromDensityInternalEnergy t 3 x) 1 /\
  PressureFromDensityInternalEnergy t 3 1 = 3 / 2 /\ ramp_pressure 1 2 1 0 3 = 3.
Proof.
  intros t s. set (g := Ideal_Model.ctor5 (1 / 2) 7 293 1 1 1).
  assert (AD : Ideal_Props.admissible g) by (split; cbn; lra).
  destruct (proj1 (proj2 (Ideal_Props.C16_derivatives g 3 1 1 AD ltac:(lra) ltac:(lra) ltac:(lra)))) as (d1 & d2 & D1 & D2 & _).
  assert (T1 : tiny <= 1). { unfold tiny, SMALL. assert (bpow radix2 (-1022) < bpow radix2 0) by (apply bpow_lt; lia). cbn in *. lra. }
  split; [|split; [exact T1|split; [lra|split; [lra|split; [lra|split; [|split; [|split]]]]]]].
  - unfold s, t. cbn [CheckParams material_check]. unfold Mods_Model.ramp_check, Mods_Model.ramp_ctor, Ideal_Model.CheckParams, Ideal_Model.ctor5.
    cbn [Mods_Model.p_r0 Mods_Model.p_a Mods_Model.p_b Ideal_Model.Cv Ideal_Model.gm1 Ideal_Model.EntropyT0 Ideal_Model.EntropyRho0 Ideal_Model.Abar Ideal_Model.Zbar].
    rewrite !Rle_bool_true, !Rlt_bool_true by lra. rewrite Req_bool_false by lra. reflexivity.
  - exact (derive_cont _ _ _ D1).
  - exact (derive_cont _ _ _ D2).
  - unfold t. cbn [PressureFromDensityInternalEnergy material_pressure]. unfold Ideal_Model.PressureFromDensityInternalEnergy. cbn [Ideal_Model.gm1 Ideal_Model.ctor5].
    unfold Rmax. destruct (Rle_dec _ _); lra.
  - unfold ramp_pressure. destruct (Rlt_dec _ _); [lra|]. destruct (Rlt_dec _ _); lra.
Qed.
(** non-vacuity: the scaled and shifted ideal gas of C95_nonvacuous, with a ramp of pressure 3 at density 3; at that density and energy
    10 it has pressure 12 and bulk modulus 18, both above the floor; 18 = rho dP/drho + P/rho dP/de for P = (rho e - 2 rho) / 2 *)
Example C95_bulk_modulus_nonvacuous : forall palpha l, length l = 3%nat ->
  let e := fun i : nat => match i with 0%nat | 1%nat | 2%nat => 1%Z | _ => 0%Z end in
  let v := fun i : nat => match i with 0%nat | 3%nat => 2 | 1%nat | 2%nat | 4%nat => 1 | _ => 0 end in
  exists l' s, init_sg_IdealGas_f palpha 2 l (1 / 2) 7 (Some e) (Some v) = Some (0%Z, l', Some v) /\ nth_error l' 1 = Some s /\
    PressureFromDensityInternalEnergy s 3 10 = 12 /\ BulkModulusFromDensityInternalEnergy s 3 10 = 18 /\ SMALL < 12 /\
    0 < scale_of e v * 3 /\ ramp_idle e v (PressureFromDensityInternalEnergy s) 3 10.
Proof.
  intros palpha l L e v.
  assert (C : Ideal_Model.CheckParams (Ideal_Model.ctor5 (1 / 2) 7 Ideal_Model.ROOM_TEMPERATURE (Ideal_Model.ATMOSPHERIC_PRESSURE / (1 / 2 * 7 * Ideal_Model.ROOM_TEMPERATURE)) 1 1) = true).
  { unfold Ideal_Model.CheckParams, Ideal_Model.ctor5, Ideal_Model.ROOM_TEMPERATURE, Ideal_Model.ATMOSPHERIC_PRESSURE.
    cbn [Ideal_Model.Cv Ideal_Model.gm1 Ideal_Model.EntropyT0 Ideal_Model.EntropyRho0 Ideal_Model.Abar Ideal_Model.Zbar].
    rewrite !Rle_bool_true, !Rlt_bool_true by lra. reflexivity. }
  assert (C2 : Rlt_bool 0 (Rabs 2) = true) by (apply Rlt_bool_true; rewrite Rabs_right; lra).
  assert (C3 : Rlt_bool 0 (Rabs (1 / 2)) = true) by (apply Rlt_bool_true; rewrite Rabs_right; lra).
  assert (C4 : Mods_Model.ramp_check (Mods_Model.ramp_ctor 1 2 1 0) = true).
  { unfold Mods_Model.ramp_check, Mods_Model.ramp_ctor. cbn [Mods_Model.p_r0 Mods_Model.p_a Mods_Model.p_b].
    rewrite !Rle_bool_true, !Rlt_bool_true by lra. rewrite Req_bool_false by lra. reflexivity. }
  assert (T1 : tiny <= 1). { unfold tiny, SMALL. assert (bpow radix2 (-1022) < bpow radix2 0) by (apply bpow_lt; lia). cbn in *. lra. }
  assert (T2 : SMALL < 12). { unfold SMALL. assert (bpow radix2 (-1022) < bpow radix2 0) by (apply bpow_lt; lia). cbn in *. lra. }
  assert (V : Mods_Model.get_ramp_pressure (Mods_Model.ramp_ctor 1 2 1 0) 3 = 3).
  { rewrite (ramp_val _ _ 1 2 1 0 eq_refl T1). unfold ramp_pressure. destruct (Rlt_dec _ _); [lra|]. destruct (Rlt_dec _ _); lra. }
  assert (P12 : forall A Z T r, Ideal_Model.PressureFromDensityInternalEnergy (Ideal_Model.ctor5 (1 / 2) 7 T r A Z) (2 * 3) (1 / 2 * 10 - 1) = 12).
  { intros. unfold Ideal_Model.PressureFromDensityInternalEnergy. cbn [Ideal_Model.gm1 Ideal_Model.ctor5]. unfold Rmax. destruct (Rle_dec _ _); lra. }
  eexists. eexists. split; [|split].
  - unfold init_sg_IdealGas_f, init_sg_IdealGas, returned, init. replace (Z.of_nat (length l)) with 3%Z by (rewrite L; reflexivity).
    change ((2 - 1 <? 0)%Z || (3 <=? 2 - 1)%Z) with false. cbv iota. unfold Ideal_Model.make_default. cbv zeta. rewrite C.
    cbn [option_map bind enabled_use values_use f_mods e v Z.eqb Pos.eqb]. unfold applyAll, applyShiftAndScale, applyWrappedShiftAndScale. cbn [andb orb bind mk_checked CheckParams material_check].
    unfold mk_checked. cbn [CheckParams material_check]. rewrite C. cbn [bind CheckParams material_check]. rewrite C, C2, C3. cbn [andb bind option_map fst snd CheckParams material_check].
    rewrite C, C2, C3, C4. cbn [andb bind option_map fst snd]. reflexivity.
  - change 1%nat with (Z.to_nat (2 - 1)). apply nth_at. lia.
  - cbn [PressureFromDensityInternalEnergy BulkModulusFromDensityInternalEnergy material_pressure material_bulk]. unfold Mods_Model.ramp_P, Mods_Model.ramp_B. cbv zeta. rewrite V, !P12.
    rewrite Rlt_bool_false by lra. split; [reflexivity|]. split; [|split; [exact T2|split]].
    + unfold Ideal_Model.BulkModulusFromDensityInternalEnergy. cbn [Ideal_Model.gm1 Ideal_Model.ctor5]. unfold Rmax. destruct (Rle_dec _ _); lra.
    + unfold scale_of. cbn [e v Z.eqb Pos.eqb]. lra.
    + intros _. cbn [e v]. split; [exact T1|]. split; [lra|]. rewrite <- (ramp_val _ _ 1 2 1 0 eq_refl T1), V, P12, Rlt_bool_false by lra. lra.
Qed.
Print Assumptions C95_ideal_gas_bulk_modulus.
Print Assumptions C95_stiff_gas_bulk_modulus.
Print Assumptions C95_noble_abel_bulk_modulus.
Print Assumptions C95_carnahan_starling_bulk_modulus.
Print Assumptions C95_jwl_bulk_modulus.
Print Assumptions C95_gruneisen_bulk_modulus.
Print Assumptions C95_davis_products_bulk_modulus.
Print Assumptions C95_davis_reactants_bulk_modulus.
Print Assumptions C95_ramp_in_force_bulk_modulus.
Print Assumptions C95_bulk_modulus_queries.
