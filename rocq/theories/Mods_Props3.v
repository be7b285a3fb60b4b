(** C31: FlooredEnergy, RelativisticEOS and ZSplit.  Trust: Reals; Mods_Model. *)
From Coq Require Import Reals Bool Lra List ZArith Lia.
From Coquelicot Require Import Coquelicot.
From Flocq Require Import Core.
From Verif Require Import Robust_Model Thermo_Spec Thermo_Tools Mods_Spec Mods_Model Mods_View Mods_Instances Mods_Props Mods_Props2.
From Verif Require Ideal_Model Ideal_Props Stiff_Model Stiff_Props.
Local Open Scope R_scope.

Section Floored.
Context {L : Type}.
Variable null : L.
Notation Floored := (Floored (L := L) null).
(** the seven queries that take the energy, listed *)
Definition energy_queries (t : EOS L) : list (R -> R -> L -> R) := qT_e t :: qP_e t :: qS_e t :: qC_e t :: qB_e t :: qG_e t :: nil.

(** energies at or above the floor: nothing changes, for every energy query *)
Theorem C31_floored_above : forall (t : EOS L) rho e l, qEmin t rho null <= e ->
  map (fun q => q rho e l) (energy_queries (Floored t)) = map (fun q => q rho e l) (energy_queries t) /\
  (forall P T, qPTD (Floored t) rho e P T l = qPTD t rho e P T l).
Proof.
  intros t rho e l H. unfold energy_queries; cbn. unfold floor_e. rewrite Rmax_left by exact H. auto.
Qed.
(** energies below the floor act as the floor *)
Theorem C31_floored_below : forall (t : EOS L) rho e l, e <= qEmin t rho null ->
  map (fun q => q rho e l) (energy_queries (Floored t)) = map (fun q => q rho (qEmin t rho null) l) (energy_queries t) /\
  (forall P T, qPTD (Floored t) rho e P T l = qPTD t rho (qEmin t rho null) P T l).
Proof.
  intros t rho e l H. unfold energy_queries; cbn. unfold floor_e. rewrite Rmax_right by exact H. auto.
Qed.
(** queries that do not take an energy are unchanged; nothing else is touched *)
Theorem C31_floored_other_queries : forall (t : EOS L) rho T l, let o := Floored t in
  qE_T o rho T l = qE_T t rho T l /\ qP_T o rho T l = qP_T t rho T l /\ qS_T o rho T l = qS_T t rho T l /\
  qC_T o rho T l = qC_T t rho T l /\ qB_T o rho T l = qB_T t rho T l /\ qG_T o rho T l = qG_T t rho T l /\
  qEmin o rho l = qEmin t rho l /\ qRef o l = qRef t l /\ qRhoMin o = qRhoMin t /\ qTMin o = qTMin t /\ qRhoMax o = qRhoMax t /\
  qPMin o = qPMin t /\ qPMaxT o T = qPMaxT t T /\ qRhoPmin o T = qRhoPmin t T.
Proof. intros; cbn; repeat split; reflexivity. Qed.
(** a floor on a floor changes nothing; two energies on the same side of the floor order the clamped answers as the EOS does *)
Theorem C31_floored_idempotent : forall (t : EOS L) rho e l,
  map (fun q => q rho e l) (energy_queries (Floored (Floored t))) = map (fun q => q rho e l) (energy_queries (Floored t)).
Proof.
  intros. unfold energy_queries; cbn. unfold floor_e; cbn.
  assert (E : Rmax (Rmax e (qEmin t rho null)) (qEmin t rho null) = Rmax e (qEmin t rho null)).
  { apply Rmax_left. apply Rmax_r. }
  rewrite E. reflexivity.
Qed.
(** round trip through temperature survives wherever the EOS's own energy respects its minimum *)
Theorem C31_floored_roundtrip : forall (t : EOS L) rho T l, qEmin t rho null <= qE_T t rho T l ->
  roundtrip_T t rho T l -> roundtrip_T (Floored t) rho T l.
Proof. intros t rho T l H R0. unfold roundtrip_T in *. cbn. unfold floor_e. rewrite Rmax_left by exact H. exact R0. Qed.
(** continuity in energy is preserved *)
Theorem C31_floored_continuous : forall (t : EOS L) rho e l, continuous (fun x => qP_e t rho x l) (Rmax e (qEmin t rho null)) ->
  continuous (fun x => qP_e (Floored t) rho x l) e.
Proof.
  intros t rho e l H. cbn. unfold floor_e. set (m := qEmin t rho null) in *.
  apply (continuous_comp (fun x => Rmax x m) (fun y => qP_e t rho y l)); [|exact H].
  apply (continuous_ext (fun y => (y + m + Rabs (y - m)) / 2)).
  - intros y. unfold Rmax. destruct (Rle_dec y m); [rewrite Rabs_left1 by lra|rewrite Rabs_right by lra]; eqR; field.
  - apply (continuous_mult (K := R_AbsRing) (fun y => y + m + Rabs (y - m)) (fun _ => / 2)); [|apply continuous_const].
    apply (continuous_plus (V := R_NormedModule)).
    + apply (continuous_plus (V := R_NormedModule)); [apply continuous_id|apply continuous_const].
    + apply (continuous_comp (fun y => y - m) Rabs).
      * apply (continuous_minus (V := R_NormedModule)); [apply continuous_id|apply continuous_const].
      * apply continuous_Rabs.
Qed.
End Floored.
(** Refuted: the floor used is that of the default lambda, not of the lambda in the call: an energy below the EOS's minimum
    at that lambda is not raised to it (here a table whose minimum energy depends on the composition in the lambda) *)
Theorem C60_floored_lambda_refuted : exists t : EOS R, forall e, 0 < e < 1 ->
  qEmin (Floored 0 t) 1 1 = 1 /\ e < qEmin (Floored 0 t) 1 1 /\ qP_e (Floored 0 t) 1 e 1 = e /\ qP_e t 1 (qEmin t 1 1) 1 = 1.
Proof.
  set (z := fun (_ _ _ : R) => 0).
  exists (mkEOS z z z (fun rho e _ => rho * e) (fun rho l => l) z z z z z z z z (fun _ _ _ _ => 0) (fun _ _ _ x => x) (fun _ _ _ _ _ => mkPtd 0 0 0 0)
    (fun _ _ s => Some s) (mkF true false true false false false) (fun _ => mkRef 0 0 0 0 0 0 0 0) 0 0 0 0 (fun _ => 0) (fun _ => 0) z z).
  intros e H. cbn. unfold floor_e; cbn. rewrite Rmax_left by lra. repeat split; lra.
Qed.
(** Refuted: InternalEnergyFromDensityPressure is not floored: the energy it returns can lie below the floor (ideal gas,
    negative pressure) *)
Theorem C60_floored_energy_from_pressure_refuted : exists g rho P, Ideal_Props.admissible g /\ 0 < rho /\
  qE_P (Floored tt (ideal_EOS g)) rho P 0 tt < qEmin (Floored tt (ideal_EOS g)) rho tt.
Proof.
  exists gi, 1, (- (4/10)). tp. split; [split; cbn; lra|]. split; [lra|].
  cbn. unfold Ideal_Model.InternalEnergyFromDensityPressure, Ideal_Model.MinInternalEnergyFromDensity. cbn. lra.
Qed.
(** StiffGas with Pinf = 1: minimum energy Pinf/rho > 0, a floor above zero *)
Example C31_floored_example : let g := Stiff_Model.mkStiff 1 (4/10) 1 0 1 1 0 1 1 1 1 1 29 14 in
  qEmin (stiff_EOS ep0 pd0 g) 1 tt = 1 /\
  qP_e (Floored tt (stiff_EOS ep0 pd0 g)) 1 (1/2) tt = qP_e (stiff_EOS ep0 pd0 g) 1 1 tt /\
  qP_e (Floored tt (stiff_EOS ep0 pd0 g)) 1 3 tt = qP_e (stiff_EOS ep0 pd0 g) 1 3 tt.
Proof.
  intros g. tp. assert (E : qEmin (stiff_EOS ep0 pd0 g) 1 tt = 1).
  { cbn. unfold Stiff_Model.MinInternalEnergyFromDensity, Stiff_Model.InternalEnergyFromDensityTemperature; cbn. rewrite ratio_pos by lra. rewrite Rmax_right; lra. }
  split; [exact E|]. split.
  - cbn [qP_e Floored]. unfold floor_e. rewrite E, Rmax_right by lra. reflexivity.
  - cbn [qP_e Floored]. unfold floor_e. rewrite E, Rmax_left by lra. reflexivity.
Qed.

(** ** RelativisticEOS *)
Section Rel.
Context {L : Type}.
(** The bulk modulus is the wrapped one divided by the enthalpy c^2 + e + P/rho (so that bulk modulus over density is the
    squared sound speed in units of c), never negative.  Away from the robust::ratio thresholds. *)
Theorem C31_relativistic_bulk_modulus : forall (t : EOS L) cl rho e T l, tiny <= rho ->
  let h x P := cl * cl + x + P / rho in
  0 <= qB_e (Relativistic cl t) rho e l /\ 0 <= qB_T (Relativistic cl t) rho T l /\
  (tiny <= h e (qP_e t rho e l) -> 0 <= qB_e t rho e l -> qB_e (Relativistic cl t) rho e l = qB_e t rho e l / h e (qP_e t rho e l)) /\
  (tiny <= h (qE_T t rho T l) (qP_T t rho T l) -> 0 <= qB_T t rho T l ->
     qB_T (Relativistic cl t) rho T l = qB_T t rho T l / h (qE_T t rho T l) (qP_T t rho T l)).
Proof.
  intros t cl rho e T l Hr h. tp. cbn. unfold rel_bmod.
  assert (K : forall b h', tiny <= h' -> 0 <= b -> Rmax 0 (ratio b (Rabs h')) = b / h').
  { intros b h' Hh Hb. rewrite Rabs_right by lra. rewrite ratio_pos by exact Hh. apply Rmax_right.
    apply Rmult_le_pos; [exact Hb|left; apply Rinv_0_lt_compat; lra]. }
  refine (conj (Rmax_l _ _) (conj (Rmax_l _ _) (conj _ _))); intros Hh Hb; rewrite (ratio_pos _ rho) by exact Hr; apply K; assumption.
Qed.
(** everything else is passed through *)
Theorem C31_relativistic_other_queries : forall (t : EOS L) cl rho x l, let o := Relativistic cl t in
  qT_e o rho x l = qT_e t rho x l /\ qE_T o rho x l = qE_T t rho x l /\ qP_e o rho x l = qP_e t rho x l /\ qP_T o rho x l = qP_T t rho x l /\
  qS_e o rho x l = qS_e t rho x l /\ qS_T o rho x l = qS_T t rho x l /\ qC_e o rho x l = qC_e t rho x l /\ qC_T o rho x l = qC_T t rho x l /\
  qG_e o rho x l = qG_e t rho x l /\ qG_T o rho x l = qG_T t rho x l /\ qEmin o rho l = qEmin t rho l.
Proof. intros; cbn; repeat split; reflexivity. Qed.
(** exact condition for a sound speed below c: B <= rho h *)
Theorem C31_relativistic_subluminal_iff : forall (t : EOS L) cl rho e l, tiny <= rho ->
  tiny <= cl * cl + e + qP_e t rho e l / rho -> 0 <= qB_e t rho e l ->
  (qB_e (Relativistic cl t) rho e l / rho < 1 <-> qB_e t rho e l < rho * (cl * cl + e) + qP_e t rho e l).
Proof.
  intros t cl rho e l Hr Hh Hb. tp.
  rewrite (proj1 (proj2 (proj2 (C31_relativistic_bulk_modulus t cl rho e 0 l Hr))) Hh Hb).
  set (h := cl * cl + e + qP_e t rho e l / rho) in *. set (B := qB_e t rho e l) in *.
  assert (E : rho * (cl * cl + e) + qP_e t rho e l = rho * h) by (unfold h; field; lra). rewrite E. 
  assert (Q : B / h / rho = B / (rho * h)) by (field; split; lra). rewrite Q.
  assert (P : 0 < rho * h) by (apply Rmult_lt_0_compat; lra). clearbody h B. split; intros H1.
  - apply Rmult_lt_reg_r with (/ (rho * h)); [apply Rinv_0_lt_compat; exact P|]. rewrite Rinv_r by lra. exact H1.
  - apply Rmult_lt_reg_r with (rho * h); [exact P|]. replace (B / (rho * h) * (rho * h)) with B by (field; split; lra). lra.
Qed.
End Rel.
(** ideal gas with gamma <= 2: sound speed below c for every positive energy *)
Theorem C31_relativistic_ideal_subluminal : forall g cl rho e, Relativistic_check cl = true -> Ideal_Props.admissible g ->
  Ideal_Model.gm1 g <= 1 -> tiny <= rho -> tiny <= e ->
  0 <= qB_e (Relativistic cl (ideal_EOS g)) rho e tt / rho < 1.
Proof.
  intros g cl rho e Hc [HC Hg] H1 Hr He. tp.
  assert (Hcl : 0 < cl * cl). { unfold Relativistic_check in Hc. apply andb_true_iff in Hc. destruct Hc as [_ Hc]. destruct (Rlt_bool_spec 0 (cl * cl)); [assumption|discriminate]. }
  assert (EP : qP_e (ideal_EOS g) rho e tt = Ideal_Model.gm1 g * rho * e).
  { cbn. unfold two, Ideal_Model.PressureFromDensityInternalEnergy. apply Rmax_right. apply Rmult_le_pos; [apply Rmult_le_pos|]; lra. }
  assert (EB : qB_e (ideal_EOS g) rho e tt = (Ideal_Model.gm1 g + 1) * Ideal_Model.gm1 g * rho * e).
  { cbn. unfold two, Ideal_Model.BulkModulusFromDensityInternalEnergy. apply Rmax_right. repeat apply Rmult_le_pos; lra. }
  assert (Eh : cl * cl + e + qP_e (ideal_EOS g) rho e tt / rho = cl * cl + (1 + Ideal_Model.gm1 g) * e) by (rewrite EP; field; lra).
  assert (Pge : 0 < Ideal_Model.gm1 g * e) by (apply Rmult_lt_0_compat; lra).
  split.
  - apply Rmult_le_pos; [|left; apply Rinv_0_lt_compat; lra]. apply (C31_relativistic_bulk_modulus (ideal_EOS g) cl rho e 0 tt Hr).
  - apply C31_relativistic_subluminal_iff; [exact Hr| | |].
    + rewrite Eh. nra.
    + rewrite EB. repeat apply Rmult_le_pos; lra.
    + rewrite EP, EB.
      assert (A : 0 < rho * (cl * cl)) by (apply Rmult_lt_0_compat; lra).
      assert (B : (Ideal_Model.gm1 g + 1) * Ideal_Model.gm1 g * rho * e <= (1 + Ideal_Model.gm1 g) * (rho * e)).
      { replace ((Ideal_Model.gm1 g + 1) * Ideal_Model.gm1 g * rho * e) with (Ideal_Model.gm1 g * ((1 + Ideal_Model.gm1 g) * (rho * e))) by ring.
        rewrite <- (Rmult_1_l ((1 + Ideal_Model.gm1 g) * (rho * e))) at 2. apply Rmult_le_compat_r; [|exact H1].
        apply Rmult_le_pos; [lra|]. apply Rmult_le_pos; lra. }
      nra.
Qed.
(** Refuted: the class does not guarantee it: an ideal gas with gamma = 4, accepted by CheckParams, at high energy *)
Theorem C60_relativistic_superluminal_refuted : exists g, Ideal_Props.admissible g /\ Relativistic_check 1 = true /\
  qB_e (Relativistic 1 (ideal_EOS g)) 1 1 tt / 1 = 12/5.
Proof.
  exists (Ideal_Model.mkIdeal 1 3 1 1 1 1 1 1 1 1 1). tp. split; [split; cbn; lra|]. split.
  - unfold Relativistic_check. rewrite !Rlt_bool_true by lra. reflexivity.
  - cbn. unfold rel_bmod, two, Ideal_Model.BulkModulusFromDensityInternalEnergy, Ideal_Model.PressureFromDensityInternalEnergy; cbn.
    rewrite (Rmax_right 0 (3 * 1 * 1)), (Rmax_right 0 ((3 + 1) * 3 * 1 * 1)) by lra. rewrite (ratio_pos _ 1) by lra.
    rewrite Rabs_right by lra. rewrite ratio_pos by lra. rewrite Rmax_right; lra.
Qed.
(** Refuted: FillEos returns the wrapped bulk modulus, not the relativistic one the scalar query gives *)
Theorem C60_relativistic_fill_refuted : exists s',
  qFill (Relativistic 1 (ideal_EOS gi)) (mkF false true false true true true) tt (mkS 1 0 1 0 0 0) = Some s' /\
  s_bmod s' = qB_e (ideal_EOS gi) 1 1 tt /\ s_bmod s' = 14/25 /\ qB_e (Relativistic 1 (ideal_EOS gi)) 1 1 tt = 7/30.
Proof.
  eexists. split; [reflexivity|]. tp. cbn. unfold rel_bmod, two, Ideal_Model.PressureFromDensityInternalEnergy, Ideal_Model.BulkModulusFromDensityInternalEnergy; cbn.
  rewrite (Rmax_right 0 ((4 / 10 + 1) * (4 / 10) * 1 * 1)), (Rmax_right 0 (4/10 * 1 * 1)) by lra.
  split; [reflexivity|]. split; [lra|]. rewrite (ratio_pos _ 1) by lra. rewrite Rabs_right by lra. rewrite ratio_pos by lra.
  rewrite Rmax_right; lra.
Qed.
Example C31_relativistic_example : Relativistic_check 2 = true /\ Ideal_Props.admissible gi /\ Ideal_Model.gm1 gi <= 1 /\
  tiny <= 1 /\ qB_e (Relativistic 2 (ideal_EOS gi)) 1 1 tt = 14/135.
Proof.
  tp. split; [unfold Relativistic_check; rewrite !Rlt_bool_true by lra; reflexivity|]. split; [split; cbn; lra|]. split; [cbn; lra|]. split; [lra|].
  cbn. unfold rel_bmod, two, Ideal_Model.PressureFromDensityInternalEnergy, Ideal_Model.BulkModulusFromDensityInternalEnergy; cbn.
  rewrite (Rmax_right 0 ((4 / 10 + 1) * (4 / 10) * 1 * 1)), (Rmax_right 0 (4/10 * 1 * 1)) by lra.
  rewrite (ratio_pos _ 1) by lra. rewrite Rabs_right by lra. rewrite ratio_pos by lra. rewrite Rmax_right; lra.
Qed.

(** ** ZSplit *)
(** fraction of energy, pressure, entropy, ... carried by each component at ionisation state Z *)
Definition zfrac (c : zcomp) (Z : R) : R := match c with Electrons => Z / (Z + 1) | Ions => 1 / (Z + 1) end.
(** the component is the wrapped EOS seen through: same density and temperature, energy and pressure divided by the fraction *)
Definition z_gauge (c : zcomp) (Z : R) : gauge := mkG 1 (1 / zfrac c Z) 1 (1 / zfrac c Z) 0.
(** ionisation states for which the component is not empty *)
Definition z_ok (c : zcomp) (Z : R) : Prop := match c with Electrons => tiny <= Z | Ions => 0 <= Z end.

Section ZS.
Context {L : Type}.
Variable null : L.
Variable ion : L -> R.
Notation ZSplit := (ZSplit (L := L) null ion).
Notation Zion := (Zion (L := L) ion).
Lemma zfrac_pos c Z : z_ok c Z -> 0 < zfrac c Z.
Proof. pose proof tiny_pos. destruct c; cbn; intros H0; apply Rdiv_lt_0_compat; lra. Qed.
Lemma z_scale c Z : z_ok c Z -> zscale c Z = zfrac c Z /\ ziscale c Z = 1 / zfrac c Z.
Proof.
  tp. destruct c; cbn; intros HZ; rewrite !ratio_pos by lra; split; auto; field; lra.
Qed.
Lemma z_gauge_ok c Z : z_ok c Z -> gauge_ok (z_gauge c Z).
Proof.
  intros HZ. pose proof (zfrac_pos c Z HZ) as P. unfold gauge_ok, z_gauge; cbn.
  assert (1 / zfrac c Z <> 0) by (apply Rgt_not_eq, Rdiv_lt_0_compat; lra). repeat split; try assumption; lra.
Qed.
(** every query except energy-from-pressure, the reference state and the pressure bounds, for every wrapped EOS, at every
    ionisation state for which the component is not empty *)
Theorem C31_zsplit_queries : forall (t : EOS L) c l, z_ok c (Zion l) -> let o := ZSplit c t in
  let f := zfrac c (Zion l) in
  (forall rho e, qT_e o rho e l = qT_e t rho (e / f) l) /\ (forall rho T, qE_T o rho T l = f * qE_T t rho T l) /\
  (forall rho e, qP_e o rho e l = f * qP_e t rho (e / f) l) /\ (forall rho T, qP_T o rho T l = f * qP_T t rho T l) /\
  (forall rho, qEmin o rho l = f * qEmin t rho l) /\
  (forall rho e, qS_e o rho e l = f * qS_e t rho (e / f) l) /\ (forall rho T, qS_T o rho T l = f * qS_T t rho T l) /\
  (forall rho e, qC_e o rho e l = f * qC_e t rho (e / f) l) /\ (forall rho T, qC_T o rho T l = f * qC_T t rho T l) /\
  (forall rho e, qB_e o rho e l = f * qB_e t rho (e / f) l) /\ (forall rho T, qB_T o rho T l = f * qB_T t rho T l) /\
  (forall rho e, qG_e o rho e l = qG_e t rho (e / f) l) /\ (forall rho T, qG_T o rho T l = qG_T t rho T l) /\
  (guess_free t -> forall P T x, qDE o P T l x = (fst (qDE t (P / f) T l x), f * snd (qDE t (P / f) T l x))).
Proof.
  intros t c l HZ o f. destruct (z_scale c _ HZ) as [E1 E2]. fold f in E1, E2. pose proof (zfrac_pos c _ HZ) as Pf. fold f in Pf.
  assert (M : forall e, 1 / f * e = e / f) by (intros; field; lra). assert (M' : forall e, e * (1 / f) = e / f) by (intros; field; lra).
  unfold o; cbn. rewrite E1, E2. repeat split; intros; rewrite ?M, ?M'; try reflexivity.
  destruct (qDE t (P / f) T l x) as [r e] eqn:E. cbn. f_equal. ring.
Qed.
End ZS.
(** so a component is thermodynamically consistent where the wrapped EOS is *)
Lemma z_view {L} null ion (t : EOS L) c : (forall l, z_ok c (Zion ion l)) ->
  view_values (fun l => z_gauge c (Zion ion l)) t (ZSplit null ion c t) /\ view_PTD (fun l => z_gauge c (Zion ion l)) t (ZSplit null ion c t).
Proof.
  intros HZ. split.
  - refine (conj _ (conj _ (conj _ (conj _ (conj _ (conj _ (conj _ (conj _ _)))))))); intros;
    intro; intros; try (rename e into x); try (rename T into x);
    destruct (z_scale c _ (HZ l)) as [E1 E2]; pose proof (zfrac_pos c _ (HZ l)) as Pf; cbn; rewrite ?E1, ?E2;
    unfold in_rho, out_rho, in_e, out_e, in_T, out_T, in_P, out_P, in_c, out_c, z_gauge; cbn; set (f := zfrac c (Zion ion l)) in *; clearbody f;
    rewrite ?Rmult_1_l, ?Rminus_0_r, ?Rdiv_1, ?Rplus_0_r, ?Rmult_1_r;
    try split;
    rewrite ?(Rmult_comm _ (1 / f)); try reflexivity; try (field; lra); try (rewrite Rdiv_1; reflexivity).
  - intros rho e P T l. destruct (z_scale c _ (HZ l)) as [E1 E2]. pose proof (zfrac_pos c _ (HZ l)) as Pf. cbn. rewrite E1, E2.
    unfold in_rho, in_e, in_P, in_T, z_gauge; cbn. set (f := zfrac c (Zion ion l)) in *; clearbody f.
    rewrite !Rmult_1_l, Rminus_0_r, !(Rmult_comm _ (1 / f)). set (d := qPTD t rho (1 / f * e) (1 / f * P) T l). clearbody d.
    destruct d as [a b c0 d0]; cbn. f_equal; field; lra.
Qed.
Theorem C31_zsplit_consistent : forall {L} null ion (t : EOS L) c rho e T l, z_ok c (Zion ion l) -> rho <> 0 -> T <> 0 ->
  let o := ZSplit null ion c t in let f := zfrac c (Zion ion l) in
  (roundtrip_T t rho T l -> roundtrip_T o rho T l) /\ (agree_P t rho T l -> agree_P o rho T l) /\
  (is_gruneisen (fun r x => qP_e t r x l) rho (e / f) (qG_e t rho (e / f) l) -> is_gruneisen (fun r x => qP_e o r x l) rho e (qG_e o rho e l)) /\
  (is_bulk_modulus (fun r x => qP_e t r x l) rho (e / f) (qB_e t rho (e / f) l) ->
     is_bulk_modulus (fun r x => qP_e o r x l) rho e (qB_e o rho e l)) /\
  (is_specific_heat (fun r x => qE_T t r x l) rho T (qC_T t rho T l) -> is_specific_heat (fun r x => qE_T o r x l) rho T (qC_T o rho T l)) /\
  (first_law (fun r x => qS_T t r x l) (fun r x => qE_T t r x l) (fun r x => qP_T t r x l) rho T ->
   first_law (fun r x => qS_T o r x l) (fun r x => qE_T o r x l) (fun r x => qP_T o r x l) rho T).
Proof.
  intros L null ion t c rho e T l HZ Hr HT o f.
  set (ion' := fun _ : L => ion l). set (o' := ZSplit null ion' c t).
  assert (HZ' : forall l', z_ok c (Zion ion' l')) by (intros; exact HZ).
  destruct (z_view null ion' t c HZ') as [(A1 & A2 & A3 & A4 & A5 & A6 & A7 & A8 & A9) _].
  assert (OK : forall l', gauge_ok ((fun l' => z_gauge c (Zion ion' l')) l')) by (intros; apply z_gauge_ok; apply HZ').
  assert (Pf : 0 < f) by (apply zfrac_pos; exact HZ).
  assert (E1 : in_rho (z_gauge c (Zion ion' l)) rho = rho) by (unfold in_rho, z_gauge; cbn; ring).
  assert (E2 : in_T (z_gauge c (Zion ion' l)) T = T) by (unfold in_T, z_gauge; cbn; ring).
  assert (E3 : in_e (z_gauge c (Zion ion' l)) e = e / f).
  { unfold in_e, z_gauge; cbn. change (zfrac c (Zion ion' l)) with f. rewrite Rminus_0_r. field. lra. }
  assert (EG : qG_e o' rho e l = qG_e t rho (e / f) l) by (rewrite (proj2 (A9 rho e l) : qG_e o' rho e l = _), E1, E3; reflexivity).
  refine (conj _ (conj _ (conj _ (conj _ (conj _ _))))).
  - intros H. change (roundtrip_T o' rho T l). apply (view_roundtrip _ t o' OK A1 A2). cbv beta. rewrite E1, E2. exact H.
  - intros H. change (agree_P o' rho T l). apply (view_agree _ t o' OK A3 A4 A2). cbv beta. rewrite E1, E2. exact H.
  - intros H. refine (eq_rect _ (fun G => is_gruneisen (fun r x => qP_e o' r x l) rho e G) _ _ (eq_sym EG)).
    apply (view_gruneisen _ t o' OK A3). cbv beta. rewrite E1, E3. exact H.
  - intros H. change (is_bulk_modulus (fun r x => qP_e o' r x l) rho e (qB_e o' rho e l)).
    rewrite (proj2 (A8 rho e l) : qB_e o' rho e l = _). apply (view_bulk _ t o' OK A3); [exact Hr|]. cbv beta. rewrite E1, E3. exact H.
  - intros H. change (is_specific_heat (fun r x => qE_T o' r x l) rho T (qC_T o' rho T l)).
    rewrite (proj1 (A7 rho T l) : qC_T o' rho T l = _). apply (view_cv _ t o' OK A2). cbv beta. rewrite E1, E2. exact H.
  - intros H. change (first_law (fun r x => qS_T o' r x l) (fun r x => qE_T o' r x l) (fun r x => qP_T o' r x l) rho T).
    apply (view_first_law _ t o' OK A6 A2 A4 rho T l Hr HT). cbv beta. rewrite E1, E2. exact H.
Qed.
(** electrons plus ions add up to the unsplit EOS: at one density and temperature, for every ionisation state *)
Theorem C31_zsplit_sum : forall {L} null ion (t : EOS L) rho T l, let el := ZSplit null ion Electrons t in let io := ZSplit null ion Ions t in
  qP_T el rho T l + qP_T io rho T l = qP_T t rho T l /\ qE_T el rho T l + qE_T io rho T l = qE_T t rho T l /\
  qS_T el rho T l + qS_T io rho T l = qS_T t rho T l /\ qC_T el rho T l + qC_T io rho T l = qC_T t rho T l /\
  qB_T el rho T l + qB_T io rho T l = qB_T t rho T l /\ qEmin el rho l + qEmin io rho l = qEmin t rho l /\
  qG_T el rho T l = qG_T t rho T l /\ qG_T io rho T l = qG_T t rho T l.
Proof.
  intros. tp. cbn. assert (HZ : 0 <= Zion ion l) by apply Rmax_l. rewrite !ratio_pos by lra.
  set (Z := Zion ion l) in *. clearbody Z. repeat split; try reflexivity; field; lra.
Qed.
(** ... and at the energies the two components have at that temperature *)
Theorem C31_zsplit_sum_energy : forall {L} null ion (t : EOS L) rho e l, tiny <= Zion ion l ->
  let el := ZSplit null ion Electrons t in let io := ZSplit null ion Ions t in
  let ee := zfrac Electrons (Zion ion l) * e in let ei := zfrac Ions (Zion ion l) * e in
  ee + ei = e /\ qT_e el rho ee l = qT_e t rho e l /\ qT_e io rho ei l = qT_e t rho e l /\
  qP_e el rho ee l + qP_e io rho ei l = qP_e t rho e l /\ qS_e el rho ee l + qS_e io rho ei l = qS_e t rho e l /\
  qC_e el rho ee l + qC_e io rho ei l = qC_e t rho e l /\ qB_e el rho ee l + qB_e io rho ei l = qB_e t rho e l.
Proof.
  intros L null ion t rho e l HZ. tp. cbn. rewrite !ratio_pos by lra.
  set (Z := Zion ion l) in *. clearbody Z.
  assert (E1 : (Z + 1) / Z * (Z / (Z + 1) * e) = e) by (field; lra). assert (E2 : (Z + 1) * (1 / (Z + 1) * e) = e) by (field; lra).
  assert (E3 : Z / (Z + 1) * e * ((Z + 1) / Z) = e) by (field; lra). assert (E4 : 1 / (Z + 1) * e * (Z + 1) = e) by (field; lra).
  rewrite !E1, !E2, !E3, !E4. repeat split; try reflexivity; field; lra.
Qed.
(** the pressure-temperature inversion gives both components the density of the unsplit EOS at the total pressure *)
Theorem C31_zsplit_PT : forall {L} null ion (t : EOS L) P T l x, tiny <= Zion ion l ->
  let el := ZSplit null ion Electrons t in let io := ZSplit null ion Ions t in
  let Pe := zfrac Electrons (Zion ion l) * P in let Pi := zfrac Ions (Zion ion l) * P in
  fst (qDE el Pe T l x) = fst (qDE t P T l x) /\ fst (qDE io Pi T l x) = fst (qDE t P T l x) /\
  snd (qDE el Pe T l x) + snd (qDE io Pi T l x) = snd (qDE t P T l x).
Proof.
  intros L null ion t P T l x HZ. tp. cbn. rewrite !ratio_pos by lra.
  set (Z := Zion ion l) in *. clearbody Z.
  assert (E1 : (Z + 1) / Z * (Z / (Z + 1) * P) = P) by (field; lra). assert (E2 : (Z + 1) * (1 / (Z + 1) * P) = P) by (field; lra).
  rewrite E1, E2. destruct (qDE t P T l x) as [r s]. cbn. repeat split; try reflexivity; field; lra.
Qed.
(** Refuted: InternalEnergyFromDensityPressure of a component does not scale the pressure it is given: the component's
    pressure at the energy returned is not the one asked for *)
Theorem C60_zsplit_energy_from_pressure_refuted : exists ion : R -> R, forall P, 0 < P ->
  let o := ZSplit tt (fun _ => 1) Ions (ideal_EOS gi) in
  z_ok Ions (Zion ion 0) /\ qP_e o 1 (qE_P o 1 P 0 tt) tt = P / 2.
Proof.
  exists (fun _ => 1). intros P HP. tp. split; [apply Rmax_l|]. cbn. unfold Zion. rewrite (Rmax_right 0 1) by lra. rewrite !ratio_pos by lra.
  unfold two, Ideal_Model.PressureFromDensityInternalEnergy, Ideal_Model.InternalEnergyFromDensityPressure; cbn.
  rewrite Rmax_right by lra. lra.
Qed.
(** Refuted: the reported minimum pressure and maximum pressure at a temperature are the unsplit ones *)
Theorem C60_zsplit_bounds_refuted : forall {L} null ion (t : EOS L) c T, 
  qPMin (ZSplit null ion c t) = qPMin t /\ qPMaxT (ZSplit null ion c t) T = qPMaxT t T.
Proof. intros. split; reflexivity. Qed.
(** Refuted: at ionisation state 0 the electrons hold no energy and their temperature is not recoverable *)
Theorem C60_zsplit_neutral_roundtrip_refuted : let o := ZSplit tt (fun _ => 0) Electrons (ideal_EOS gi) in
  forall T, 0 < T -> roundtrip_T (ideal_EOS gi) 1 T tt /\ qE_T o 1 T tt = 0 /\ qT_e o 1 (qE_T o 1 T tt) tt = 0.
Proof.
  intros o T HT. tp. split; [unfold roundtrip_T; cbn; unfold two; apply (Ideal_Props.C16_temperature_energy_round_trip gi); [split; cbn; lra|lra]|].
  assert (E : qE_T o 1 T tt = 0). { cbn. unfold Zion. rewrite (Rmax_left 0 0) by lra. rewrite ratio_pos by lra. field. }
  split; [exact E|]. rewrite E. cbn. rewrite Rmult_0_l. unfold two, Ideal_Model.TemperatureFromDensityInternalEnergy; cbn. rewrite Rmax_left by lra. reflexivity.
Qed.
Example C31_zsplit_example : let el := ZSplit tt (fun _ => 3) Electrons (ideal_EOS gi) in let io := ZSplit tt (fun _ => 3) Ions (ideal_EOS gi) in
  z_ok Electrons (Zion (fun _ : unit => 3) tt) /\ qP_T el 1 5 tt = 3 /\ qP_T io 1 5 tt = 1 /\ qP_T (ideal_EOS gi) 1 5 tt = 4.
Proof.
  tp. cbn. unfold Zion. rewrite (Rmax_right 0 3) by lra. rewrite !ratio_pos by lra.
  unfold two, Ideal_Model.PressureFromDensityTemperature; cbn. rewrite Rmax_right by lra. repeat split; lra.
Qed.
Print Assumptions C31_floored_above.
Print Assumptions C31_floored_below.
Print Assumptions C31_floored_other_queries.
Print Assumptions C31_floored_idempotent.
Print Assumptions C31_floored_roundtrip.
Print Assumptions C31_floored_continuous.
Print Assumptions C60_floored_lambda_refuted.
Print Assumptions C60_floored_energy_from_pressure_refuted.
Print Assumptions C31_relativistic_bulk_modulus.
Print Assumptions C31_relativistic_other_queries.
Print Assumptions C31_relativistic_subluminal_iff.
Print Assumptions C31_relativistic_ideal_subluminal.
Print Assumptions C60_relativistic_superluminal_refuted.
Print Assumptions C60_relativistic_fill_refuted.
Print Assumptions C31_zsplit_queries.
Print Assumptions C31_zsplit_consistent.
Print Assumptions C31_zsplit_sum.
Print Assumptions C31_zsplit_sum_energy.
Print Assumptions C31_zsplit_PT.
Print Assumptions C60_zsplit_energy_from_pressure_refuted.
Print Assumptions C60_zsplit_bounds_refuted.
Print Assumptions C60_zsplit_neutral_roundtrip_refuted.
