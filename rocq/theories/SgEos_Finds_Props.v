(** get_sg_eos: instances of the theorems of SgEos_Props, and what does not hold. *)
From Coq Require Import ZArith Reals Bool List Lia Lra FunctionalExtensionality.
From Flocq Require Import Core.
From Verif Require Import Arith Robust_Model Robust_Proofs RootFinding_Model Thermo_Tools PTE_Driver_Model PTE_Model PTE_Tools PTE_Tools2 PTE_Init PTE_Witness PTE_FixedP_Props SgEos_Model SgEos_Spec SgEos_Proofs SgEos_View SgEos_Props.
Import ListNotations.
Local Open Scope R_scope.

(** ** Two ideal gases *)
Definition geos (i : nat) : seos := mkSeos (weos i) (fun r T => r * T) (fun _ _ => 2 / 5) 300.
Definition gcell (m0 m1 : R) : cell := mkCell 1 0 4 2 3 1 0 0 0 (fun m => match m with O => m0 | _ => m1 end) (fun _ => 0) (fun _ => 0) (fun _ => 0) (fun _ => 0) (fun _ => 0).
Definition grow : row := mkRow (fun _ => 0%nat) (fun _ => 0%nat) (fun _ => 0) (fun _ => 0) (fun _ => 0) (fun _ => 0) (fun _ => 0).
Definition allopts : opts := mkOpts true true true.
Lemma g_total m0 m1 : total 2 (gcell m0 m1) = m0 + m1. Proof. unfold total. cbn. ring. Qed.
Lemma g_part cut m0 m1 m : (m < 2)%nat -> takes_part 2 cut (gcell m0 m1) m = Rlt_bool cut ((if (m =? 0)%nat then m0 else m1) / (m0 + m1)).
Proof. intros Hm. unfold takes_part, fraction. rewrite g_total. destruct m as [|[|m]]; [reflexivity|reflexivity|lia]. Qed.

Lemma ratio_zero_den x : 0 < x -> tiny <= x -> tiny <= safety * ratio x 0.
Proof.
  intros H H1. pose proof tiny_pos as TP. unfold ratio. rewrite Rabs_R0, Rle_bool_false by exact TP. unfold ratio_exact.
  assert (ratio_denominator 0 = SMALL) as -> by (unfold ratio_denominator, sgn; rewrite Rle_bool_true by lra; ring).
  pose proof SMALL_pos as S0. assert (SMALL < 1 / 2) as S1.
  { apply Rlt_le_trans with (1 := SMALL_lt_ulp). apply Rle_trans with (bpow radix2 (-1)); [apply bpow_le; lia|cbn; lra]. }
  apply Rle_trans with (9 / 10 * (x * 2)); [lra|]. unfold safety. apply Rmult_le_compat_l; [lra|]. unfold Rdiv. apply Rmult_le_compat_l; [lra|].
  apply Rmult_le_reg_r with SMALL; [exact S0|]. rewrite Rinv_l by lra. lra.
Qed.
(** the hypotheses of the mixed-cell theorems hold of a cell of two gases in equal parts *)
Example C40_ex_mixed : mixed 2 geos S (1 / 1000) (gcell 1 1) /\ over_parts 2 (takes_part 2 (1 / 1000) (gcell 1 1)) (fraction 2 (gcell 1 1)) = 1 /\ exact_solver gauss /\
  (forall m, (m < 2)%nat -> pref_p (eos_of geos S m) = false /\ pref_e (eos_of geos S m) = false) /\
  (forall m d T1 T2, (m < 2)%nat -> 0 < d -> 0 < T1 < T2 -> p_rt (eos_of geos S m) d T1 < p_rt (eos_of geos S m) d T2).
Proof.
  assert (forall m, (m < 2)%nat -> takes_part 2 (1 / 1000) (gcell 1 1) m = true) as HP.
  { intros m Hm. rewrite g_part by exact Hm. destruct (m =? 0)%nat; apply Rlt_bool_true; lra. }
  assert (forall m, (m < 2)%nat -> fraction 2 (gcell 1 1) m = 1 / 2) as HF.
  { intros m Hm. unfold fraction. rewrite g_total. destruct m as [|[|m]]; cbn; try lra; lia. }
  assert (over_parts 2 (takes_part 2 (1 / 1000) (gcell 1 1)) (fraction 2 (gcell 1 1)) = 1) as HO.
  { unfold over_parts. cbn [rsum]. rewrite !HP, !HF by lia. lra. }
  pose proof tiny_lt_1 as T1. pose proof tiny_pos as T0. assert (tiny <= 1 / 4) as T4. { unfold tiny. apply Rle_trans with (bpow radix2 (-2)); [apply bpow_le; lia|cbn; lra]. }
  assert (forall m, (m < 2)%nat -> exists g k, weos m = wgas g k /\ 0 < g /\ 0 < k) as HW.
  { intros m Hm. destruct m as [|[|m]]; [exists (2 / 5), 1|exists (2 / 3), 2|lia]; split; try reflexivity; lra. }
  split; [constructor|split; [exact HO|split; [exact gauss_exact|split]]].
  - unfold nparts, parts. cbn [seq filter]. rewrite !HP by lia. cbn. lia.
  - rewrite g_total. lra.
  - cbn. lra.
  - rewrite HO. lra.
  - intros m Hm _. rewrite HF by exact Hm. cbn [gcell c_spvol]. split; lra.
  - intros m T Hm _. rewrite HF by exact Hm. cbn [gcell c_spvol].
    assert (RhoPmin (eos_of geos S m) T = 0) as -> by (unfold eos_of, geos; cbn [se]; replace (S m - 1)%nat with m by lia; destruct (HW m Hm) as (g & k & -> & _); reflexivity).
    apply ratio_zero_den; lra.
  - intros m Hm. unfold eos_of, geos; cbn [se]; replace (S m - 1)%nat with m by lia; destruct (HW m Hm) as (g & k & -> & _). split; reflexivity.
  - intros m d A B Hm Hd HT. unfold eos_of, geos; cbn [se]; replace (S m - 1)%nat with m by lia; destruct (HW m Hm) as (g & k & -> & Hg & Hk).
    cbn [p_rt wgas]. apply Rmult_lt_compat_l; [|lra]. repeat apply Rmult_lt_0_compat; assumption.
Qed.
(** ... and those of the pure-cell theorems of a cell whose second material is absent *)
Example C40_ex_pure : pure 2 (1 / 1000) (gcell 7 0) 0.
Proof.
  constructor; rewrite ?g_total; try lia; try lra.
  - cbn. lra.
  - unfold fraction. rewrite g_total. cbn. lra.
  - rewrite g_part by lia. cbn. apply Rlt_bool_true. lra.
  - intros m Hm Hne. rewrite g_part by exact Hm. destruct m; [lia|]. cbn. apply Rlt_bool_false. lra.
Qed.

(** ** A material at or below the mass-fraction cutoff *)
Section Finds.
Variable nmat : nat.
Variable eos : nat -> seos.
Variable eos_offsets : nat -> nat.
Variable cutoff : R.
Variable o : opts.
Variable lin : nat -> (nat -> R) -> (nat -> R) -> (nat -> R).
Variable junk : R.
Notation after := (cell_after nmat eos eos_offsets cutoff o lin junk).
Notation part c := (takes_part nmat cutoff c).
Notation eosm := (eos_of eos eos_offsets).

(** the volume reported for it is its mass; its energy is its share of the cell's in (rho,e) and zero otherwise *)
Theorem C64_dropped_material_reports : forall c r md m, md <> P_T -> total nmat c <> 0 -> (m < nmat)%nat -> part c m = false ->
  f_vol (after md c r) m = f_mass c m /\ f_ie (after md c r) m = match md with RHO_E => c_sie c * f_mass c m | _ => 0 end.
Proof.
  intros c r md m Hmd Ht Hm Hp. destruct md; [| |congruence|].
  - rewrite after_rho_t. destruct (init_fun nmat eos_offsets cutoff 1 0 0 c r) as [[c1 r1] l] eqn:EI. apply init_view in EI.
    pose proof (solve_t_keeps eos lin c1 r1 l) as HK. destruct (solve_rho_t eos lin c1 r1 l) as [[r2 bb] si]. cbn [fst] in HK. destruct HK as [K1 K2].
    destruct (final_view nmat eos eos_offsets o c (part c) Ht c1 r2 (set_conv l bb) 0 0 1 si r2 (ready_of nmat eos_offsets cutoff _ _ _ _ _ _ _ _ bb EI K1 K2) eq_refl eq_refl) as (_ & _ & _ & _ & _ & _ & _ & _ & _ & V).
    destruct (V m Hm Hp) as [-> ->]. rewrite (ai_fvol _ _ _ _ _ _ _ _ _ _ EI), (ai_fie _ _ _ _ _ _ _ _ _ _ EI), !map_n_lt by exact Hm. split; [reflexivity|ring].
  - rewrite after_rho_p. destruct (init_fun nmat eos_offsets cutoff 0 0 1 c r) as [[c1 r1] l] eqn:EI. apply init_view in EI.
    pose proof (solve_p_keeps eos lin junk c1 r1 l) as HK. destruct (solve_rho_p eos lin junk c1 r1 l) as [[r2 bb] si]. cbn [fst] in HK. destruct HK as [K1 K2].
    destruct (final_view nmat eos eos_offsets o c (part c) Ht c1 r2 (set_conv l bb) 1 0 0 si r2 (ready_of nmat eos_offsets cutoff _ _ _ _ _ _ _ _ bb EI K1 K2) eq_refl eq_refl) as (_ & _ & _ & _ & _ & _ & _ & _ & _ & V).
    destruct (V m Hm Hp) as [-> ->]. rewrite (ai_fvol _ _ _ _ _ _ _ _ _ _ EI), (ai_fie _ _ _ _ _ _ _ _ _ _ EI), !map_n_lt by exact Hm. split; [reflexivity|ring].
  - rewrite after_rho_e. destruct (init_fun nmat eos_offsets cutoff 0 1 0 c r) as [[c1 r1] l] eqn:EI. apply init_view in EI.
    pose proof (solve_e_keeps eos lin c1 r1 l) as HK. destruct (solve_rho_e eos lin c1 r1 l) as [r2 bb]. cbn [fst] in HK. destruct HK as [K1 K2].
    destruct (final_view nmat eos eos_offsets o c (part c) Ht c1 r2 (set_conv l bb) 1 0 1 (c_sie c1) r2 (ready_of nmat eos_offsets cutoff _ _ _ _ _ _ _ _ bb EI K1 K2) eq_refl eq_refl) as (_ & _ & _ & _ & _ & _ & _ & _ & _ & V).
    destruct (V m Hm Hp) as [-> ->]. rewrite (ai_fvol _ _ _ _ _ _ _ _ _ _ EI), (ai_fie _ _ _ _ _ _ _ _ _ _ EI), !map_n_lt by exact Hm. split; [reflexivity|ring].
Qed.

(** one material above the cutoff, the rest of the mass below it *)
Record lone (c : cell) (m0 : nat) : Prop := {
  lo_lt : (m0 < nmat)%nat; lo_total : total nmat c <> 0; lo_spvol : c_spvol c <> 0; lo_frac : fraction nmat c m0 <> 0;
  lo_in : part c m0 = true; lo_only : forall m, (m < nmat)%nat -> m <> m0 -> part c m = false
}.
Lemma lone_np c m0 : lone c m0 -> length (parts (part c) nmat) = 1%nat /\ rank (part c) m0 = 0%nat /\ forall g, over_parts nmat (part c) g = g m0.
Proof.
  intros H. assert (forall x, In x (parts (part c) nmat) -> x = m0) as HX.
  { intros x Hx. apply filter_In in Hx. destruct Hx as [H1 H2]. apply in_seq in H1. destruct (Nat.eq_dec x m0) as [|Hne]; [assumption|]. rewrite (lo_only _ _ H x) in H2 by lia. discriminate. }
  assert (length (parts (part c) nmat) = 1%nat) as HN.
  { destruct (parts (part c) nmat) as [|a [|b l]] eqn:E; [|reflexivity|].
    - pose proof (rank_lt (part c) nmat m0 (lo_lt _ _ H) (lo_in _ _ H)) as HR. rewrite E in HR. cbn in HR. lia.
    - exfalso. pose proof (parts_nodup (part c) nmat) as HN. rewrite E in HN. rewrite (HX a), (HX b) in HN by (cbn; auto). inversion HN. apply H2. left. reflexivity. }
  pose proof (rank_lt (part c) nmat m0 (lo_lt _ _ H) (lo_in _ _ H)) as HR. assert (rank (part c) m0 = 0%nat) as HR0 by lia.
  split; [exact HN|]. split; [exact HR0|]. intros g.
  unfold over_parts.
  rewrite (rsum_ext _ _ (fun m => if (m =? m0)%nat then g m0 else 0)).
  2:{ intros m Hm. destruct (Nat.eqb_spec m m0) as [->|Hne]; [rewrite (lo_in _ _ H); reflexivity|rewrite (lo_only _ _ H m Hm Hne); reflexivity]. }
  pose proof (lo_lt _ _ H) as HL. clear -HL. induction nmat as [|k IH]; [lia|]. cbn [rsum]. destruct (Nat.eqb_spec k m0) as [->|Hne].
  - rewrite (rsum_ext _ _ (fun _ => 0)), rsum_zero; [ring|]. intros m Hm. destruct (Nat.eqb_spec m m0); [lia|reflexivity].
  - rewrite IH by lia. ring.
Qed.
Lemma lone_row c m0 t s p c1 r1 l : lone c m0 -> after_init nmat eos_offsets cutoff c t s p c1 r1 l ->
  eos (r_idxs r1 0%nat) = eosm m0 /\ r_rho r1 0%nat = / c_spvol c /\ r_vfrac r1 0%nat = fraction nmat c m0 /\ r_sie r1 0%nat = c_sie c * fraction nmat c m0 * s /\ r_temp r1 0%nat = c_temp c * ev2k * t.
Proof.
  intros H A. destruct (lone_np c m0 H) as (EN & ER & _).
  assert (nth 0 (parts (part c) nmat) 0%nat = m0) as EM. { pose proof (nth_rank (part c) nmat m0 (lo_lt _ _ H) (lo_in _ _ H)) as EM. rewrite ER in EM. exact EM. }
  rewrite (ai_idxs _ _ _ _ _ _ _ _ _ _ A), (ai_rho _ _ _ _ _ _ _ _ _ _ A), (ai_vf _ _ _ _ _ _ _ _ _ _ A), (ai_sie _ _ _ _ _ _ _ _ _ _ A), (ai_temp _ _ _ _ _ _ _ _ _ _ A), EM by lia.
  split; [reflexivity|]. pose proof (lo_spvol _ _ H). pose proof (lo_frac _ _ H). repeat split. field. split; assumption.
Qed.
(** (rho,e): the lookup is at the energy times the mass fraction, and temperature and pressure come out times the fraction *)
Theorem C64_rho_e_lone_material : forall c r m0, lone c m0 ->
  let f := fraction nmat c m0 in let T := t_re (eosm m0) (/ c_spvol c) (c_sie c * f) in
  c_temp (after RHO_E c r) = f * T / ev2k /\ c_press (after RHO_E c r) = f * p_rt (eosm m0) (/ c_spvol c) T /\
  f_vol (after RHO_E c r) m0 = f * c_vol c.
Proof.
  intros c r m0 H. cbv zeta. rewrite after_rho_e. destruct (init_fun nmat eos_offsets cutoff 0 1 0 c r) as [[c1 r1] l] eqn:EI. apply init_view in EI.
  destruct (lone_row c m0 _ _ _ _ _ _ H EI) as (R1 & R2 & R3 & R4 & R5). destruct (lone_np c m0 H) as (EN & ER & EO).
  unfold solve_rho_e. rewrite (ai_np _ _ _ _ _ _ _ _ _ _ EI), EN. cbn [Nat.ltb Nat.leb].
  rewrite R1, R2, R4. set (r2 := mkRow _ _ _ _ _ _ _).
  destruct (final_view nmat eos eos_offsets o c (part c) (lo_total _ _ H) c1 r2 (set_conv l true) 1 0 1 (c_sie c1) r2 (ready_of nmat eos_offsets cutoff _ _ _ _ _ _ _ r2 true EI eq_refl eq_refl) eq_refl eq_refl) as (AV & _ & V1 & V2 & V3 & _ & V5 & _).
  destruct (ai_same _ _ _ _ _ _ _ _ _ _ EI) as (S1 & S2 & S3 & S4 & S5 & S6).
  rewrite V3, V5, !EO by reflexivity. rewrite (av_vol _ _ _ _ _ _ _ _ AV m0 (lo_lt _ _ H) (lo_in _ _ H)), V1, S3. cbn [row_state q_T q_P q_vf]. rewrite ER. cbn [r2 r_temp r_press r_vfrac]. rewrite !upd_same, R3, Rmult_1_r.
  split; [f_equal; ring|split; ring].
Qed.
(** (rho,T): the cell's energy is the material's, not reduced, while only the material's share of it is reported *)
Theorem C64_rho_t_lone_material : forall c r m0, lone c m0 ->
  let e := e_rt (eosm m0) (/ c_spvol c) (c_temp c * ev2k) in
  c_sie (after RHO_T c r) = e /\ f_ie (after RHO_T c r) m0 = f_mass c m0 * e /\
  c_press (after RHO_T c r) = fraction nmat c m0 * p_rt (eosm m0) (/ c_spvol c) (c_temp c * ev2k).
Proof.
  intros c r m0 H. cbv zeta. rewrite after_rho_t. destruct (init_fun nmat eos_offsets cutoff 1 0 0 c r) as [[c1 r1] l] eqn:EI. apply init_view in EI.
  destruct (lone_row c m0 _ _ _ _ _ _ H EI) as (R1 & R2 & R3 & R4 & R5). destruct (lone_np c m0 H) as (EN & ER & EO).
  unfold solve_rho_t. rewrite (ai_np _ _ _ _ _ _ _ _ _ _ EI), EN. cbn [Nat.ltb Nat.leb].
  rewrite R1, R2, R5, Rmult_1_r. set (r2 := mkRow _ _ _ _ _ _ _). set (si := e_rt _ _ _).
  destruct (final_view nmat eos eos_offsets o c (part c) (lo_total _ _ H) c1 r2 (set_conv l true) 0 0 1 si r2 (ready_of nmat eos_offsets cutoff _ _ _ _ _ _ _ r2 true EI eq_refl eq_refl) eq_refl eq_refl) as (AV & _ & V1 & V2 & V3 & _ & _ & _ & V7 & _).
  rewrite V7, V3, EO by reflexivity. rewrite (av_ie _ _ _ _ _ _ _ _ AV m0 (lo_lt _ _ H) (lo_in _ _ H)). cbn [row_state q_e q_P q_vf]. rewrite ER. cbn [r2 r_sie r_press r_vfrac]. rewrite !upd_same, R3.
  split; [reflexivity|]. split; [reflexivity|ring].
Qed.

(** the per-material heat capacities are filled when frac_dpde is given, whether or not frac_cv is *)
Theorem C64_cv_not_filled_without_dpde : forall c r md m, total nmat c <> 0 -> has_dpde o = false -> f_cv (after md c r) m = f_cv c m.
Proof.
  intros c r md m Ht Hd. unfold cell_after, run_body.
  assert (forall t s p c1 r1 l, f_cv (final_fun nmat eos o t s p c1 r1 l) = f_cv c1) as HFin.
  { intros. unfold final_fun. cbv zeta. cbn [f_cv]. unfold do_frac_cv. rewrite Hd. reflexivity. }
  assert (forall t s p, f_cv (fst (fst (init_fun nmat eos_offsets cutoff t s p c r))) = f_cv c) as HI.
  { intros. unfold init_fun. cbv zeta. destruct (select _ _ _ _ _) as [[? ?] ?]. reflexivity. }
  destruct md; unfold body, body_rho_t, body_rho_p, body_p_t, body_rho_e, ph_init, ph_final, ph_pmax; cbn [fold_left].
  - specialize (HI 1 0 0). destruct (init_fun nmat eos_offsets cutoff 1 0 0 c r) as [[c1 r1] l]. cbn [fst] in HI. destruct (solve_rho_t _ _ _ _ _) as [[? ?] ?]. cbn [fst pmax_fun f_cv]. rewrite HFin. cbn [set_cell_sie f_cv]. rewrite HI. reflexivity.
  - specialize (HI 0 0 1). destruct (init_fun nmat eos_offsets cutoff 0 0 1 c r) as [[c1 r1] l]. cbn [fst] in HI. destruct (solve_rho_p _ _ _ _ _ _) as [[? ?] ?]. cbn [fst pmax_fun f_cv]. rewrite HFin. cbn [set_cell_sie f_cv]. rewrite HI. reflexivity.
  - destruct (pt_fun nmat eos eos_offsets c r) as [[c1 r1] l] eqn:E. cbn [fst pmax_fun f_cv]. rewrite HFin. unfold pt_fun in E. injection E as <- _ _. reflexivity.
  - specialize (HI 0 1 0). destruct (init_fun nmat eos_offsets cutoff 0 1 0 c r) as [[c1 r1] l]. cbn [fst] in HI. destruct (solve_rho_e _ _ _ _ _) as [? ?]. cbn [fst pmax_fun f_cv]. rewrite HFin. rewrite HI. reflexivity.
Qed.
End Finds.

(** A cell of 19 parts of one gas and 1 part of another, with a cutoff of 1/10 *)
Definition dcell : cell := gcell (19 / 20) (1 / 20).
Example C64_ex_lone : lone 2 (1 / 10) dcell 0.
Proof.
  unfold dcell. constructor; rewrite ?g_total; try lia; try lra.
  - cbn. lra.
  - unfold fraction. rewrite g_total. cbn. lra.
  - rewrite g_part by lia. cbn. apply Rlt_bool_true. lra.
  - intros m Hm Hne. rewrite g_part by exact Hm. destruct m; [lia|]. cbn. apply Rlt_bool_false. lra.
Qed.
Lemma d_frac : fraction 2 dcell 0 = 19 / 20. Proof. unfold fraction, dcell. rewrite g_total. cbn. field. Qed.
Lemma d_out : takes_part 2 (1 / 10) dcell 1 = false. Proof. apply (lo_only _ _ _ _ C64_ex_lone); lia. Qed.
Lemma d_total : total 2 dcell <> 0. Proof. unfold dcell. rewrite g_total. lra. Qed.

(** "the reported material volumes add up to the volume of the cell" *)
Theorem C64_volumes_sum_refuted : ~ (forall nmat eos eos_offsets cutoff o lin junk c r, 0 <= cutoff < 1 / INR nmat -> 0 < total nmat c ->
  rsum nmat (f_vol (cell_after nmat eos eos_offsets cutoff o lin junk RHO_E c r)) = c_vol c).
Proof.
  intros H. specialize (H 2%nat geos S (1 / 10) allopts gauss 0 dcell grow). cbn [INR] in H. specialize (H ltac:(lra)).
  assert (0 < total 2 dcell) as Ht by (unfold dcell; rewrite g_total; lra). specialize (H Ht). cbn [rsum] in H.
  destruct (C64_dropped_material_reports 2 geos S (1 / 10) allopts gauss 0 dcell grow RHO_E 1 ltac:(discriminate) d_total ltac:(lia) d_out) as [E1 _].
  destruct (C64_rho_e_lone_material 2 geos S (1 / 10) allopts gauss 0 dcell grow 0 C64_ex_lone) as (_ & _ & E2). rewrite E1, E2, d_frac in H. cbn in H. lra.
Qed.
(** "if every material, at the density and energy of the cell, has temperature T, then T is the temperature reported" *)
Theorem C64_common_temperature_refuted : ~ (forall nmat eos eos_offsets cutoff o lin junk c r T, 0 <= cutoff < 1 / INR nmat -> 0 < total nmat c ->
  (forall m, (m < nmat)%nat -> t_re (eos_of eos eos_offsets m) (/ c_spvol c) (c_sie c) = T) ->
  c_temp (cell_after nmat eos eos_offsets cutoff o lin junk RHO_E c r) = T / ev2k).
Proof.
  intros H. specialize (H 2%nat geos (fun _ => 1%nat) (1 / 10) allopts gauss 0 dcell grow 3). cbn [INR] in H. specialize (H ltac:(lra)).
  assert (0 < total 2 dcell) as Ht by (unfold dcell; rewrite g_total; lra). specialize (H Ht ltac:(intros; cbn; field)).
  destruct (C64_rho_e_lone_material 2 geos (fun _ => 1%nat) (1 / 10) allopts gauss 0 dcell grow 0 C64_ex_lone) as (E2 & _ & _). rewrite E2, d_frac in H. cbn in H.
  pose proof ev2k_pos as Hk. apply (f_equal (fun x => x * ev2k)) in H. unfold Rdiv in H. rewrite !Rmult_assoc, !Rinv_l, !Rmult_1_r in H by lra. lra.
Qed.
(** "the reported material energies add up to the energy of the cell" *)
Theorem C64_energies_sum_refuted : ~ (forall nmat eos eos_offsets cutoff o lin junk c r, 0 <= cutoff < 1 / INR nmat -> 0 < total nmat c ->
  let c' := cell_after nmat eos eos_offsets cutoff o lin junk RHO_T c r in rsum nmat (f_ie c') = total nmat c * c_sie c').
Proof.
  intros H. specialize (H 2%nat geos S (1 / 10) allopts gauss 0 dcell grow). cbn [INR] in H. specialize (H ltac:(lra)). cbv zeta in H.
  assert (total 2 dcell = 1) as Ht by (unfold dcell; rewrite g_total; lra). specialize (H ltac:(lra)). cbn [rsum] in H.
  destruct (C64_dropped_material_reports 2 geos S (1 / 10) allopts gauss 0 dcell grow RHO_T 1 ltac:(discriminate) d_total ltac:(lia) d_out) as [_ E1].
  destruct (C64_rho_t_lone_material 2 geos S (1 / 10) allopts gauss 0 dcell grow 0 C64_ex_lone) as (E2 & E3 & _). rewrite E1, E2, E3, Ht in H. cbn in H. pose proof ev2k_pos. lra.
Qed.
(** "frac_cv is filled when it is given": not unless frac_dpde is given too; and given frac_dpde without frac_cv, the
    null array is written *)
Theorem C64_requested_cv_refuted : ~ (forall nmat (eos : nat -> seos) eos_offsets cutoff o lin junk c r m, 0 <= cutoff < 1 / INR nmat -> 0 < total nmat c -> has_cv o = true -> (m < nmat)%nat ->
  takes_part nmat cutoff c m = true -> (forall i d T, 0 < cv_rt (eos i) d T) -> 0 < f_cv (cell_after nmat eos eos_offsets cutoff o lin junk RHO_T c r) m).
Proof.
  intros H. specialize (H 2%nat geos S (1 / 10) (mkOpts true false true) gauss 0 dcell grow 0%nat). cbn [INR] in H. specialize (H ltac:(lra)).
  assert (total 2 dcell = 1) as Ht by (unfold dcell; rewrite g_total; lra). specialize (H ltac:(lra) eq_refl ltac:(lia) (lo_in _ _ _ _ C64_ex_lone)).
  rewrite C64_cv_not_filled_without_dpde in H; [|lra|reflexivity]. cbn in H. assert (0 < 0); [|lra]. apply H.
  intros i d T. unfold geos. destruct i as [|[|i]]; cbn; lra.
Qed.
Theorem C64_null_cv_not_written_refuted : ~ (forall nmat eos eos_offsets cutoff o lin junk c r m, 0 <= cutoff < 1 / INR nmat -> 0 < total nmat c -> has_cv o = false ->
  f_cv (cell_after nmat eos eos_offsets cutoff o lin junk RHO_T c r) m = f_cv c m).
Proof.
  intros H. specialize (H 2%nat geos S (1 / 1000) (mkOpts true true false) gauss 0 (gcell 7 0) grow 0%nat). cbn [INR] in H. specialize (H ltac:(lra)).
  assert (total 2 (gcell 7 0) = 7) as Ht by (rewrite g_total; lra). specialize (H ltac:(lra) eq_refl).
  rewrite after_rho_t in H. destruct (init_fun 2 S (1 / 1000) 1 0 0 (gcell 7 0) grow) as [[c1 r1] l] eqn:EI. apply init_view in EI.
  pose proof C40_ex_pure as HP. unfold solve_rho_t in H. rewrite (ai_np _ _ _ _ _ _ _ _ _ _ EI), (pure_np _ _ _ _ HP) in H. cbn [Nat.ltb Nat.leb] in H.
  unfold final_fun, pmax_fun, set_cell_sie in H. cbv zeta in H. cbn [f_cv do_frac_cv has_dpde l_npte set_conv r_mats r_idxs r_rho r_temp] in H.
  rewrite (ai_np _ _ _ _ _ _ _ _ _ _ EI), (pure_np _ _ _ _ HP) in H. unfold scatter_to in H. cbn [seq fold_left] in H.
  destruct (pure_row 2 geos S (1 / 1000) _ _ _ _ _ _ _ _ HP EI) as (R1 & _).
  assert (r_mats r1 0%nat = 0%nat) as EM.
  { rewrite (ai_mats _ _ _ _ _ _ _ _ _ _ EI) by (rewrite (pure_np _ _ _ _ HP); lia). pose proof (nth_rank _ 2 0%nat (pu_lt _ _ _ _ HP) (pu_in _ _ _ _ HP)) as EM. rewrite (pure_rank _ _ _ _ HP) in EM. exact EM. }
  rewrite EM, R1, upd_same in H. cbn in H. pose proof ev2k_pos. lra.
Qed.

(** ** Stale scratch *)
(** eos_base.hpp:632-671, the default DensityEnergyFromPressureTemperature over the exact reals; [rho0] is the incoming
    rho, RhoPmin and MinimumDensity zero, EPS = 10 ulp of 1. The PORTABLE_REQUIRE/WARN are not modelled. *)
Definition default_de_pt (p : R -> R -> R) (e : R -> R -> R) (rhomax : R) (P T rho0 : R) : R * R :=
  let rhomin := 0 in
  let guess := if Rle_bool rho0 rhomin || Rle_bool rhomax rho0 then (if Rlt_bool rhomin 12 && Rlt_bool 12 rhomax then 12 else 1 / 2 * (rhomin + rhomax)) else rho0 in
  let rho := snd (@findRoot RArith (fun r => p r T) P guess rhomin rhomax EPS EPS rho0) in
  (rho, e rho T).
Lemma EPS_pos : 0 < EPS. Proof. unfold EPS; pose proof (bpow_gt_0 radix2 (-52)); lra. Qed.
Lemma sec_update_at_root (f : R -> R) (P x rm : R) : f x = P -> 0 < x < rm -> @sec_update RArith f P 0 rm EPS x = x.
Proof.
  intros Hx Hr. unfold sec_update. cbn [num add sub mul div ltb leb eqb ofQ absn isnan isinf RArith]. cbv zeta. rewrite Hx, (Rminus_diag_eq P P) by reflexivity.
  match goal with |- context [x - 0 / ?d] => replace (x - 0 / d) with x by (unfold Rdiv; ring) end.
  rewrite (Rlt_bool_false x 0) by lra. rewrite (Rlt_bool_false rm x) by lra. reflexivity.
Qed.
Lemma sec_loop_at_root k (f : R -> R) (P x rm : R) : f x = P -> 0 < x < rm -> @sec_loop RArith (S k) 0 f P 0 rm EPS x x = @SecStop RArith x x 0.
Proof.
  intros Hx Hr. cbn [sec_loop]. cbv zeta. rewrite (sec_update_at_root f P x rm Hx Hr).
  cbn [num add sub mul div ltb leb eqb ofQ absn isnan isinf RArith]. rewrite (Rminus_diag_eq x x) by reflexivity. rewrite Rabs_R0.
  replace (0 / (Rabs x + EPS)) with 0 by (unfold Rdiv; ring). cbn [orb]. rewrite (Rlt_bool_true 0 EPS) by exact EPS_pos. reflexivity.
Qed.
Lemma secant_at_root (f : R -> R) (P x rm : R) : f x = P -> 0 < x < rm -> @secant RArith f P x 0 rm EPS EPS = (SUCCESS, Some x).
Proof.
  intros Hx Hr. pose proof EPS_pos. unfold secant. assert (SECANT_NITER_MAX = S (Nat.pred SECANT_NITER_MAX)) as -> by reflexivity. rewrite (sec_loop_at_root _ f P x rm Hx Hr).
  cbn [num add sub mul div ltb leb eqb ofQ absn isnan isinf RArith].
  rewrite Hx, (Rminus_diag_eq P P), (Rminus_diag_eq x x) by reflexivity. rewrite Rabs_R0, (Rlt_bool_false EPS 0) by lra. replace (0 / (Rabs P + EPS)) with 0 by (unfold Rdiv; ring).
  rewrite Rabs_R0, (Rlt_bool_false EPS 0) by lra. reflexivity.
Qed.
Lemma findRoot_at_root (f : R -> R) (P x rm x0 : R) : f x = P -> 0 < x < rm -> EPS * (Rabs (f rm) + EPS) <= Rabs (f rm - P) -> EPS * (Rabs (f 0) + EPS) <= Rabs (f 0 - P) ->
  @findRoot RArith f P x 0 rm EPS EPS x0 = (SUCCESS, x).
Proof.
  intros Hx Hr H1 H2. pose proof EPS_pos as HE.
  assert (forall a b, EPS * (Rabs a + EPS) <= b -> Rlt_bool (b / (Rabs a + EPS)) EPS = false) as HQ.
  { intros a b H. apply Rlt_bool_false. pose proof (Rabs_pos a). apply Rmult_le_reg_r with (Rabs a + EPS); [lra|]. unfold Rdiv. rewrite Rmult_assoc, Rinv_l by lra. lra. }
  unfold findRoot. cbv zeta. cbn [num add sub mul div ltb leb eqb ofQ absn isnan isinf RArith]. rewrite !HQ by assumption.
  rewrite (Rle_bool_false rm x) by lra. rewrite (Rle_bool_false x 0) by lra.
  rewrite (secant_at_root f P x rm Hx Hr). reflexivity.
Qed.
(** a pressure with a van der Waals loop: p(rho) = rho (rho - 2)^2 at every temperature, up to density 4. Its value is 1 at
    density 1 and at density (3 + sqrt 5)/2 (and at (3 - sqrt 5)/2) *)
Definition looped : seos := mkSeos (mkMeos (fun _ => 0) 4 0 0 (fun _ => 16) (fun r T => T) (fun r _ => r * (r - 2) * (r - 2)) (fun r _ => r * (r - 2) * (r - 2)) (fun _ e => e) (fun _ _ => 1) (fun _ _ => 1)
   (fun P T r _ => default_de_pt (fun r _ => r * (r - 2) * (r - 2)) (fun _ T => T) 4 P T r) false false) (fun r T => r) (fun _ _ => 1) 300.
Definition lrow (x : R) : row := mkRow (fun _ => 0%nat) (fun _ => 0%nat) (fun _ => 0) (fun _ => 0) (fun _ => 0) (fun _ => 0) (fun _ => x).
(** "the outputs depend on the inputs only", (P,T) input *)
Theorem C64_p_t_stale_guess_refuted : ~ (forall nmat eos eos_offsets cutoff o lin junk c r1 r2, 0 < total nmat c ->
  c_spvol (cell_after nmat eos eos_offsets cutoff o lin junk P_T c r1) = c_spvol (cell_after nmat eos eos_offsets cutoff o lin junk P_T c r2)).
Proof.
  intros H. specialize (H 1%nat (fun _ => looped) S 0 allopts gauss 0 (gcell 1 0) (lrow 1) (lrow ((3 + sqrt 5) / 2))).
  assert (total 1 (gcell 1 0) = 1) as Ht by (unfold total; cbn; ring). specialize (H ltac:(lra)).
  assert (forall x, 0 < x < 4 -> x * (x - 2) * (x - 2) = 1 -> c_spvol (cell_after 1 (fun _ => looped) S 0 allopts gauss 0 P_T (gcell 1 0) (lrow x)) = 1 / x) as HX.
  { intros x Hx Hr. rewrite after_p_t. unfold pt_fun, pt_vol, pt_de. cbv zeta. cbn [pmax_fun final_fun set_cell_sie c_spvol]. cbn [rsum].
    unfold accessor. cbn [Nat.ltb Nat.leb]. cbn [se looped de_pt gcell c_press c_temp f_mass lrow r_rho r_sie]. unfold default_de_pt. cbv zeta.
    rewrite (Rle_bool_false x 0), (Rle_bool_false 4 x) by lra. cbn [orb].
    assert (0 < EPS < 1 / 100) as HE. { unfold EPS. pose proof (bpow_gt_0 radix2 (-52)). assert (bpow radix2 (-52) < bpow radix2 (-10)) by (apply bpow_lt; lia). cbn in *. lra. }
    set (F := @findRoot RArith _ _ _ _ _ _ _ _). assert (F = (SUCCESS, x)) as ->; [apply findRoot_at_root; [exact Hr|exact Hx| |]|].
    3:{ cbn [fst snd]. field. lra. }
    - replace (4 * (4 - 2) * (4 - 2)) with 16 by ring. rewrite !Rabs_right by lra. nra.
    - replace (0 * (0 - 2) * (0 - 2)) with 0 by ring. rewrite Rabs_R0. rewrite Rabs_left by lra. nra. }
  pose proof (sqrt_sqrt 5 ltac:(lra)) as S5. pose proof (sqrt_pos 5) as S0. assert (2 < sqrt 5 < 3) as Sb by (split; nra).
  rewrite (HX 1) in H by lra. rewrite (HX ((3 + sqrt 5) / 2)) in H; [|lra|nra].
  set (x := (3 + sqrt 5) / 2) in *. assert (5 / 2 < x) as Hx by (unfold x; lra). assert (1 / x < 1 / 1); [|lra].
  apply Rmult_lt_compat_l; [lra|]. apply Rinv_lt_contravar; lra.
Qed.
(** the same with (rho,T) input when no material is above the cutoff *)
Theorem C64_empty_cell_stale_density_refuted : ~ (forall nmat eos eos_offsets cutoff o lin junk c r1 r2, 0 < total nmat c ->
  c_sie (cell_after nmat eos eos_offsets cutoff o lin junk RHO_T c r1) = c_sie (cell_after nmat eos eos_offsets cutoff o lin junk RHO_T c r2)).
Proof.
  set (e1 := mkSeos (mkMeos (fun _ => 0) 4 0 0 (fun _ => 16) (fun r T => r) (fun r _ => r) (fun r _ => r) (fun _ e => e) (fun _ _ => 1) (fun _ _ => 1) (fun P T r _ => (r, r)) false false) (fun r T => r) (fun _ _ => 1) 300).
  intros H. specialize (H 2%nat (fun _ => e1) S (1 / 2) allopts gauss 0 (gcell 1 1) (lrow 1) (lrow 2)). specialize (H ltac:(rewrite g_total; lra)).
  assert (forall x, c_sie (cell_after 2 (fun _ => e1) S (1 / 2) allopts gauss 0 RHO_T (gcell 1 1) (lrow x)) = x) as HX.
  { intros x. rewrite after_rho_t. destruct (init_fun 2 S (1 / 2) 1 0 0 (gcell 1 1) (lrow x)) as [[c1 r1] l] eqn:EI. pose proof (init_view _ _ _ _ _ _ _ _ _ _ _ EI) as A.
    assert (length (parts (takes_part 2 (1 / 2) (gcell 1 1)) 2) = 0%nat) as EN.
    { unfold parts. cbn [seq filter]. rewrite !g_part by lia. cbn [Nat.eqb]. rewrite !Rlt_bool_false by lra. reflexivity. }
    unfold solve_rho_t. rewrite (ai_np _ _ _ _ _ _ _ _ _ _ A), EN. cbn [Nat.ltb Nat.leb]. unfold pmax_fun, final_fun, set_cell_sie. cbv zeta. cbn [c_sie set_conv l_npte]. rewrite (ai_np _ _ _ _ _ _ _ _ _ _ A), EN. cbn [rsum].
    rewrite Req_bool_false by lra. cbn [e_rt se e1]. rewrite Rplus_0_r.
    unfold init_fun in EI. destruct (select _ _ _ _ _) as [[n0 mats] idxs] eqn:ES. injection EI as _ ER EL.
    assert (n0 = 0%nat) as ->. { rewrite <- EL in A. pose proof (ai_np _ _ _ _ _ _ _ _ _ _ A) as E. cbn [l_npte] in E. rewrite EN in E. exact E. }
    rewrite <- ER. reflexivity. }
  rewrite !HX in H. lra.
Qed.
Print Assumptions C64_dropped_material_reports.
Print Assumptions C64_rho_e_lone_material.
Print Assumptions C64_rho_t_lone_material.
Print Assumptions C64_cv_not_filled_without_dpde.
Print Assumptions C64_volumes_sum_refuted.
Print Assumptions C64_common_temperature_refuted.
Print Assumptions C64_energies_sum_refuted.
Print Assumptions C64_requested_cv_refuted.
Print Assumptions C64_null_cv_not_written_refuted.
Print Assumptions C64_p_t_stale_guess_refuted.
Print Assumptions C64_empty_cell_stale_density_refuted.
