(** C79: what the EOSPAC class does that its callers would not expect; and the gas used as an instance for C78 and C79 *)
From Coq Require Import ZArith Reals List Bool Lra Lia.
From Flocq Require Import Core.
From Coquelicot Require Import Coquelicot.
From Verif Require Import Robust_Model Thermo_Spec Thermo_Tools Sesame_Model Sesame_Spec Sesame_Tables_Props Vector_Model Vector_Spec Eospac_Model Eospac_Spec Eospac_Props Eospac_Vector_Props.
Import ListNotations.
Local Open Scope R_scope.

(** ** A gas with gamma - 1 = 2/3 and cv = 1e7 *)
Definition Gas : material := mkMat gas (fun P T => P / (2 / 3 * 10 ^ 7 * T)) (fun r P => P / (2 / 3 * 10 ^ 7 * r)) (fun _ => 0) (fun r t => 10 ^ 7 * (ln t - 2 / 3 * ln r)).
Definition gas_other (f : R -> R -> R) : etable := mkET f (fun _ _ => 0) (fun _ _ => 0).
Definition gas_eos : eospac := mkEP gas_P gas_T gas_E (gas_other (fun P T => rhoPT Gas (10 ^ 10 * P) T)) (gas_other (fun r P => TofP Gas r (10 ^ 10 * P)))
  (gas_other (fun r e => P_of_E Gas r (10 ^ 10 * e) / 10 ^ 10)) (gas_other (fun r _ => Ecold Gas r / 10 ^ 10)) (gas_other (fun r t => Sof Gas r t / 10 ^ 10))
  true true 2 0 1 0.
Lemma tiny_milli : tiny <= / 1000.
Proof.
  unfold tiny. apply Rle_trans with (bpow radix2 (-10)); [apply bpow_le; lia|]. cbn [bpow radix2 radix_val]. apply Rinv_le; [lra|]. apply IZR_le. vm_compute. discriminate.
Qed.
Lemma gas_view : view Gas gas_eos.
Proof. constructor; try reflexivity. exact (proj1 C75_gas). Qed.
Lemma gas_right rho T : right_at Gas rho T.
Proof. exact (proj2 C75_gas rho T). Qed.
Lemma gas_inverts : inverts Gas.
Proof. split; intros; cbn [Sesame_Spec.P m_eos Gas gas rhoPT TofP]; field; lra. Qed.
Lemma gas_smooth Pr T : 0 < T -> smooth_density Gas Pr T.
Proof.
  intros H. unfold smooth_density. cbn [rhoPT Gas].
  assert (D1 : differentiable_pt_lim (fun u _ : R => u) Pr T 1 0) by (apply (differentiable_pt_lim_proj1_0 (fun u => u)); apply derivable_pt_lim_id).
  assert (D2 : differentiable_pt_lim (fun _ v : R => / v) Pr T 0 (- / T ^ 2)).
  { apply (differentiable_pt_lim_ext (fun u v => (fun w _ => / w) (((fun a b => b) : R -> R -> R) u v) u)); [exists (mkposreal 1 Rlt_0_1); reflexivity|].
    assert (DI : derivable_pt_lim Rinv T (- / T ^ 2)). { apply is_derive_Reals. eapply is_derive_eq; [apply (is_derive_inv (fun x : R => x) T 1); [apply is_derive_Reals, derivable_pt_lim_id|lra]|]. field. lra. }
    assert (K := differentiable_pt_lim_comp (fun w _ => / w) (fun _ b : R => b) (fun u _ : R => u) Pr T (- / T ^ 2) 0 0 1 1 0
      (differentiable_pt_lim_proj1_0 Rinv T Pr _ DI)).
    specialize (K (differentiable_pt_lim_ext _ _ _ _ _ _ ltac:(exists (mkposreal 1 Rlt_0_1); intros; apply Rmult_1_l) (lin_diff 1 Pr T)) D1).
    replace (- / T ^ 2 * 0 + 0 * 1) with 0 in K by ring. replace (- / T ^ 2 * 1 + 0 * 0) with (- / T ^ 2) in K by ring. exact K. }
  assert (K := differentiable_pt_lim_comp _ _ _ _ _ _ _ _ _ _ _ (prod_diff (/ (2 / 3 * 10 ^ 7)) Pr (/ T)) D1 D2). cbn beta in K.
  do 2 eexists. eapply differentiable_pt_lim_ext; [|exact K]. assert (HD : 0 < T) by exact H. exists (mkposreal _ HD). cbn [pos]. intros u v _ Hv.
  assert (v <> 0). { intros Z. subst v. rewrite Rminus_0_l, Rabs_Ropp, Rabs_pos_eq in Hv by lra. lra. }
  field. assumption.
Qed.
(** C78 at states of the gas *)
Example C78_gas_queries : forall u, E_T gas_eos u 2 300 = Some (3 * 10 ^ 9) /\ T_e gas_eos 2 (3 * 10 ^ 9) = 300 /\ P_T gas_eos 2 300 = 4 * 10 ^ 9 /\
  C_T gas_eos u 2 300 = Some (10 ^ 7) /\ B_T gas_eos u 2 300 = Some (5 / 3 * (4 * 10 ^ 9)) /\ 0 < E_t Gas 2 300 /\ tiny <= 2.
Proof.
  intros u. rewrite (q_E Gas _ gas_view), (q_T Gas _ gas_view), (q_P Gas _ gas_view), (q_C Gas _ gas_view), (q_B Gas _ gas_view). unfold modulus_value.
  cbn [Sesame_Spec.E Sesame_Spec.P Tm E_t E_r P_r P_t m_eos Gas gas]. rewrite !Rlt_bool_true by lra. cbn [andb]. rewrite !Rmax_left by lra.
  repeat split; try (f_equal; field); try field; try lra. assert (TY := tiny_milli); lra.
Qed.
Example C78_gas_derivatives : exists a b c d, PTDerivativesFromPreferred gas_eos 2 (3 * 10 ^ 9) (4 * 10 ^ 9) 300 = Some (a, b, c, d) /\
  is_PT_derivatives (rhoPT Gas) (fun P T => Sesame_Spec.E Gas (rhoPT Gas P T) T) (4 * 10 ^ 9) 300 a b c d.
Proof.
  assert (K := C78_PT_derivatives Gas gas_eos gas_view gas_inverts eq_refl (4 * 10 ^ 9) 300 ltac:(lra) (gas_right _ _) (gas_smooth (4 * 10 ^ 9) 300 ltac:(lra))).
  cbv zeta in K. replace (rhoPT Gas (4 * 10 ^ 9) 300) with 2 in K by (cbn [rhoPT Gas]; field). cbn [Sesame_Spec.E P_r m_eos Gas gas] in K |- *.
  replace (3 * 10 ^ 9) with (10 ^ 7 * 300) by ring. apply K. rewrite Rabs_pos_eq by lra. assert (TY := tiny_milli); lra.
Qed.
Example C78_gas_reference : forall u, let r := ValuesAtReferenceState gas_eos in
  r_rho r = 2 /\ r_temp r = 293 /\ E_T gas_eos u 2 293 = Some (r_sie r) /\ B_T gas_eos u 2 293 = Some (r_bmod r) /\ is_derive (fun t => / rhoPT Gas (Sesame_Spec.P Gas 2 293) t) 293 (r_dvdt r).
Proof.
  intros u r. assert (TY := tiny_milli).
  destruct (C78_reference_state Gas gas_eos gas_view u) as (A1 & A2 & A3 & A4 & A5 & A6 & A7 & A8).
  - apply gas_right.
  - cbn [E_t m_eos Gas gas]. lra.
  - cbn [normalDensity gas_eos]. lra.
  - cbn [normalDensity gas_eos P_r m_eos Gas gas]. rewrite Rabs_pos_eq by lra. lra.
  - exact gas_inverts.
  - apply gas_smooth. lra.
  - cbn [normalDensity gas_eos rhoPT Sesame_Spec.P m_eos Gas gas]. field.
  - exact (conj A1 (conj A2 (conj A3 (conj A6 A8)))).
Qed.
(** bulk modulus from (P, T) *)
Example C78_gas_fill : exists s', FillEos gas_eos (mkF true false false false false true) (mkS 0 300 0 (4 * 10 ^ 9) 0 0) = Some s' /\ s_rho s' = 2 /\ s_bmod s' = 5 / 3 * (4 * 10 ^ 9).
Proof.
  set (s := mkS 0 300 0 (4 * 10 ^ 9) 0 0).
  destruct (C78_fill Gas gas_eos gas_view s (mkF true false false false false true) s 2 300) as (s' & F & (V1 & _ & _ & _ & _ & V6) & _); try reflexivity; try discriminate.
  - replace 2 with (rhoPT Gas (s_press s) (s_temp s)) by (cbn [rhoPT Gas s s_press s_temp]; field). replace 300 with (s_temp s) by reflexivity. apply from_P_T; reflexivity.
  - exists s'. split; [exact F|]. split; [apply V1; reflexivity|]. specialize (V6 eq_refl). destruct (C78_gas_queries s) as (_ & _ & _ & _ & B & _). rewrite B in V6. inversion V6. reflexivity.
Qed.
(** three elements, arrays one after another *)
Example C78_gas_storage : storage 0 3 6 9 3 (scratch_size (Some BofE) 3) /\ storage 0 3 6 9 3 (modifier_scratch_size BofE 3) /\ good_trans (mkTr (Some 2) (Some (/ 2)) (Some 3)) /\ one_input (EcofD gas_eos) /\
  fill_storage [0; 3; 6; 9; 12; 15]%Z 18 3 (scratch_size None 3).
Proof.
  split; [|split; [|split; [|split]]].
  - repeat split; intros a [i [Hi ->]] [j [Hj E]]; unfold modifier_scratch_size, scratch_size, nbuffers, fill_nbuffers, fromE in *; lia.
  - repeat split; intros a [i [Hi ->]] [j [Hj E]]; unfold modifier_scratch_size, scratch_size, nbuffers, fill_nbuffers, fromE in *; lia.
  - split; cbn; lra.
  - intros r y z. reflexivity.
  - split; [repeat constructor|repeat constructor]; intros a [i [Hi ->]] [j [Hj E]]; unfold modifier_scratch_size, scratch_size, nbuffers, fill_nbuffers, fromE in *; lia.
Qed.

(** ** Refuted *)
Definition from_rho_e_flags : flags := mkF false true false true false false.
(** Refuted: FillEos asked for temperature and pressure from (rho, e) gives the right temperature but the pressure at whatever temperature the caller's
    variable held (eos_eospac.hpp:1482, 1508-1525: the looked-up temperature never reaches the array the other tables are evaluated at). *)
Theorem C79_fill_from_energy_refuted : exists s s', determines Gas from_rho_e_flags s 2 300 /\ FillEos gas_eos from_rho_e_flags s = Some s' /\
  s_temp s' = 300 /\ P_T gas_eos 2 300 = 4 * 10 ^ 9 /\ s_press s' = 0.
Proof.
  set (s := mkS 2 0 (3 * 10 ^ 9) 1 1 1). exists s. eexists. split.
  { replace 300 with (Tm Gas (s_rho s) (s_sie s)) by (cbn [Tm m_eos Gas gas s s_rho s_sie]; field). replace 2 with (s_rho s) by reflexivity. apply from_rho_e; reflexivity. }
  split; [reflexivity|]. cbn [s_temp s_press fill_rest cond_upd from_rho_e_flags f_sie f_press f_cv f_bmod upd_press upd_temp upd_sie s_rho s_sie s].
  rewrite (q_T Gas _ gas_view), (q_P Gas _ gas_view). cbn [Tm Sesame_Spec.P m_eos Gas gas PofRT gas_eos gas_P et]. unfold pressureFromSesame, temperatureToSesame. cbn [s_temp s].
  repeat split; field.
Qed.
(** Refuted: so scalar and vector FillEos disagree on the same request. *)
Theorem C79_fill_scalar_vector_refuted : exists (m : M) m' s', let st := st 0 1 2 3 4 5 in
  vfill gas_eos from_rho_e_flags 0 1 2 3 4 5 6 1 m = Some m' /\ FillEos gas_eos from_rho_e_flags (st m 0%nat) = Some s' /\
  s_press (st m' 0%nat) = 4 * 10 ^ 9 /\ s_press s' = 0.
Proof.
  set (m := (fun a => if Z.eqb a 0 then 2 else if Z.eqb a 1 then 0 else if Z.eqb a 2 then 3 * 10 ^ 9 else 1) : M).
  assert (SM : st 0 1 2 3 4 5 m 0 = mkS 2 0 (3 * 10 ^ 9) 1 1 1) by reflexivity.
  assert (DT : determines Gas from_rho_e_flags (st 0 1 2 3 4 5 m 0) 2 300).
  { rewrite SM. set (s := mkS 2 0 (3 * 10 ^ 9) 1 1 1). replace 300 with (Tm Gas (s_rho s) (s_sie s)) by (cbn [Tm m_eos Gas gas s s_rho s_sie]; field). replace 2 with (s_rho s) by reflexivity. apply from_rho_e; reflexivity. }
  destruct (C78_vector_fill Gas gas_eos gas_view 0 1 2 3 4 5 (st 0 1 2 3 4 5 m 0) from_rho_e_flags 6 1 m eq_refl) as (m' & E1 & E2 & _).
  - split; [repeat constructor|repeat constructor]; intros a [i [Hi ->]] [j [Hj E]]; unfold modifier_scratch_size, scratch_size, nbuffers, fill_nbuffers, fromE in *; lia.
  - do 3 eexists. exact DT.
  - destruct C79_fill_from_energy_refuted as (s & s' & D & F & _ & Q & Z).
    exists m, m'. cbv zeta. rewrite SM. eexists. split; [exact E1|]. split; [reflexivity|]. split.
    + specialize (E2 0%nat 2 300 ltac:(lia) DT). destruct E2 as (_ & _ & _ & E2 & _). rewrite <- (E2 eq_refl). exact Q.
    + cbn. unfold pressureFromSesame, temperatureToSesame. field.
Qed.
(** Refuted: vector FillEos asked only for the bulk modulus from (rho, T) overwrites the energies and pressures passed in (eos_eospac.hpp:563-586). *)
Theorem C79_fill_overwrites_refuted : exists (m : M) m', let o := mkF false false false false false true in
  vfill gas_eos o 0 1 2 3 4 5 6 1 m = Some m' /\ m 2%Z = 7 /\ m' 2%Z = 3 * 10 ^ 9 /\ m 3%Z = 8 /\ m' 3%Z = 4 * 10 ^ 9.
Proof.
  set (m := (fun a => if Z.eqb a 0 then 2 else if Z.eqb a 1 then 300 else if Z.eqb a 2 then 7 else 8) : M).
  exists m. cbv zeta. eexists. split; [reflexivity|]. split; [reflexivity|].
  unfold vfill, interp, loop, wr, rd, buf, i_f, cf, cx, cy. cbn -[pow Rmult Rplus Rdiv Rminus m]. cbn [m Z.eqb]. unfold sieFromSesame, pressureFromSesame.
  repeat split; cbn -[pow Rmult Rplus Rdiv Rminus]; field.
Qed.
(** Refuted: ShiftedEOS<EOSPAC> and FlooredEnergy<EOSPAC> advertise n cells of scratch for the vector minimum energy and write to the n cells after
    them (shifted_eos.hpp:242, floored_energy.hpp:224; there is no such overload with another base class that uses scratch). *)
Theorem C79_minimum_energy_scratch_refuted : exists n in1 out scratch a (m : M) m1 m2, storage in1 in1 out scratch n (modifier_scratch_size MinE n) /\
  shifted_vector gas_eos 1 MinE in1 in1 out scratch n m = Some m1 /\ floored_min gas_eos in1 out scratch n m = Some m2 /\
  ~ inarr out n a /\ ~ inarr scratch (modifier_scratch_size MinE n) a /\ m1 a <> m a /\ m2 a <> m a.
Proof.
  exists 2%nat, 0%Z, 2%Z, 4%Z, 6%Z, (fun _ => 1). do 2 eexists. split; [|split; [reflexivity|split; [reflexivity|]]].
  - repeat split; intros b [i [Hi ->]] [j [Hj E]]; unfold modifier_scratch_size, scratch_size, nbuffers, fill_nbuffers, fromE in *; lia.
  - split; [intros [j [Hj E]]; lia|]. split; [intros [j [Hj E]]; unfold modifier_scratch_size, scratch_size, nbuffers, fill_nbuffers, fromE in *; lia|].
    unfold loop, interp, wr, rd, buf, i_dy, i_dx, i_f, cf, cx, cy. cbn -[pow Rmult Rplus Rdiv Rminus]. split; lra.
Qed.
(** Refuted: the vector entropy does not check that the table has entropy: the scalar query stops with an error, the vector one returns numbers. *)
Theorem C79_vector_entropy_refuted : exists p (m : M) m', view Gas p /\ S_T p (rd m 0 0) (rd m 1 0) = None /\ vector p SofT 0 1 2 3 1 (mkTr None None None) m = Some m'.
Proof.
  exists (mkEP gas_P gas_T gas_E (RofPT gas_eos) (TofRP gas_eos) (PofRE gas_eos) (EcofD gas_eos) (SofRT gas_eos) false true 2 0 1 0), (fun _ => 1). eexists.
  split; [|split; reflexivity]. constructor; try reflexivity. exact (proj1 C75_gas).
Qed.
(** ** a material whose energy falls with temperature *)
Definition odd : material_eos := mkMEos (fun r t => 2 / 3 * 10 ^ 7 * r * t) (fun _ t => - 10 ^ 7 * t) (fun _ e => e / - 10 ^ 7)
  (fun r t => 2 / 3 * 10 ^ 7 * t) (fun r t => 2 / 3 * 10 ^ 7 * r) (fun _ _ => 0) (fun _ _ => - 10 ^ 7) (fun _ _ => 0) (fun _ _ => / - 10 ^ 7).
Definition odd_eos : eospac := mkEP gas_P gas_T
  (mkET (fun r t => Sesame_Spec.E odd r t / 10 ^ 10) (fun r t => E_r odd r t / 10 ^ 10) (fun r t => E_t odd r t / 10 ^ 10)) gas_P gas_P gas_P gas_P gas_P true true 2 0 1 0.
(** Refuted: where the energy does not increase with temperature the bulk modulus stored for the reference state is not the one the query gives there
    (the constructor, 1369-1376, has no such case; FillEos, 1546-1556, takes the isothermal modulus). *)
Theorem C79_reference_modulus_refuted : forall u, exists b, B_T odd_eos u (r_rho (ValuesAtReferenceState odd_eos)) (r_temp (ValuesAtReferenceState odd_eos)) = Some b /\
  0 < b /\ r_bmod (ValuesAtReferenceState odd_eos) <> b.
Proof.
  intros u. assert (TY := tiny_milli).
  exists (2 * (2 / 3 * 10 ^ 7 * 293)). split; [|split; [lra|]].
  - unfold B_T, FillEos, fill_rest, bmod_sesame. cbn -[pow Rmult Rplus Rdiv Rminus Rlt_bool Rmax]. unfold temperatureToSesame, bulkModulusFromSesame.
    rewrite (Rlt_bool_false 0 (- 10 ^ 7 / 10 ^ 10)) by lra. rewrite (Rlt_bool_true 0 2) by lra. cbn [andb]. rewrite !Rmax_left by (try rewrite Rmax_left; lra). f_equal. field.
  - unfold ValuesAtReferenceState. cbn -[pow Rmult Rplus Rdiv Rminus Rlt_bool Rmax ratio]. unfold temperatureToSesame, bulkModulusFromSesame.
    rewrite (ratio_abs _ (- 10 ^ 7 / 10 ^ 10)) by (rewrite Rabs_left by lra; lra). rewrite (ratio_pos _ 2) by lra.
    replace (2 / 3 * 10 ^ 7 * 2 / 10 ^ 10 / (- 10 ^ 7 / 10 ^ 10)) with (- (4 / 3)) by (field; lra). rewrite Rmax_left; lra.
Qed.
Print Assumptions C79_fill_from_energy_refuted.
Print Assumptions C79_fill_scalar_vector_refuted.
Print Assumptions C79_fill_overwrites_refuted.
Print Assumptions C79_minimum_energy_scratch_refuted.
Print Assumptions C79_vector_entropy_refuted.
Print Assumptions C79_reference_modulus_refuted.
