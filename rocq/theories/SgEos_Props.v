(** get_sg_eos: results of the parallel loop, one-cell results in the four input modes, and what fails. *)
From Coq Require Import ZArith Reals Bool List Lia Lra Permutation FunctionalExtensionality.
From Flocq Require Import Core.
From Verif Require Import Arith Robust_Model RootFinding_Model Thermo_Tools PTE_Driver_Model PTE_Model PTE_Tools PTE_Tools2 PTE_Init PTE_Witness PTE_RhoT_Props PTE_FixedT_Props PTE_FixedP_Props SgEos_Model SgEos_Spec SgEos_Proofs SgEos_View.
Import ListNotations.
Local Open Scope R_scope.

Section Sg.
Variable nmat : nat.
Variable eos : nat -> seos.
Variable eos_offsets : nat -> nat.
Variable cutoff : R.
Variable o : opts.
Variable lin : nat -> (nat -> R) -> (nat -> R) -> (nat -> R).
Variable junk : R.
Notation after := (cell_after nmat eos eos_offsets cutoff o lin junk).
Notation thebody := (body nmat eos eos_offsets cutoff o lin junk).
Notation eosm := (eos_of eos eos_offsets).
Notation part c := (takes_part nmat cutoff c).

(** the number of materials above the cutoff *)
Definition nparts (c : cell) : nat := length (parts (part c) nmat).
(** the cell has something to look up: a participating material, or -- (P,T) input -- EOS whose inversion does not
    depend on the guess that happens to lie in the scratch memory *)
Definition well_posed (md : smode) (c : cell) : Prop :=
  match md with
  | P_T => forall m P T r1 e1 r2 e2, (m < nmat)%nat -> de_pt (eosm m) P T r1 e1 = de_pt (eosm m) P T r2 e2
  | _ => exists m, (m < nmat)%nat /\ part c m = true
  end.
Lemma nparts_pos c : (exists m, (m < nmat)%nat /\ part c m = true) -> (1 <= nparts c)%nat.
Proof. intros (m & H1 & H2). pose proof (rank_lt (part c) nmat m H1 H2). unfold nparts. lia. Qed.

Lemma after_rho_t c r : after RHO_T c r =
  let '(c1, r1, l) := init_fun nmat eos_offsets cutoff 1 0 0 c r in let '(r2, b, si) := solve_rho_t eos lin c1 r1 l in
  pmax_fun (final_fun nmat eos o 0 0 1 (set_cell_sie si c1) r2 (set_conv l b)).
Proof.
  unfold cell_after, body, body_rho_t, run_body, ph_init, ph_final, ph_pmax. cbn [fold_left].
  destruct (init_fun nmat eos_offsets cutoff 1 0 0 c r) as [[c1 r1] l]. destruct (solve_rho_t eos lin c1 r1 l) as [[r2 b] si]. reflexivity.
Qed.
Lemma after_rho_p c r : after RHO_P c r =
  let '(c1, r1, l) := init_fun nmat eos_offsets cutoff 0 0 1 c r in let '(r2, b, si) := solve_rho_p eos lin junk c1 r1 l in
  pmax_fun (final_fun nmat eos o 1 0 0 (set_cell_sie si c1) r2 (set_conv l b)).
Proof.
  unfold cell_after, body, body_rho_p, run_body, ph_init, ph_final, ph_pmax. cbn [fold_left].
  destruct (init_fun nmat eos_offsets cutoff 0 0 1 c r) as [[c1 r1] l]. destruct (solve_rho_p eos lin junk c1 r1 l) as [[r2 b] si]. reflexivity.
Qed.
Lemma set_own_sie c : set_cell_sie (c_sie c) c = c. Proof. destruct c. reflexivity. Qed.
Lemma after_rho_e c r : after RHO_E c r =
  let '(c1, r1, l) := init_fun nmat eos_offsets cutoff 0 1 0 c r in let '(r2, b) := solve_rho_e eos lin c1 r1 l in
  pmax_fun (final_fun nmat eos o 1 0 1 (set_cell_sie (c_sie c1) c1) r2 (set_conv l b)).
Proof.
  unfold cell_after, body, body_rho_e, run_body, ph_init, ph_final, ph_pmax. cbn [fold_left].
  destruct (init_fun nmat eos_offsets cutoff 0 1 0 c r) as [[c1 r1] l]. destruct (solve_rho_e eos lin c1 r1 l) as [r2 b]. rewrite set_own_sie. reflexivity.
Qed.
Lemma after_p_t c r : after P_T c r =
  let '(c1, r1, l) := pt_fun nmat eos eos_offsets c r in pmax_fun (final_fun nmat eos o 0 0 0 (set_cell_sie (c_sie c1) c1) r1 l).
Proof.
  unfold cell_after, body, body_p_t, run_body, ph_final, ph_pmax. cbn [fold_left].
  destruct (pt_fun nmat eos eos_offsets c r) as [[c1 r1] l]. rewrite set_own_sie. reflexivity.
Qed.

(** ** The outputs of a cell do not depend on what its scratch row contained *)
Theorem C40_result_independent_of_scratch : forall md c r r', well_posed md c -> after md c r = after md c r'.
Proof.
  intros md c r r' W.
  assert (forall t s p, l_npte (snd (init_fun nmat eos_offsets cutoff t s p c r)) = nparts c) as Hnp.
  { intros t s p. destruct (init_fun nmat eos_offsets cutoff t s p c r) as [[c1 r1] l] eqn:E. apply init_view in E. exact (ai_np _ _ _ _ _ _ _ _ _ _ E). }
  destruct md; [rewrite !after_rho_t|rewrite !after_rho_p|rewrite !after_p_t|rewrite !after_rho_e].
  - pose proof (nparts_pos c W) as Hp. destruct (init_indep nmat eos_offsets cutoff 1 0 0 c r r') as (E1 & E2 & E3). specialize (Hnp 1 0 0).
    destruct (init_fun nmat eos_offsets cutoff 1 0 0 c r) as [[c1 r1] l]. destruct (init_fun nmat eos_offsets cutoff 1 0 0 c r') as [[c1' r1'] l']. cbn [fst snd] in *. subst c1' l'.
    destruct (solve_rho_t_indep eos lin c1 r1 r1' l ltac:(lia) E3) as (F1 & F2 & F3).
    destruct (solve_rho_t eos lin c1 r1 l) as [[r2 b] si]. destruct (solve_rho_t eos lin c1 r1' l) as [[r2' b'] si']. cbn [fst snd] in *. subst b' si'.
    rewrite (final_indep nmat eos o 0 0 1 _ r2 r2' (set_conv l b)) by exact F1. reflexivity.
  - pose proof (nparts_pos c W) as Hp. destruct (init_indep nmat eos_offsets cutoff 0 0 1 c r r') as (E1 & E2 & E3). specialize (Hnp 0 0 1).
    destruct (init_fun nmat eos_offsets cutoff 0 0 1 c r) as [[c1 r1] l]. destruct (init_fun nmat eos_offsets cutoff 0 0 1 c r') as [[c1' r1'] l']. cbn [fst snd] in *. subst c1' l'.
    destruct (solve_rho_p_indep eos lin junk c1 r1 r1' l ltac:(lia) E3) as (F1 & F2 & F3).
    destruct (solve_rho_p eos lin junk c1 r1 l) as [[r2 b] si]. destruct (solve_rho_p eos lin junk c1 r1' l) as [[r2' b'] si']. cbn [fst snd] in *. subst b' si'.
    rewrite (final_indep nmat eos o 1 0 0 _ r2 r2' (set_conv l b)) by exact F1. reflexivity.
  - destruct (pt_indep nmat eos eos_offsets c r r' W) as (E1 & E2 & E3).
    assert (l_npte (snd (pt_fun nmat eos eos_offsets c r)) = nmat) as Hn by reflexivity.
    destruct (pt_fun nmat eos eos_offsets c r) as [[c1 r1] l]. destruct (pt_fun nmat eos eos_offsets c r') as [[c1' r1'] l']. cbn [fst snd] in *. subst c1' l'.
    rewrite (final_indep nmat eos o 0 0 0 _ r1 r1' l) by (rewrite Hn; exact E3). reflexivity.
  - pose proof (nparts_pos c W) as Hp. destruct (init_indep nmat eos_offsets cutoff 0 1 0 c r r') as (E1 & E2 & E3). specialize (Hnp 0 1 0).
    destruct (init_fun nmat eos_offsets cutoff 0 1 0 c r) as [[c1 r1] l]. destruct (init_fun nmat eos_offsets cutoff 0 1 0 c r') as [[c1' r1'] l']. cbn [fst snd] in *. subst c1' l'.
    destruct (solve_rho_e_indep eos lin c1 r1 r1' l ltac:(lia) E3) as (F1 & F2).
    destruct (solve_rho_e eos lin c1 r1 l) as [r2 b]. destruct (solve_rho_e eos lin c1 r1' l) as [r2' b']. cbn [fst snd] in *. subst b'.
    rewrite (final_indep nmat eos o 1 0 1 _ r2 r2' (set_conv l b)) by exact F1. reflexivity.
Qed.

(** ** The parallel loop: every interleaving of the iterations' phases, every assignment of scratch rows *)
Theorem C40_schedule_independent : forall md offsets ncell c0 rows0 m r,
  (forall j k, (j < ncell)%nat -> (k < ncell)%nat -> offsets j - 1 = offsets k - 1 -> j = k)%nat ->
  (forall k, (k < ncell)%nat -> well_posed md (c0 (offsets k - 1)%nat)) ->
  msteps offsets (thebody md) (initial ncell c0 rows0) m -> finished m ->
  (forall k, (k < ncell)%nat -> m_cells m (offsets k - 1)%nat = after md (c0 (offsets k - 1)%nat) r) /\
  (forall i, (forall k, (k < ncell)%nat -> (offsets k - 1)%nat <> i) -> m_cells m i = c0 i).
Proof.
  intros md offsets ncell c0 rows0 m r Hinj Hw Hs [F1 F2].
  pose proof (minv_steps offsets ncell (thebody md) c0 Hinj _ _ (minv_initial offsets ncell (thebody md) c0 rows0) Hs) as HI.
  split; [|exact (mi_other _ _ _ _ _ HI)].
  intros k Hk. assert (In k (m_done m)) as Hd.
  { assert (In k (seq 0 ncell)) as H by (apply in_seq; lia). apply (Permutation_in _ (mi_perm _ _ _ _ _ HI)) in H. rewrite F1, F2 in H. exact H. }
  destruct (mi_done _ _ _ _ _ HI k Hd) as (r' & l & r0 & E). unfold cell_of in E.
  rewrite (C40_result_independent_of_scratch md _ r r0) by (apply Hw; exact Hk). unfold cell_after. rewrite E. reflexivity.
Qed.
(** ... and no execution is longer than one start, one end and one step per phase for each cell, and none gets stuck *)
Theorem C40_loop_terminates : forall md offsets ncell c0 rows0 m, msteps offsets (thebody md) (initial ncell c0 rows0) m ->
  (finished m \/ exists m', mstep offsets (thebody md) m m') /\
  forall ms, (forall k, mstep offsets (thebody md) (ms k) (ms (S k))) -> False.
Proof.
  intros md offsets ncell c0 rows0 m _. split.
  - destruct m as [c rw td rn dn]. destruct rn as [|[k t fs l] rn].
    + destruct td as [|k td]; [left; split; reflexivity|]. right. eexists. apply (m_start offsets (thebody md) c rw [] k td [] dn 0%nat). intros x [].
    + right. destruct fs as [|f fs].
      * eexists. apply (m_end offsets (thebody md) c rw td [] k t l rn dn).
      * destruct (f (c (cell_of offsets k), rw t, l)) as [[c' r'] l'] eqn:E. eexists. apply (m_phase offsets (thebody md) c rw td [] k t f fs l rn dn c' r' l' E).
  - intros ms H. assert (forall k, (remaining (thebody md) (ms k) + k = remaining (thebody md) (ms 0%nat))%nat) as HR.
    { induction k as [|k IH]; [lia|]. pose proof (remaining_step _ _ _ _ (H k)). lia. }
    specialize (HR (S (remaining (thebody md) (ms 0%nat)))). lia.
Qed.

(** ** One cell *)
Lemma ready_of c t s p c1 r1 l r2 b : after_init nmat eos_offsets cutoff c t s p c1 r1 l -> r_mats r2 = r_mats r1 -> r_idxs r2 = r_idxs r1 ->
  ready nmat eos_offsets c (part c) c1 r2 (set_conv l b).
Proof.
  intros A E1 E2. destruct (ai_same _ _ _ _ _ _ _ _ _ _ A) as (S1 & S2 & S3 & S4 & S5 & S6). constructor; cbn [set_conv l_npte l_mass_sum].
  - exact (ai_np _ _ _ _ _ _ _ _ _ _ A).
  - exact (ai_mass _ _ _ _ _ _ _ _ _ _ A).
  - exact (ai_fm _ _ _ _ _ _ _ _ _ _ A).
  - auto.
  - exact (ai_opt _ _ _ _ _ _ _ _ _ _ A).
  - rewrite E1. exact (ai_mats _ _ _ _ _ _ _ _ _ _ A).
  - rewrite E2. exact (ai_idxs _ _ _ _ _ _ _ _ _ _ A).
Qed.
Lemma solve_e_keeps c r l : r_mats (fst (solve_rho_e eos lin c r l)) = r_mats r /\ r_idxs (fst (solve_rho_e eos lin c r l)) = r_idxs r.
Proof. unfold solve_rho_e. destruct (1 <? l_npte l)%nat; [destruct (PTESolver _ _ _)|]; split; reflexivity. Qed.
Lemma solve_t_keeps c r l : r_mats (fst (fst (solve_rho_t eos lin c r l))) = r_mats r /\ r_idxs (fst (fst (solve_rho_t eos lin c r l))) = r_idxs r.
Proof. unfold solve_rho_t. destruct (1 <? l_npte l)%nat; [destruct (PTESolver _ _ _)|]; split; reflexivity. Qed.
Lemma solve_p_keeps c r l : r_mats (fst (fst (solve_rho_p eos lin junk c r l))) = r_mats r /\ r_idxs (fst (fst (solve_rho_p eos lin junk c r l))) = r_idxs r.
Proof. unfold solve_rho_p. destruct (1 <? l_npte l)%nat; [destruct (PTESolver _ _ _)|]; split; reflexivity. Qed.

(** (P,T) input: every material is looked up at the given pressure and temperature; volumes, energies and averages follow *)
Theorem C40_p_t_input : forall c r, total nmat c <> 0 ->
  let c' := after P_T c r in
  exists (guess : nat -> R * R) (q : mstate),
    (forall m, (m < nmat)%nat -> (q_rho q m, q_e q m) = de_pt (eosm m) (c_press c) (c_temp c * ev2k) (fst (guess m)) (snd (guess m)) /\ q_T q m = c_temp c * ev2k) /\
    averaged nmat eos eos_offsets o (fun _ => true) c c' q /\
    c_press c' = c_press c /\ c_temp c' = c_temp c /\
    c_vol c' = rsum nmat (fun m => f_mass c m / q_rho q m) /\ c_spvol c' = c_vol c' / total nmat c /\
    c_sie c' = rsum nmat (fun m => fraction nmat c m * q_e q m) /\
    (forall m, (m < nmat)%nat -> f_ie c' m = f_mass c m * q_e q m) /\
    (c_vol c' <> 0 -> (forall m, (m < nmat)%nat -> f_vol c' m = f_mass c m / q_rho q m) /\ rsum nmat (f_vol c') = c_vol c') /\
    rsum nmat (f_ie c') = total nmat c * c_sie c'.
Proof.
  intros c r Ht. cbv zeta. rewrite after_p_t. unfold pt_fun. cbv zeta. change (rsum nmat (f_mass c)) with (total nmat c).
  set (de := pt_de nmat eos eos_offsets c r). set (vtot := rsum nmat (pt_vol nmat eos eos_offsets c r)).
  set (c1 := mkCell _ _ _ _ _ _ _ _ _ _ _ _ _ _ _). set (r1 := mkRow _ _ _ _ _ _ _). set (l := mkLoc _ _ _ _).
  assert (parts (fun _ => true) nmat = seq 0 nmat) as EP.
  { unfold parts. clear. generalize (seq 0 nmat). induction l; cbn; [reflexivity|]. f_equal. assumption. }
  assert (forall m, (m <= nmat)%nat -> rank (fun _ => true) m = m) as ER.
  { intros m _. unfold rank, parts. assert (forall l : list nat, filter (fun _ => true) l = l) as -> by (clear; induction l; cbn; [reflexivity|]; f_equal; assumption). apply seq_length. }
  assert (ready nmat eos_offsets c (fun _ => true) c1 r1 l) as RD.
  { constructor; try (cbn; auto; fail).
    - cbn. rewrite EP, seq_length. reflexivity.
    - intros j Hj. rewrite EP, seq_length in Hj. rewrite EP, seq_nth by exact Hj. cbn. unfold map_nat. destruct (Nat.ltb_spec j nmat); [reflexivity|lia].
    - intros j Hj. rewrite EP, seq_length in Hj. rewrite EP, seq_nth by exact Hj. cbn. unfold pt_idxs, map_nat. destruct (Nat.ltb_spec j nmat); [reflexivity|lia]. }
  destruct (final_view nmat eos eos_offsets o c (fun _ => true) Ht c1 r1 l 0 0 0 (c_sie c1) r1 RD eq_refl eq_refl) as (AV & _ & V1 & V2 & _ & V4 & _ & V6 & V7 & _).
  set (c' := pmax_fun _) in *. set (q := row_state _ r1) in *.
  assert (forall m, (m < nmat)%nat -> q_rho q m = fst (de m) /\ q_e q m = snd (de m) /\ q_T q m = c_temp c * ev2k /\ q_vf q m = pt_vol nmat eos eos_offsets c r m / vtot) as Q.
  { intros m Hm. unfold q. cbn [row_state q_rho q_e q_T q_vf]. rewrite ER by lia. cbn [r1 r_rho r_sie r_temp r_vfrac]. rewrite !map_n_lt by exact Hm. auto. }
  assert (forall m, (m < nmat)%nat -> pt_vol nmat eos eos_offsets c r m = f_mass c m / q_rho q m) as HV.
  { intros m Hm. destruct (Q m Hm) as (-> & _). unfold pt_vol. fold de. change (rsum nmat (f_mass c)) with (total nmat c). unfold Rdiv.
    rewrite (Rmult_assoc (f_mass c m)), (Rmult_comm (/ total nmat c)), <- Rmult_assoc. rewrite Rmult_assoc, Rinv_l by exact Ht. ring. }
  exists (fun m => (r_rho r m, r_sie r m)), q.
  assert (forall m, (m < nmat)%nat -> f_ie c' m = f_mass c m * q_e q m) as HIE by (intros m Hm; apply (av_ie _ _ _ _ _ _ _ _ AV m Hm eq_refl)).
  assert (c_sie c' = rsum nmat (fun m => fraction nmat c m * q_e q m)) as HSI.
  { rewrite V7 by reflexivity. cbn [c1 c_sie]. apply rsum_ext. intros m Hm. rewrite !map_n_lt by exact Hm. destruct (Q m Hm) as (_ & -> & _). unfold fraction. fold de. ring. }
  split; [|split; [exact AV|split; [|split; [|split; [|split; [|split; [exact HSI|split; [exact HIE|split]]]]]]]].
  - intros m Hm. destruct (Q m Hm) as (-> & -> & -> & _). split; [|reflexivity]. cbn [fst snd]. rewrite <- surjective_pairing. unfold de, pt_de, accessor, pt_idxs, map_nat.
    destruct (Nat.ltb_spec m nmat); [reflexivity|lia].
  - apply V4. reflexivity.
  - apply V6. reflexivity.
  - rewrite V1. cbn [c1 c_vol]. apply rsum_ext. exact HV.
  - rewrite V2, V1. reflexivity.
  - rewrite V1. cbn [c1 c_vol]. intros Hv.
    assert (forall m, (m < nmat)%nat -> f_vol c' m = f_mass c m / q_rho q m) as HF.
    { intros m Hm. rewrite (av_vol _ _ _ _ _ _ _ _ AV m Hm eq_refl), V1. cbn [c1 c_vol]. destruct (Q m Hm) as (_ & _ & _ & ->). rewrite HV by exact Hm. unfold Rdiv at 1. rewrite Rmult_assoc, Rinv_l by exact Hv. ring. }
    split; [exact HF|]. unfold vtot. apply rsum_ext. intros m Hm. rewrite HF, HV by exact Hm. reflexivity.
  - rewrite HSI, <- rsum_scal. apply rsum_ext. intros m Hm. rewrite HIE by exact Hm. unfold fraction. field. exact Ht.
Qed.

(** A mixed cell the closure can work on: at least two participating materials, positive masses and density, and every
    participating material can take the cell density it is first given without leaving its EOS's range *)
Record mixed (c : cell) : Prop := {
  mx_np : (2 <= nparts c)%nat;
  mx_total : 0 < total nmat c;
  mx_spvol : 0 < c_spvol c;
  mx_share : tiny <= over_parts nmat (part c) (fraction nmat c);
  mx_frac : forall m, (m < nmat)%nat -> part c m = true -> 0 < fraction nmat c m /\ tiny <= fraction nmat c m / c_spvol c;
  mx_cap : forall m T, (m < nmat)%nat -> part c m = true -> tiny <= safety * ratio (fraction nmat c m / c_spvol c) (RhoPmin (eosm m) T)
}.
Section Mixed.
Variable c : cell.
Hypothesis M : mixed c.
Notation np := (length (parts (part c) nmat)).
Notation mat j := (nth j (parts (part c) nmat) 0%nat).
Variable t s p : R.
Variable c1 : cell.
Variable r1 : row.
Variable l : loc.
Hypothesis A : after_init nmat eos_offsets cutoff c t s p c1 r1 l.
Lemma acc_at j : (j < np)%nat -> accessor eos (l_npte l) (r_idxs r1) j = se (eosm (mat j)).
Proof.
  intros Hj. unfold accessor. rewrite (ai_np _ _ _ _ _ _ _ _ _ _ A). destruct (Nat.ltb_spec j np); [|lia].
  rewrite (ai_idxs _ _ _ _ _ _ _ _ _ _ A) by exact Hj. reflexivity.
Qed.
Lemma mass_at T P j : (j < np)%nat -> rho (pst_of (l_npte l) r1 T P) j * vfrac (pst_of (l_npte l) r1 T P) j = fraction nmat c (mat j) / c_spvol c.
Proof.
  intros Hj. cbn [pst_of rho vfrac]. unfold cut. rewrite (ai_np _ _ _ _ _ _ _ _ _ _ A). destruct (Nat.ltb_spec j np); [|lia].
  rewrite (ai_rho _ _ _ _ _ _ _ _ _ _ A), (ai_vf _ _ _ _ _ _ _ _ _ _ A) by exact Hj.
  destruct (parts_nth (part c) nmat j Hj) as [H1 H2]. destruct (mx_frac c M _ H1 H2) as [H3 _]. pose proof (mx_spvol c M). field. lra.
Qed.
Lemma good_mixed T P : good_input (l_npte l) (accessor eos (l_npte l) (r_idxs r1)) (l_vfrac_sum l) params0 (pst_of (l_npte l) r1 T P).
Proof.
  pose proof (ai_np _ _ _ _ _ _ _ _ _ _ A) as En. pose proof (mx_np c M) as Hn. unfold nparts in Hn. pose proof (mx_spvol c M) as Hs.
  constructor.
  - lia.
  - rewrite (ai_vs _ _ _ _ _ _ _ _ _ _ A). apply (mx_share c M).
  - intros j Hj. rewrite En in Hj. cbn [pst_of rho]. unfold cut. rewrite En. destruct (Nat.ltb_spec j np); [|lia].
    rewrite (ai_rho _ _ _ _ _ _ _ _ _ _ A) by exact Hj. destruct (parts_nth (part c) nmat j Hj) as [H1 H2]. destruct (mx_frac c M _ H1 H2) as [H3 _].
    apply Rdiv_lt_0_compat; [apply Rdiv_lt_0_compat|]; lra.
  - intros j Hj. rewrite En in Hj. cbn [pst_of vfrac]. unfold cut. rewrite En. destruct (Nat.ltb_spec j np); [|lia].
    rewrite (ai_vf _ _ _ _ _ _ _ _ _ _ A) by exact Hj. destruct (parts_nth (part c) nmat j Hj) as [H1 H2]. apply (mx_frac c M _ H1 H2).
  - rewrite (ai_vs _ _ _ _ _ _ _ _ _ _ A). unfold over_parts. rewrite <- rsum_parts, En. apply rsum_ext. intros j Hj. cbn [pst_of vfrac]. unfold cut. destruct (Nat.ltb_spec j np); [|lia].
    apply (ai_vf _ _ _ _ _ _ _ _ _ _ A). exact Hj.
  - intros j T' Hj. rewrite mass_at by (rewrite <- En; exact Hj). rewrite acc_at by (rewrite <- En; exact Hj). rewrite En in Hj.
    destruct (parts_nth (part c) nmat j Hj) as [H1 H2]. apply (mx_cap c M _ T' H1 H2).
  - cbn. lra.
  - cbn. lra.
Qed.
Lemma params_ok : 0 <= vfrac_safety_fac params0 < 1 /\ 0 < line_search_fac params0 <= 1 /\ pte_max_dpdv params0 <> 0 /\ 0 < derivative_eps params0.
Proof. cbn. repeat split; lra. Qed.
Lemma mixed_n : (2 <= l_npte l)%nat. Proof. rewrite (ai_np _ _ _ _ _ _ _ _ _ _ A). apply (mx_np c M). Qed.
Lemma mass_tiny T P j : (j < l_npte l)%nat -> tiny <= rho (pst_of (l_npte l) r1 T P) j * vfrac (pst_of (l_npte l) r1 T P) j.
Proof.
  intros Hj. rewrite (ai_np _ _ _ _ _ _ _ _ _ _ A) in Hj. rewrite mass_at by exact Hj. destruct (parts_nth (part c) nmat j Hj) as [H1 H2]. apply (mx_frac c M _ H1 H2).
Qed.
Lemma sum_parts_row f : rsum (l_npte l) f = over_parts nmat (part c) (fun m => f (rank (part c) m)).
Proof. rewrite (ai_np _ _ _ _ _ _ _ _ _ _ A). unfold over_parts. apply rsum_rank. Qed.
Lemma at_rank m : (m < nmat)%nat -> part c m = true -> (rank (part c) m < l_npte l)%nat /\ mat (rank (part c) m) = m.
Proof. intros H1 H2. rewrite (ai_np _ _ _ _ _ _ _ _ _ _ A). split; [apply rank_lt|apply nth_rank]; assumption. Qed.
End Mixed.

(** states of the participating materials that the caller can rely on, at temperature [T m] *)
Definition closed_state (c : cell) (q : mstate) : Prop := forall m, (m < nmat)%nat -> part c m = true ->
  0 < q_vf q m /\ 0 < q_rho q m /\ (tiny <= q_vf q m -> q_rho q m * q_vf q m = fraction nmat c m / c_spvol c) /\
  q_e q m = e_rt (eosm m) (q_rho q m) (q_T q m).

(** (rho,T) input, mixed cell *)
Theorem C40_rho_t_mixed : forall c r, mixed c -> exact_solver lin ->
  let c' := after RHO_T c r in
  exists q, averaged nmat eos eos_offsets o (part c) c c' q /\ closed_state c q /\
    over_parts nmat (part c) (q_vf q) = over_parts nmat (part c) (fraction nmat c) /\
    (forall m, (m < nmat)%nat -> part c m = true -> q_T q m = c_temp c * ev2k /\ q_P q m = p_rt (eosm m) (q_rho q m) (q_T q m)) /\
    c_temp c' = c_temp c /\ c_spvol c' = c_spvol c /\ c_vol c' = c_vol c /\
    c_press c' = over_parts nmat (part c) (fun m => q_P q m * q_vf q m) /\
    c_sie c' = over_parts nmat (part c) (fun m => fraction nmat c m * q_e q m) /\
    over_parts nmat (part c) (f_ie c') = total nmat c * c_sie c' /\
    over_parts nmat (part c) (f_vol c') = over_parts nmat (part c) (fraction nmat c) * c_vol c.
Proof.
  intros c r M HL. cbv zeta. rewrite after_rho_t. destruct (init_fun nmat eos_offsets cutoff 1 0 0 c r) as [[c1 r1] l] eqn:EI.
  apply init_view in EI. pose proof EI as A. pose proof (mx_total c M) as Ht. assert (total nmat c <> 0) as Ht' by lra.
  pose proof (solve_t_keeps c1 r1 l) as HK. destruct (solve_rho_t eos lin c1 r1 l) as [[r2 b] si] eqn:ES. cbn [fst] in HK. destruct HK as [K1 K2].
  destruct (final_view nmat eos eos_offsets o c (part c) Ht' c1 r2 (set_conv l b) 0 0 1 si r2 (ready_of _ _ _ _ _ _ _ _ b A K1 K2) eq_refl eq_refl) as (AV & _ & V1 & V2 & V3 & _ & _ & V6 & V7 & _).
  set (c' := pmax_fun _) in *. set (q := row_state _ r2) in *. exists q.
  pose proof (mixed_n c M _ _ _ _ _ _ A) as Hn. unfold solve_rho_t in ES. destruct (Nat.ltb_spec 1 (l_npte l)) as [_|]; [|lia].
  destruct (PTESolver _ _ _) as [st sf] eqn:EP. injection ES as E2 _ Esi.
  destruct params_ok as (P1 & P2 & P3 & P4).
  set (T0 := r_temp r1 0%nat) in *.
  assert (T0 = c_temp c * ev2k) as ET0. { unfold T0. rewrite (ai_temp _ _ _ _ _ _ _ _ _ _ A) by (rewrite (ai_np _ _ _ _ _ _ _ _ _ _ A) in Hn; lia). ring. }
  pose proof (good_mixed c M _ _ _ _ _ _ A T0 0) as G.
  pose proof (C34_FixedT_returned_state _ _ _ _ lin _ _ _ G P1 P2 (mass_tiny c M _ _ _ _ _ _ A T0 0) EP) as H34.
  pose proof (C46_FixedT_volumes_sum _ _ _ _ lin _ _ _ G P1 P2 HL P3 (mass_tiny c M _ _ _ _ _ _ A T0 0) EP) as H46.
  cbn [Teq pst_of] in H34.
  assert (forall j, (j < l_npte l)%nat -> r_vfrac r2 j = vfrac sf j /\ r_rho r2 j = rho sf j /\ r_temp r2 j = temp sf j /\ r_press r2 j = press sf j /\ r_sie r2 j = sie sf j) as HR.
  { intros j Hj. rewrite <- E2. cbn [row_of r_vfrac r_rho r_temp r_press r_sie]. rewrite !map_n_lt by exact Hj. auto. }
  assert (forall m, (m < nmat)%nat -> part c m = true -> 0 < q_vf q m /\ 0 < q_rho q m /\ (tiny <= q_vf q m -> q_rho q m * q_vf q m = fraction nmat c m / c_spvol c) /\
     q_T q m = c_temp c * ev2k /\ q_e q m = e_rt (eosm m) (q_rho q m) (q_T q m) /\ q_P q m = p_rt (eosm m) (q_rho q m) (q_T q m)) as Q.
  { intros m H1 H2. destruct (at_rank c _ _ _ _ _ _ A m H1 H2) as [R1 R2].
    unfold q. cbn [row_state q_vf q_rho q_T q_P q_e]. destruct (HR _ R1) as (-> & -> & -> & -> & ->).
    destruct (H34 _ R1) as (F1 & F2 & F3 & F4 & F5 & F6). rewrite F4. cbn [temp pst_of]. unfold cut. destruct (Nat.ltb_spec (rank (part c) m) (l_npte l)); [|lia].
    rewrite (ai_temp _ _ _ _ _ _ _ _ _ _ A) by (rewrite <- (ai_np _ _ _ _ _ _ _ _ _ _ A); exact R1). rewrite Rmult_1_r, <- ET0.
    rewrite (acc_at c _ _ _ _ _ _ A) in F5, F6 by (rewrite <- (ai_np _ _ _ _ _ _ _ _ _ _ A); exact R1). rewrite R2 in F5, F6.
    rewrite (mass_at c M _ _ _ _ _ _ A) in F3 by (rewrite <- (ai_np _ _ _ _ _ _ _ _ _ _ A); exact R1). rewrite R2 in F3. repeat split; assumption. }
  assert (over_parts nmat (part c) (q_vf q) = over_parts nmat (part c) (fraction nmat c)) as HV.
  { rewrite <- (ai_vs _ _ _ _ _ _ _ _ _ _ A), <- H46. rewrite (sum_parts_row c _ _ _ _ _ _ A). apply rsum_ext. intros m H1. destruct (part c m) eqn:E; [|reflexivity].
    destruct (at_rank c _ _ _ _ _ _ A m H1 E) as [R1 _]. unfold q; cbn [row_state q_vf]; apply (HR _ R1). }
  assert (c_sie c' = over_parts nmat (part c) (fun m => fraction nmat c m * q_e q m)) as HSi.
  { rewrite V7 by reflexivity. rewrite <- Esi, (sum_parts_row c _ _ _ _ _ _ A). apply rsum_ext. intros m H1. destruct (part c m) eqn:E; [|reflexivity].
    destruct (at_rank c _ _ _ _ _ _ A m H1 E) as [R1 R2]. rewrite (ai_mats _ _ _ _ _ _ _ _ _ _ A), R2 by (rewrite <- (ai_np _ _ _ _ _ _ _ _ _ _ A); exact R1).
    rewrite map_n_lt by exact R1. rewrite (ai_fm _ _ _ _ _ _ _ _ _ _ A), map_n_lt by exact H1. unfold q. cbn [row_state q_e]. destruct (HR _ R1) as (_ & _ & _ & _ & ->). ring. }
  destruct (ai_same _ _ _ _ _ _ _ _ _ _ A) as (S1 & S2 & S3 & S4 & S5 & S6).
  split; [exact AV|]. split; [|split; [exact HV|split; [|split; [|split; [|split; [|split; [|split; [exact HSi|split]]]]]]]].
  - intros m H1 H2. destruct (Q m H1 H2) as (Q1 & Q2 & Q3 & Q4 & Q5 & Q6). auto.
  - intros m H1 H2. destruct (Q m H1 H2) as (Q1 & Q2 & Q3 & Q4 & Q5 & Q6). auto.
  - apply V6. reflexivity.
  - rewrite V2. exact S4.
  - rewrite V1. exact S3.
  - apply V3. reflexivity.
  - rewrite HSi. unfold over_parts. rewrite <- rsum_scal. apply rsum_ext. intros m H1. destruct (part c m) eqn:E; [|ring].
    rewrite (av_ie _ _ _ _ _ _ _ _ AV m H1 E). unfold fraction. field. exact Ht'.
  - rewrite <- HV. unfold over_parts. rewrite <- rsum_scal_r. apply rsum_ext. intros m H1. destruct (part c m) eqn:E; [|ring].
    rewrite (av_vol _ _ _ _ _ _ _ _ AV m H1 E), V1, S3. ring.
Qed.

(** (rho,P) input, mixed cell *)
Theorem C40_rho_p_mixed : forall c r, mixed c ->
  let c' := after RHO_P c r in
  exists q T, 0 < T /\ averaged nmat eos eos_offsets o (part c) c c' q /\ closed_state c q /\
    (forall m, (m < nmat)%nat -> part c m = true -> q_T q m = T /\ q_P q m = p_rt (eosm m) (q_rho q m) T) /\
    c_press c' = c_press c /\ c_spvol c' = c_spvol c /\ c_vol c' = c_vol c /\
    c_temp c' = T * over_parts nmat (part c) (q_vf q) / ev2k /\
    c_sie c' = over_parts nmat (part c) (fun m => fraction nmat c m * q_e q m) /\
    over_parts nmat (part c) (f_ie c') = total nmat c * c_sie c' /\
    (exact_solver lin -> (forall m, (m < nmat)%nat -> part c m = true -> pref_e (eosm m) = false) ->
     (forall m d T1 T2, (m < nmat)%nat -> part c m = true -> 0 < d -> 0 < T1 < T2 -> p_rt (eosm m) d T1 < p_rt (eosm m) d T2) ->
     over_parts nmat (part c) (q_vf q) = over_parts nmat (part c) (fraction nmat c) /\
     over_parts nmat (part c) (f_vol c') = over_parts nmat (part c) (fraction nmat c) * c_vol c).
Proof.
  intros c r M. cbv zeta. rewrite after_rho_p. destruct (init_fun nmat eos_offsets cutoff 0 0 1 c r) as [[c1 r1] l] eqn:EI.
  apply init_view in EI. pose proof EI as A. pose proof (mx_total c M) as Ht. assert (total nmat c <> 0) as Ht' by lra.
  pose proof (solve_p_keeps c1 r1 l) as HK. destruct (solve_rho_p eos lin junk c1 r1 l) as [[r2 b] si] eqn:ES. cbn [fst] in HK. destruct HK as [K1 K2].
  destruct (final_view nmat eos eos_offsets o c (part c) Ht' c1 r2 (set_conv l b) 1 0 0 si r2 (ready_of _ _ _ _ _ _ _ _ b A K1 K2) eq_refl eq_refl) as (AV & _ & V1 & V2 & _ & V4 & V5 & _ & V7 & _).
  set (c' := pmax_fun _) in *. set (q := row_state _ r2) in *. exists q.
  pose proof (mixed_n c M _ _ _ _ _ _ A) as Hn. unfold solve_rho_p in ES. destruct (Nat.ltb_spec 1 (l_npte l)) as [_|]; [|lia].
  destruct (PTESolver _ _ _) as [st sf] eqn:EP. injection ES as E2 _ Esi.
  destruct params_ok as (P1 & P2 & P3 & P4).
  set (P0 := r_press r1 0%nat) in *.
  pose proof (good_mixed c M _ _ _ _ _ _ A 0 P0) as G.
  destruct (C34_FixedP_returned_state _ _ _ _ lin _ _ _ G P1 P2 (mass_tiny c M _ _ _ _ _ _ A 0 P0) EP) as (T & HT & H34). exists T. split; [exact HT|].
  pose proof (C46_FixedP_volumes_sum _ _ _ _ lin _ st sf G P1 P2 Hn) as H46.
  assert (forall j, (j < l_npte l)%nat -> r_vfrac r2 j = vfrac sf j /\ r_rho r2 j = rho sf j /\ r_temp r2 j = temp sf j /\ r_press r2 j = press sf j /\ r_sie r2 j = sie sf j) as HR.
  { intros j Hj. rewrite <- E2. cbn [row_of r_vfrac r_rho r_temp r_press r_sie]. rewrite !map_n_lt by exact Hj. auto. }
  assert (forall m, (m < nmat)%nat -> part c m = true -> 0 < q_vf q m /\ 0 < q_rho q m /\ (tiny <= q_vf q m -> q_rho q m * q_vf q m = fraction nmat c m / c_spvol c) /\
     q_T q m = T /\ q_e q m = e_rt (eosm m) (q_rho q m) T /\ q_P q m = p_rt (eosm m) (q_rho q m) T) as Q.
  { intros m H1 H2. destruct (at_rank c _ _ _ _ _ _ A m H1 H2) as [R1 R2].
    unfold q. cbn [row_state q_vf q_rho q_T q_P q_e]. destruct (HR _ R1) as (-> & -> & -> & -> & ->).
    destruct (H34 _ R1) as (F1 & F2 & F3 & F4 & F5 & F6).
    rewrite (acc_at c _ _ _ _ _ _ A) in F5, F6 by (rewrite <- (ai_np _ _ _ _ _ _ _ _ _ _ A); exact R1). rewrite R2 in F5, F6.
    rewrite (mass_at c M _ _ _ _ _ _ A) in F3 by (rewrite <- (ai_np _ _ _ _ _ _ _ _ _ _ A); exact R1). rewrite R2 in F3. repeat split; assumption. }
  assert (c_sie c' = over_parts nmat (part c) (fun m => fraction nmat c m * q_e q m)) as HSi.
  { rewrite V7 by reflexivity. rewrite <- Esi, (sum_parts_row c _ _ _ _ _ _ A). apply rsum_ext. intros m H1. destruct (part c m) eqn:E; [|reflexivity].
    destruct (at_rank c _ _ _ _ _ _ A m H1 E) as [R1 R2]. rewrite (ai_mats _ _ _ _ _ _ _ _ _ _ A), R2 by (rewrite <- (ai_np _ _ _ _ _ _ _ _ _ _ A); exact R1).
    rewrite map_n_lt by exact R1. rewrite (ai_fm _ _ _ _ _ _ _ _ _ _ A), map_n_lt by exact H1. unfold q. cbn [row_state q_e]. destruct (HR _ R1) as (_ & _ & _ & _ & ->). ring. }
  destruct (ai_same _ _ _ _ _ _ _ _ _ _ A) as (S1 & S2 & S3 & S4 & S5 & S6).
  split; [exact AV|]. split; [|split; [|split; [|split; [|split; [|split; [|split; [exact HSi|split]]]]]]].
  - intros m H1 H2. destruct (Q m H1 H2) as (Q1 & Q2 & Q3 & Q4 & Q5 & Q6). rewrite Q4. auto.
  - intros m H1 H2. destruct (Q m H1 H2) as (Q1 & Q2 & Q3 & Q4 & Q5 & Q6). auto.
  - apply V4. reflexivity.
  - rewrite V2. exact S4.
  - rewrite V1. exact S3.
  - rewrite V5 by reflexivity. f_equal. unfold over_parts. rewrite <- rsum_scal. apply rsum_ext. intros m H1. destruct (part c m) eqn:E; [|ring].
    destruct (Q m H1 E) as (_ & _ & _ & -> & _). reflexivity.
  - rewrite HSi. unfold over_parts. rewrite <- rsum_scal. apply rsum_ext. intros m H1. destruct (part c m) eqn:E; [|ring].
    rewrite (av_ie _ _ _ _ _ _ _ _ AV m H1 E). unfold fraction. field. exact Ht'.
  - intros HL Hpe Hinc.
    assert (over_parts nmat (part c) (q_vf q) = over_parts nmat (part c) (fraction nmat c)) as HV.
    { rewrite <- (ai_vs _ _ _ _ _ _ _ _ _ _ A). rewrite <- (H46 HL P3 P4).
      - rewrite (sum_parts_row c _ _ _ _ _ _ A). apply rsum_ext. intros m H1. destruct (part c m) eqn:E; [|reflexivity].
        destruct (at_rank c _ _ _ _ _ _ A m H1 E) as [R1 _]. unfold q; cbn [row_state q_vf]. apply (HR _ R1).
      - intros j Hj. rewrite (ai_np _ _ _ _ _ _ _ _ _ _ A) in Hj. rewrite (acc_at c _ _ _ _ _ _ A) by exact Hj. destruct (parts_nth (part c) nmat j Hj) as [H1 H2]. apply Hpe; assumption.
      - intros j d T1 T2 Hj. rewrite (ai_np _ _ _ _ _ _ _ _ _ _ A) in Hj. rewrite (acc_at c _ _ _ _ _ _ A) by exact Hj. destruct (parts_nth (part c) nmat j Hj) as [H1 H2]. apply Hinc; assumption.
      - apply (mass_tiny c M _ _ _ _ _ _ A).
      - exact EP. }
    split; [exact HV|]. rewrite <- HV. unfold over_parts. rewrite <- rsum_scal_r. apply rsum_ext. intros m H1. destruct (part c m) eqn:E; [|ring].
    rewrite (av_vol _ _ _ _ _ _ _ _ AV m H1 E), V1, S3. ring.
Qed.

(** (rho,e) input, mixed cell none of whose mass is below the cutoff *)
Definition rho_e_solve (c : cell) (r : row) : SolverStatus RArith * pst :=
  let '(c1, r1, l) := init_fun nmat eos_offsets cutoff 0 1 0 c r in
  @PTESolver RArith pst ratio (RhoT_system (l_npte l) (accessor eos (l_npte l) (r_idxs r1)) (l_vfrac_sum l) (c_sie c1) params0 lin) (pst_of (l_npte l) r1 0 0).
Theorem C40_rho_e_mixed : forall c r, mixed c -> over_parts nmat (part c) (fraction nmat c) = 1 ->
  (forall m, (m < nmat)%nat -> part c m = true -> pref_p (eosm m) = false) ->
  let c' := after RHO_E c r in
  exists q T, 0 < T /\ averaged nmat eos eos_offsets o (part c) c c' q /\ closed_state c q /\
    (forall m, (m < nmat)%nat -> part c m = true -> q_T q m = T /\ q_P q m = if pref_e (eosm m) then p_re (eosm m) (q_rho q m) (q_e q m) else p_rt (eosm m) (q_rho q m) T) /\
    over_parts nmat (part c) (q_vf q) = 1 /\ over_parts nmat (part c) (f_vol c') = c_vol c /\
    c_sie c' = c_sie c /\ c_spvol c' = c_spvol c /\ c_vol c' = c_vol c /\
    c_temp c' = T / ev2k /\ c_press c' = over_parts nmat (part c) (fun m => q_P q m * q_vf q m) /\
    (converged (fst (rho_e_solve c r)) = true -> slow_convergence_detected (fst (rho_e_solve c r)) = false ->
     Rabs (over_parts nmat (part c) (f_ie c') - total nmat c * c_sie c) < 1 / 1000000 * Rmax (total nmat c * Rabs (c_sie c)) (1 / 100000000000000 * (total nmat c * c_spvol c))).
Proof.
  intros c r M HF Hpp. cbv zeta. rewrite after_rho_e. unfold rho_e_solve. destruct (init_fun nmat eos_offsets cutoff 0 1 0 c r) as [[c1 r1] l] eqn:EI.
  apply init_view in EI. pose proof EI as A. pose proof (mx_total c M) as Ht. assert (total nmat c <> 0) as Ht' by lra. pose proof (mx_spvol c M) as Hsv.
  pose proof (solve_e_keeps c1 r1 l) as HK. destruct (solve_rho_e eos lin c1 r1 l) as [r2 b] eqn:ES. cbn [fst] in HK. destruct HK as [K1 K2].
  destruct (final_view nmat eos eos_offsets o c (part c) Ht' c1 r2 (set_conv l b) 1 0 1 (c_sie c1) r2 (ready_of _ _ _ _ _ _ _ _ b A K1 K2) eq_refl eq_refl) as (AV & _ & V1 & V2 & V3 & _ & V5 & _ & V7 & _).
  set (c' := pmax_fun _) in *. set (q := row_state _ r2) in *. exists q.
  pose proof (mixed_n c M _ _ _ _ _ _ A) as Hn. unfold solve_rho_e in ES. destruct (Nat.ltb_spec 1 (l_npte l)) as [_|]; [|lia].
  destruct (PTESolver _ _ _) as [st sf] eqn:EP. injection ES as E2 _.
  destruct params_ok as (P1 & P2 & P3 & P4).
  pose proof (good_mixed c M _ _ _ _ _ _ A 0 0) as G. pose proof (ai_vs _ _ _ _ _ _ _ _ _ _ A) as Evs. rewrite HF in Evs. rewrite Evs in G, EP.
  destruct (ai_same _ _ _ _ _ _ _ _ _ _ A) as (S1 & S2 & S3 & S4 & S5 & S6).
  assert (good_params (l_npte l) params0) as GP by (split; [exact P1|split; [exact P2|exact I]]).
  assert (pressure_looked_up (l_npte l) (accessor eos (l_npte l) (r_idxs r1)) (pst_of (l_npte l) r1 0 0)) as PL.
  { intros j Hj. left. rewrite (ai_np _ _ _ _ _ _ _ _ _ _ A) in Hj. rewrite (acc_at c _ _ _ _ _ _ A) by exact Hj. destruct (parts_nth (part c) nmat j Hj) as [H1 H2]. apply Hpp; assumption. }
  destruct (C34_RhoT_returned_state _ _ _ _ lin _ _ _ G GP PL (mass_tiny c M _ _ _ _ _ _ A 0 0) EP) as (HV & H34 & T & HT & H35). exists T. split; [exact HT|].
  pose proof (C37_RhoT_converged_means_equilibrium _ _ _ _ lin _ _ _ G GP PL (mass_tiny c M _ _ _ _ _ _ A 0 0) EP) as H37.
  assert (forall j, (j < l_npte l)%nat -> r_vfrac r2 j = vfrac sf j /\ r_rho r2 j = rho sf j /\ r_temp r2 j = temp sf j /\ r_press r2 j = press sf j /\ r_sie r2 j = sie sf j) as HR.
  { intros j Hj. rewrite <- E2. cbn [row_of r_vfrac r_rho r_temp r_press r_sie]. rewrite !map_n_lt by exact Hj. auto. }
  assert (forall m, (m < nmat)%nat -> part c m = true -> 0 < q_vf q m /\ 0 < q_rho q m /\ (tiny <= q_vf q m -> q_rho q m * q_vf q m = fraction nmat c m / c_spvol c) /\
     q_T q m = T /\ q_e q m = e_rt (eosm m) (q_rho q m) T /\ q_P q m = if pref_e (eosm m) then p_re (eosm m) (q_rho q m) (q_e q m) else p_rt (eosm m) (q_rho q m) T) as Q.
  { intros m H1 H2. destruct (at_rank c _ _ _ _ _ _ A m H1 H2) as [R1 R2].
    unfold q. cbn [row_state q_vf q_rho q_T q_P q_e]. destruct (HR _ R1) as (-> & -> & -> & -> & ->).
    destruct (H34 _ R1) as (F1 & F2 & F3). destruct (H35 _ R1) as (F4 & F5 & F6). unfold GetPressureFromPreferred in F6.
    rewrite (acc_at c _ _ _ _ _ _ A) in F5, F6 by (rewrite <- (ai_np _ _ _ _ _ _ _ _ _ _ A); exact R1). rewrite R2 in F5, F6.
    rewrite (mass_at c M _ _ _ _ _ _ A) in F3 by (rewrite <- (ai_np _ _ _ _ _ _ _ _ _ _ A); exact R1). rewrite R2 in F3. repeat split; assumption. }
  assert (over_parts nmat (part c) (q_vf q) = 1) as HV1.
  { rewrite <- HV, (sum_parts_row c _ _ _ _ _ _ A). apply rsum_ext. intros m H1. destruct (part c m) eqn:E; [|reflexivity].
    destruct (at_rank c _ _ _ _ _ _ A m H1 E) as [R1 _]. unfold q; cbn [row_state q_vf]. apply (HR _ R1). }
  split; [exact AV|]. split; [|split; [|split; [exact HV1|split; [|split; [|split; [|split; [|split; [|split]]]]]]]].
  - intros m H1 H2. destruct (Q m H1 H2) as (Q1 & Q2 & Q3 & Q4 & Q5 & Q6). rewrite Q4. auto.
  - intros m H1 H2. destruct (Q m H1 H2) as (Q1 & Q2 & Q3 & Q4 & Q5 & Q6). auto.
  - rewrite <- (Rmult_1_l (c_vol c)), <- HV1. unfold over_parts. rewrite <- rsum_scal_r. apply rsum_ext. intros m H1. destruct (part c m) eqn:E; [|ring].
    rewrite (av_vol _ _ _ _ _ _ _ _ AV m H1 E), V1, S3. ring.
  - rewrite V7 by reflexivity. exact S5.
  - rewrite V2. exact S4.
  - rewrite V1. exact S3.
  - rewrite V5 by reflexivity. f_equal. rewrite <- (Rmult_1_r T), <- HV1. unfold over_parts. rewrite <- rsum_scal. apply rsum_ext. intros m H1. destruct (part c m) eqn:E; [|ring].
    destruct (Q m H1 E) as (_ & _ & _ & -> & _). reflexivity.
  - apply V3. reflexivity.
  - cbn [fst]. intros HC HS. destruct (H37 HC HS) as [HE _]. rewrite S5 in HE.
    assert (forall g, rsum (l_npte l) (fun j => rho (pst_of (l_npte l) r1 0 0) j * vfrac (pst_of (l_npte l) r1 0 0) j * g j)
              = over_parts nmat (part c) (fun m => fraction nmat c m * g (rank (part c) m)) / c_spvol c) as HM.
    { intros g. rewrite (sum_parts_row c _ _ _ _ _ _ A). unfold over_parts, Rdiv. rewrite <- rsum_scal_r. apply rsum_ext. intros m H1. destruct (part c m) eqn:E; [|ring].
      destruct (at_rank c _ _ _ _ _ _ A m H1 E) as [R1 R2]. rewrite (mass_at c M _ _ _ _ _ _ A) by (rewrite <- (ai_np _ _ _ _ _ _ _ _ _ _ A); exact R1). rewrite R2. field. lra. }
    assert (rsum (l_npte l) (fun j => rho (pst_of (l_npte l) r1 0 0) j * vfrac (pst_of (l_npte l) r1 0 0) j) = / c_spvol c) as HM1.
    { rewrite (rsum_ext _ _ (fun j => rho (pst_of (l_npte l) r1 0 0) j * vfrac (pst_of (l_npte l) r1 0 0) j * 1)) by (intros; ring). rewrite HM.
      unfold over_parts. rewrite (rsum_ext _ _ (fun m => if part c m then fraction nmat c m else 0)) by (intros m _; destruct (part c m); ring).
      fold (over_parts nmat (part c) (fraction nmat c)). rewrite HF. field. lra. }
    rewrite HM, HM1 in HE.
    assert (over_parts nmat (part c) (f_ie c') = total nmat c * over_parts nmat (part c) (fun m => fraction nmat c m * sie sf (rank (part c) m))) as HIE.
    { unfold over_parts. rewrite <- rsum_scal. apply rsum_ext. intros m H1. destruct (part c m) eqn:E; [|ring].
      rewrite (av_ie _ _ _ _ _ _ _ _ AV m H1 E). destruct (at_rank c _ _ _ _ _ _ A m H1 E) as [R1 _]. unfold q. cbn [row_state q_e]. destruct (HR _ R1) as (_ & _ & _ & _ & ->). unfold fraction. field. exact Ht'. }
    rewrite HIE. set (X := over_parts nmat (part c) (fun m => fraction nmat c m * sie sf (rank (part c) m))) in *.
    set (U := total nmat c * c_spvol c). assert (0 < U) as HU by (apply Rmult_lt_0_compat; assumption).
    replace (total nmat c * X - total nmat c * c_sie c) with (- (U * (/ c_spvol c * c_sie c - X / c_spvol c))) by (unfold U; field; lra).
    rewrite Rabs_Ropp, Rabs_mult, (Rabs_right U) by lra.
    replace (Rmax (total nmat c * Rabs (c_sie c)) (1 / 100000000000000 * U)) with (U * Rmax (Rabs (/ c_spvol c * c_sie c)) (1 / 100000000000000)).
    2:{ rewrite <- RmaxRmult by lra. rewrite Rabs_mult, (Rabs_right (/ c_spvol c)) by (apply Rle_ge, Rlt_le, Rinv_0_lt_compat; lra). f_equal; [unfold U; field; lra|ring]. }
    change (pte_rel_tolerance_e params0) with (1 / 1000000) in HE.
    replace (1 / 1000000 * (U * Rmax (Rabs (/ c_spvol c * c_sie c)) (1 / 100000000000000))) with (U * (1 / 1000000 * Rmax (Rabs (/ c_spvol c * c_sie c)) (1 / 100000000000000))) by ring.
    apply Rmult_lt_compat_l; assumption.
Qed.

(** ** Cells with one material above the cutoff, which holds all the mass *)
Record pure (c : cell) (m0 : nat) : Prop := {
  pu_lt : (m0 < nmat)%nat;
  pu_total : total nmat c <> 0;
  pu_spvol : c_spvol c <> 0;
  pu_frac : fraction nmat c m0 = 1;
  pu_in : part c m0 = true;
  pu_only : forall m, (m < nmat)%nat -> m <> m0 -> part c m = false
}.
Lemma pure_rank c m0 : pure c m0 -> rank (part c) m0 = 0%nat.
Proof.
  intros H. unfold rank, parts. destruct (filter (part c) (seq 0 m0)) as [|a l] eqn:E; [reflexivity|exfalso].
  assert (In a (filter (part c) (seq 0 m0))) as HI by (rewrite E; left; reflexivity). apply filter_In in HI. destruct HI as [H1 H2]. apply in_seq in H1.
  pose proof (pu_lt _ _ H). rewrite (pu_only _ _ H a) in H2 by lia. discriminate.
Qed.
Lemma pure_over c m0 g : pure c m0 -> over_parts nmat (part c) g = g m0.
Proof.
  intros H. unfold over_parts. rewrite (rsum_ext _ _ (fun m => if (m =? m0)%nat then g m0 else 0)).
  2:{ intros m Hm. destruct (Nat.eqb_spec m m0) as [->|Hne]; [rewrite (pu_in _ _ H); reflexivity|rewrite (pu_only _ _ H m Hm Hne); reflexivity]. }
  pose proof (pu_lt _ _ H) as HL. clear H. induction nmat as [|k IH]; [lia|]. cbn [rsum]. destruct (Nat.eqb_spec k m0) as [->|Hne].
  - rewrite (rsum_ext _ _ (fun _ => 0)), rsum_zero; [ring|]. intros m Hm. destruct (Nat.eqb_spec m m0); [lia|reflexivity].
  - rewrite IH by lia. ring.
Qed.
Lemma pure_np c m0 : pure c m0 -> length (parts (part c) nmat) = 1%nat.
Proof.
  intros H. destruct (parts (part c) nmat) as [|a [|b l]] eqn:E; [|reflexivity|].
  - pose proof (rank_lt (part c) nmat m0 (pu_lt _ _ H) (pu_in _ _ H)) as HR. rewrite E in HR. cbn in HR. lia.
  - exfalso. pose proof (parts_nodup (part c) nmat) as HN. rewrite E in HN.
    assert (forall x, In x (parts (part c) nmat) -> x = m0) as HX.
    { intros x Hx. apply filter_In in Hx. destruct Hx as [H1 H2]. apply in_seq in H1. destruct (Nat.eq_dec x m0) as [|Hne]; [assumption|]. rewrite (pu_only _ _ H x) in H2 by lia. discriminate. }
    rewrite E in HX. rewrite (HX a), (HX b) in HN by (cbn; auto). inversion HN. apply H2. left. reflexivity.
Qed.

(** the state of the one material *)
Record pure_outputs (c c' : cell) (m0 : nat) (T P e : R) : Prop := {
  po_vol : c_vol c' = c_vol c; po_spvol : c_spvol c' = c_spvol c;
  po_pmax : c_pmax c' = Rmax (c_pmax c) (c_press c');
  po_bmod : c_bmod c' = bmod_rt (eosm m0) (/ c_spvol c) T;
  po_dpde : c_dpde c' = gru_rt (eosm m0) (/ c_spvol c) T;
  po_cv : c_cv c' = ev2k * cv_rt (eosm m0) (/ c_spvol c) T;
  po_fmass : forall m, f_mass c' m = f_mass c m;
  po_fvol : f_vol c' m0 = c_vol c;
  po_fie : f_ie c' m0 = f_mass c m0 * e;
  po_press : c_press c' = P; po_temp : c_temp c' = T / ev2k; po_sie : c_sie c' = e
}.
Lemma ev2k_pos : 0 < ev2k. Proof. unfold ev2k. lra. Qed.

Lemma pure_finish c m0 c1 r1 l r2 b t s p tf pf si : pure c m0 -> after_init nmat eos_offsets cutoff c t s p c1 r1 l -> r_mats r2 = r_mats r1 -> r_idxs r2 = r_idxs r1 ->
  r_vfrac r2 = r_vfrac r1 -> r_rho r2 = r_rho r1 ->
  (tf = 0 \/ tf = 1) -> (pf = 0 \/ pf = 1) -> (tf = 0 -> r_temp r2 0%nat = c_temp c * ev2k) -> (pf = 0 -> r_press r2 0%nat = c_press c) -> r_sie r2 0%nat = si ->
  pure_outputs c (pmax_fun (final_fun nmat eos o tf 0 pf (set_cell_sie si c1) r2 (set_conv l b))) m0 (r_temp r2 0%nat) (r_press r2 0%nat) si.
Proof.
  intros H A K1 K2 Kv Kr Htf Hpf Ht0 Hp0 Hsi.
  destruct (final_view nmat eos eos_offsets o c (part c) (pu_total _ _ H) c1 r2 (set_conv l b) tf 0 pf si r2 (ready_of _ _ _ _ _ _ _ _ b A K1 K2) eq_refl eq_refl) as (AV & _ & V1 & V2 & V3 & V4 & V5 & V6 & V7 & _).
  set (c' := pmax_fun _) in *. set (q := row_state _ r2) in *.
  pose proof (pure_rank c m0 H) as ER. pose proof (pure_np c m0 H) as EN.
  assert (nth 0 (parts (part c) nmat) 0%nat = m0) as EM. { pose proof (nth_rank (part c) nmat m0 (pu_lt _ _ H) (pu_in _ _ H)) as EM. rewrite ER in EM. exact EM. }
  assert (q_vf q m0 = 1) as Qv. { unfold q. cbn [row_state q_vf]. rewrite ER, Kv, (ai_vf _ _ _ _ _ _ _ _ _ _ A), EM by lia. apply (pu_frac _ _ H). }
  assert (q_rho q m0 = / c_spvol c) as Qr. { unfold q. cbn [row_state q_rho]. rewrite ER, Kr, (ai_rho _ _ _ _ _ _ _ _ _ _ A), EM, (pu_frac _ _ H) by lia. field. apply (pu_spvol _ _ H). }
  assert (q_T q m0 = r_temp r2 0%nat /\ q_P q m0 = r_press r2 0%nat /\ q_e q m0 = si) as (QT & QP & Qe). { unfold q. cbn [row_state q_T q_P q_e]. rewrite ER. auto. }
  destruct (ai_same _ _ _ _ _ _ _ _ _ _ A) as (S1 & S2 & S3 & S4 & S5 & S6). pose proof ev2k_pos as Hk.
  constructor.
  - rewrite V1. exact S3.
  - rewrite V2. exact S4.
  - exact (av_pmax _ _ _ _ _ _ _ _ AV).
  - rewrite (av_bmod _ _ _ _ _ _ _ _ AV), (pure_over _ _ _ H), Qv, Qr, QT. ring.
  - rewrite (av_dpde _ _ _ _ _ _ _ _ AV), (pure_over _ _ _ H), Qv, Qr, QT. ring.
  - rewrite (av_cv _ _ _ _ _ _ _ _ AV), (pure_over _ _ _ H), (pu_frac _ _ H), Qr, QT. ring.
  - exact (av_mass _ _ _ _ _ _ _ _ AV).
  - rewrite (av_vol _ _ _ _ _ _ _ _ AV m0 (pu_lt _ _ H) (pu_in _ _ H)), V1, S3, Qv. ring.
  - rewrite (av_ie _ _ _ _ _ _ _ _ AV m0 (pu_lt _ _ H) (pu_in _ _ H)), Qe. reflexivity.
  - destruct Hpf as [-> | ->]; [rewrite V4, Hp0 by reflexivity; reflexivity|]. rewrite V3, (pure_over _ _ _ H), QP, Qv by reflexivity. ring.
  - destruct Htf as [-> | ->]; [rewrite V6, Ht0 by reflexivity; field; lra|]. rewrite V5, (pure_over _ _ _ H), QT, Qv by reflexivity. f_equal. ring.
  - apply V7. reflexivity.
Qed.

Lemma pure_row c m0 t s p c1 r1 l : pure c m0 -> after_init nmat eos_offsets cutoff c t s p c1 r1 l ->
  eos (r_idxs r1 0%nat) = eosm m0 /\ r_rho r1 0%nat = / c_spvol c /\ r_sie r1 0%nat = c_sie c * s /\ r_temp r1 0%nat = c_temp c * ev2k * t /\ r_press r1 0%nat = c_press c * p.
Proof.
  intros H A. pose proof (pure_rank c m0 H) as ER. pose proof (pure_np c m0 H) as EN.
  assert (nth 0 (parts (part c) nmat) 0%nat = m0) as EM. { pose proof (nth_rank (part c) nmat m0 (pu_lt _ _ H) (pu_in _ _ H)) as EM. rewrite ER in EM. exact EM. }
  rewrite (ai_idxs _ _ _ _ _ _ _ _ _ _ A), (ai_rho _ _ _ _ _ _ _ _ _ _ A), (ai_sie _ _ _ _ _ _ _ _ _ _ A), (ai_temp _ _ _ _ _ _ _ _ _ _ A), (ai_press _ _ _ _ _ _ _ _ _ _ A), EM, (pu_frac _ _ H) by lia.
  split; [reflexivity|]. pose proof (pu_spvol _ _ H). repeat split; [field; assumption|ring].
Qed.

(** (rho,e): temperature and pressure the material's EOS gives at the cell's density and energy *)
Theorem C40_rho_e_pure : forall c r m0, pure c m0 ->
  let T := t_re (eosm m0) (/ c_spvol c) (c_sie c) in
  pure_outputs c (after RHO_E c r) m0 T (p_rt (eosm m0) (/ c_spvol c) T) (c_sie c).
Proof.
  intros c r m0 H. cbv zeta. rewrite after_rho_e. destruct (init_fun nmat eos_offsets cutoff 0 1 0 c r) as [[c1 r1] l] eqn:EI. apply init_view in EI.
  destruct (pure_row c m0 _ _ _ _ _ _ H EI) as (R1 & R2 & R3 & R4 & R5). unfold solve_rho_e. rewrite (ai_np _ _ _ _ _ _ _ _ _ _ EI), (pure_np c m0 H). cbn [Nat.ltb Nat.leb].
  destruct (ai_same _ _ _ _ _ _ _ _ _ _ EI) as (S1 & S2 & S3 & S4 & S5 & S6).
  rewrite R1, R2, R3, S5, Rmult_1_r. set (r2 := mkRow _ _ _ _ _ _ _).
  pose proof (pure_finish c m0 c1 r1 l r2 true 0 1 0 1 1 (c_sie c) H EI eq_refl eq_refl eq_refl eq_refl ltac:(auto) ltac:(auto)) as HP.
  apply HP; [intros; lra|intros; lra|]. cbn [r2 r_sie]. rewrite R3. ring.
Qed.
(** (rho,T): pressure and energy at the cell's density and temperature *)
Theorem C40_rho_t_pure : forall c r m0, pure c m0 ->
  let T := c_temp c * ev2k in
  pure_outputs c (after RHO_T c r) m0 T (p_rt (eosm m0) (/ c_spvol c) T) (e_rt (eosm m0) (/ c_spvol c) T).
Proof.
  intros c r m0 H. cbv zeta. rewrite after_rho_t. destruct (init_fun nmat eos_offsets cutoff 1 0 0 c r) as [[c1 r1] l] eqn:EI. apply init_view in EI.
  destruct (pure_row c m0 _ _ _ _ _ _ H EI) as (R1 & R2 & R3 & R4 & R5). unfold solve_rho_t. rewrite (ai_np _ _ _ _ _ _ _ _ _ _ EI), (pure_np c m0 H). cbn [Nat.ltb Nat.leb].
  rewrite R1, R2, R4, Rmult_1_r. set (r2 := mkRow _ _ _ _ _ _ _).
  pose proof (pure_finish c m0 c1 r1 l r2 true 1 0 0 0 1 (e_rt (eosm m0) (/ c_spvol c) (c_temp c * ev2k)) H EI eq_refl eq_refl eq_refl eq_refl ltac:(auto) ltac:(auto)) as HP.
  replace (r_temp r2 0%nat) with (c_temp c * ev2k) in HP by (cbn [r2 r_temp]; rewrite R4; ring).
  apply HP; [reflexivity|intros; lra|reflexivity].
Qed.
(** (rho,P): the temperature is what the root finder returns for p(rho, T) = P on [1e-10, 1e10] times the reference temperature *)
Theorem C40_rho_p_pure : forall c r m0, pure c m0 ->
  let e := eosm m0 in let d := / c_spvol c in
  let T := snd (@findRoot RArith (p_rt e d) (c_press c) (tref e) (1 / 10000000000 * tref e) (10000000000 * tref e) (1 / 1000000000000) (1 / 1000000000000) junk) in
  pure_outputs c (after RHO_P c r) m0 T (c_press c) (e_rt e d T).
Proof.
  intros c r m0 H. cbv zeta. rewrite after_rho_p. destruct (init_fun nmat eos_offsets cutoff 0 0 1 c r) as [[c1 r1] l] eqn:EI. apply init_view in EI.
  destruct (pure_row c m0 _ _ _ _ _ _ H EI) as (R1 & R2 & R3 & R4 & R5). unfold solve_rho_p. rewrite (ai_np _ _ _ _ _ _ _ _ _ _ EI), (pure_np c m0 H). cbn [Nat.ltb Nat.leb].
  destruct (ai_same _ _ _ _ _ _ _ _ _ _ EI) as (S1 & S2 & S3 & S4 & S5 & S6).
  rewrite R1, R2, S1. change (fun t : R => p_rt (eosm m0) (/ c_spvol c) t) with (p_rt (eosm m0) (/ c_spvol c)). set (T := snd _). clearbody T. set (r2 := mkRow _ _ _ _ _ _ _).
  pose proof (pure_finish c m0 c1 r1 l r2 true 0 0 1 1 0 (e_rt (eosm m0) (/ c_spvol c) T) H EI eq_refl eq_refl eq_refl eq_refl ltac:(auto) ltac:(auto)) as HP.
  replace (r_press r2 0%nat) with (c_press c) in HP by (cbn [r2 r_press]; rewrite R5; ring).
  apply HP; [intros; lra|reflexivity|reflexivity].
Qed.

(** the caller's arrays get the same values whether or not the device arrays are the host arrays (they only differ in
    the optional arrays and, without a shared memory space, never in the inputs) *)
Theorem C40_copy_back : forall md b c r, total nmat c <> 0 ->
  let c' := copy_back o md b c (after md c r) in
  c_press c' = c_press (after md c r) /\ c_pmax c' = c_pmax (after md c r) /\ c_vol c' = c_vol (after md c r) /\ c_spvol c' = c_spvol (after md c r) /\
  c_sie c' = c_sie (after md c r) /\ c_temp c' = c_temp (after md c r) /\ c_bmod c' = c_bmod (after md c r) /\ c_dpde c' = c_dpde (after md c r) /\
  c_cv c' = c_cv (after md c r) /\ (forall m, f_mass c' m = f_mass c m) /\ f_vol c' = f_vol (after md c r) /\ f_ie c' = f_ie (after md c r) /\
  f_bmod c' = f_bmod (after md c r) /\ f_dpde c' = f_dpde (after md c r) /\
  match md with
  | RHO_T => c_spvol c' = c_spvol c /\ c_temp c' = c_temp c
  | RHO_P => c_spvol c' = c_spvol c /\ c_press c' = c_press c
  | P_T => c_press c' = c_press c /\ c_temp c' = c_temp c
  | RHO_E => c_spvol c' = c_spvol c /\ c_sie c' = c_sie c
  end.
Proof.
  intros md b c r Ht. cbv zeta.
  set (d := after md c r).
  assert ((forall m, f_mass d m = f_mass c m) /\ (has_bmod o = false -> f_bmod d = f_bmod c) /\ (has_dpde o = false -> f_dpde d = f_dpde c) /\
    match md with
    | RHO_T => c_spvol d = c_spvol c /\ c_temp d = c_temp c
    | RHO_P => c_spvol d = c_spvol c /\ c_press d = c_press c
    | P_T => c_press d = c_press c /\ c_temp d = c_temp c
    | RHO_E => c_spvol d = c_spvol c /\ c_sie d = c_sie c
    end) as (D1 & D2 & D3 & D4).
  { unfold d. destruct md.
    - rewrite after_rho_t. destruct (init_fun nmat eos_offsets cutoff 1 0 0 c r) as [[c1 r1] l] eqn:EI. apply init_view in EI.
      pose proof (solve_t_keeps c1 r1 l) as HK. destruct (solve_rho_t eos lin c1 r1 l) as [[r2 bb] si]. cbn [fst] in HK. destruct HK as [K1 K2].
      destruct (final_view nmat eos eos_offsets o c (part c) Ht c1 r2 (set_conv l bb) 0 0 1 si r2 (ready_of _ _ _ _ _ _ _ _ bb EI K1 K2) eq_refl eq_refl) as (AV & _ & V1 & V2 & V3 & V4 & V5 & V6 & V7 & _).
      destruct (ai_same _ _ _ _ _ _ _ _ _ _ EI) as (S1 & S2 & S3 & S4 & S5 & S6). destruct (av_optional _ _ _ _ _ _ _ _ AV) as [O1 O2].
      split; [exact (av_mass _ _ _ _ _ _ _ _ AV)|]. split; [exact O1|]. split; [exact O2|]. split; [rewrite V2; exact S4|apply V6; reflexivity].
    - rewrite after_rho_p. destruct (init_fun nmat eos_offsets cutoff 0 0 1 c r) as [[c1 r1] l] eqn:EI. apply init_view in EI.
      pose proof (solve_p_keeps c1 r1 l) as HK. destruct (solve_rho_p eos lin junk c1 r1 l) as [[r2 bb] si]. cbn [fst] in HK. destruct HK as [K1 K2].
      destruct (final_view nmat eos eos_offsets o c (part c) Ht c1 r2 (set_conv l bb) 1 0 0 si r2 (ready_of _ _ _ _ _ _ _ _ bb EI K1 K2) eq_refl eq_refl) as (AV & _ & V1 & V2 & V3 & V4 & V5 & V6 & V7 & _).
      destruct (ai_same _ _ _ _ _ _ _ _ _ _ EI) as (S1 & S2 & S3 & S4 & S5 & S6). destruct (av_optional _ _ _ _ _ _ _ _ AV) as [O1 O2].
      split; [exact (av_mass _ _ _ _ _ _ _ _ AV)|]. split; [exact O1|]. split; [exact O2|]. split; [rewrite V2; exact S4|apply V4; reflexivity].
    - destruct (C40_p_t_input c r Ht) as (g & q & _ & AV & H1 & H2 & _). destruct (av_optional _ _ _ _ _ _ _ _ AV) as [O1 O2].
      split; [exact (av_mass _ _ _ _ _ _ _ _ AV)|]. split; [exact O1|]. split; [exact O2|]. split; assumption.
    - rewrite after_rho_e. destruct (init_fun nmat eos_offsets cutoff 0 1 0 c r) as [[c1 r1] l] eqn:EI. apply init_view in EI.
      pose proof (solve_e_keeps c1 r1 l) as HK. destruct (solve_rho_e eos lin c1 r1 l) as [r2 bb]. cbn [fst] in HK. destruct HK as [K1 K2].
      destruct (final_view nmat eos eos_offsets o c (part c) Ht c1 r2 (set_conv l bb) 1 0 1 (c_sie c1) r2 (ready_of _ _ _ _ _ _ _ _ bb EI K1 K2) eq_refl eq_refl) as (AV & _ & V1 & V2 & V3 & V4 & V5 & V6 & V7 & _).
      destruct (ai_same _ _ _ _ _ _ _ _ _ _ EI) as (S1 & S2 & S3 & S4 & S5 & S6). destruct (av_optional _ _ _ _ _ _ _ _ AV) as [O1 O2].
      split; [exact (av_mass _ _ _ _ _ _ _ _ AV)|]. split; [exact O1|]. split; [exact O2|]. split; [rewrite V2; exact S4|rewrite V7 by reflexivity; exact S5]. }
  clearbody d. unfold copy_back. destruct b.
  - repeat (split; [try reflexivity; exact D1|]). exact D4.
  - cbn [c_press c_pmax c_vol c_spvol c_sie c_temp c_bmod c_dpde c_cv f_mass f_vol f_ie f_bmod f_dpde f_cv].
    unfold do_frac_bmod, do_frac_dpde. destruct md; destruct D4 as [D4 D5]; rewrite ?D4, ?D5; repeat (split; [try reflexivity; try (destruct (has_bmod o); [reflexivity|symmetry; apply D2; reflexivity]); try (destruct (has_dpde o); [reflexivity|symmetry; apply D3; reflexivity])|]); repeat split; try reflexivity.
Qed.
(** the integer that selects the inputs: -3 density and temperature, -2 density and pressure, -1 pressure and temperature, 0 and 1 density and
    energy; those two are returned unchanged and any other code is refused *)
Theorem C40_input_codes : forall i b c r, total nmat c <> 0 ->
  match mode_of_int i with
  | None => (i < -3 \/ 1 < i)%Z
  | Some md =>
      let c' := copy_back o md b c (after md c r) in
      (-3 <= i <= 1)%Z /\
      ((i = -3)%Z -> c_spvol c' = c_spvol c /\ c_temp c' = c_temp c) /\ ((i = -2)%Z -> c_spvol c' = c_spvol c /\ c_press c' = c_press c) /\
      ((i = -1)%Z -> c_press c' = c_press c /\ c_temp c' = c_temp c) /\ ((0 <= i)%Z -> c_spvol c' = c_spvol c /\ c_sie c' = c_sie c)
  end.
Proof.
  intros i b c r Ht. unfold mode_of_int.
  repeat match goal with |- context [(i =? ?k)%Z] => destruct (Z.eqb_spec i k) as [->|?] end; cbv zeta.
  - destruct (C40_copy_back RHO_T b c r Ht) as (_ & _ & _ & _ & _ & _ & _ & _ & _ & _ & _ & _ & _ & _ & K). repeat split; try lia; apply K.
  - destruct (C40_copy_back RHO_P b c r Ht) as (_ & _ & _ & _ & _ & _ & _ & _ & _ & _ & _ & _ & _ & _ & K). repeat split; try lia; apply K.
  - destruct (C40_copy_back P_T b c r Ht) as (_ & _ & _ & _ & _ & _ & _ & _ & _ & _ & _ & _ & _ & _ & K). repeat split; try lia; apply K.
  - destruct (C40_copy_back RHO_E b c r Ht) as (_ & _ & _ & _ & _ & _ & _ & _ & _ & _ & _ & _ & _ & _ & K). repeat split; try lia; apply K.
  - destruct (C40_copy_back RHO_E b c r Ht) as (_ & _ & _ & _ & _ & _ & _ & _ & _ & _ & _ & _ & _ & _ & K). repeat split; try lia; apply K.
  - lia.
Qed.
End Sg.
Print Assumptions C40_input_codes.
Print Assumptions C40_result_independent_of_scratch.
Print Assumptions C40_schedule_independent.
Print Assumptions C40_loop_terminates.
Print Assumptions C40_p_t_input.
Print Assumptions C40_rho_t_mixed.
Print Assumptions C40_rho_p_mixed.
Print Assumptions C40_rho_e_mixed.
Print Assumptions C40_rho_e_pure.
Print Assumptions C40_rho_t_pure.
Print Assumptions C40_rho_p_pure.
Print Assumptions C40_copy_back.
