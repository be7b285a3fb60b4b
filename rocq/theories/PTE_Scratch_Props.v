(** C33: PTE solvers stay inside the scratch memory they advertise *)
From Coq Require Import ZArith List Lia Permutation.
From Verif Require Import PTE_Scratch_Model.
Import ListNotations.
Local Open Scope nat_scope.

(** Independent reading of "disjoint regions": no address belongs to two arrays *)
Definition in_region (r : arr * nat * nat) (addr : nat) : Prop :=
  match r with (_, off, len) => off <= addr < off + len end.
Definition regions_disjoint (rs : list (arr * nat * nat)) : Prop :=
  forall i j addr, i < length rs -> j < length rs -> i <> j ->
    in_region (nth i rs (U, 0, 0)) addr -> ~ in_region (nth j rs (U, 0, 0)) addr.
Definition regions_inside (rs : list (arr * nat * nat)) (total : nat) : Prop :=
  forall r addr, In r rs -> in_region r addr -> addr < total.

Fixpoint total (l : list (arr * nat)) : nat := match l with [] => 0 | (_, n) :: r => n + total r end.

Lemma assign_lower l : forall o r, In r (assign_increment o l) -> forall a, in_region r a -> o <= a.
Proof.
  induction l as [|[x n] l IH]; intros o r H a Ha; simpl in H; [easy|]. destruct H as [H|H].
  - subst r. simpl in Ha. lia.
  - specialize (IH _ _ H _ Ha). lia.
Qed.
Lemma assign_upper l : forall o r, In r (assign_increment o l) -> forall a, in_region r a -> a < o + total l.
Proof.
  induction l as [|[x n] l IH]; intros o r H a Ha; simpl in H; [easy|]. simpl. destruct H as [H|H].
  - subst r. simpl in Ha. lia.
  - specialize (IH _ _ H _ Ha). lia.
Qed.
Lemma assign_disjoint l : forall o, regions_disjoint (assign_increment o l).
Proof.
  induction l as [|[x n] l IH]; intros o i j a Hi Hj Hij H1 H2; simpl in *; [lia|].
  destruct i as [|i], j as [|j]; [lia| | |].
  - assert (In (nth j (assign_increment (o + n) l) (U, 0, 0)) (assign_increment (o + n) l)) as HI by (apply nth_In; lia).
    apply (assign_lower _ _ _ HI) in H2. simpl in H1. lia.
  - assert (In (nth i (assign_increment (o + n) l) (U, 0, 0)) (assign_increment (o + n) l)) as HI by (apply nth_In; lia).
    apply (assign_lower _ _ _ HI) in H1. simpl in H2. lia.
  - apply (IH (o + n) i j a); try lia; assumption.
Qed.
Lemma total_app a b : total (a ++ b) = total a + total b.
Proof. induction a as [|[x n] a IH]; simpl; lia. Qed.

(** The arrays carved from the scratch are pairwise disjoint, for every solver and every number of materials *)
Theorem C33_arrays_disjoint : forall s nmat, regions_disjoint (layout s nmat).
Proof. intros. apply assign_disjoint. Qed.

(** They lie inside the advertised scratch, and use all of it *)
Theorem C33_arrays_inside : forall s nmat, regions_inside (layout s nmat) (required_scratch s nmat).
Proof.
  intros s nmat r a Hr Ha. pose proof (assign_upper _ _ _ Hr _ Ha) as H. rewrite total_app in H.
  destruct s; simpl in *; lia.
Qed.
Theorem C33_scratch_exact_fit : forall s nmat,
  fold_right (fun r acc => match r with (_, _, len) => len + acc end) 0 (layout s nmat) = required_scratch s nmat.
Proof. intros s nmat. destruct s; unfold layout; simpl; lia. Qed.

(** a solver's arrays carry distinct names, so a name determines its region *)
Theorem C33_array_names_unique : forall s nmat, NoDup (map (fun r => fst (fst r)) (layout s nmat)).
Proof.
  intros s nmat. destruct s; simpl; repeat constructor; simpl; intuition discriminate.
Qed.

(** every element a solver method touches lies inside its own array *)
Definition accesses_in_bounds (s : solver) (nmat : nat) : Prop :=
  forall a i, touches s nmat a i -> exists off len, In (a, off, len) (layout s nmat) /\ i < len.

Lemma mat_len s nmat a o l : In (a, o, l) (layout s nmat) ->
  In a [U; RhoBar; DpDv; DeDv; DpDT; VTemp; DtDv; DpDe; DtDe; UTemp] -> l = nmat.
Proof.
  intros H HI. simpl in HI. unfold layout in H.
  destruct s; cbn [base_requests extra_requests app assign_increment] in H; simpl In in H;
  repeat (destruct H as [H|H]; [inversion H; subst; clear H; repeat (destruct HI as [HI|HI]; [discriminate HI|]); try reflexivity; try contradiction|]); contradiction.
Qed.

Ltac inj_in := eexists; eexists; split; [unfold layout; cbn [base_requests extra_requests app assign_increment]; simpl In;
  first [left; reflexivity | right; left; reflexivity | right; right; left; reflexivity | right; right; right; left; reflexivity]|].

Lemma rhou_bounds nmat i : 2 <= nmat -> rhou_jac_write nmat i -> i < (2 * nmat) * (2 * nmat).
Proof. intros Hn H. destruct H; nia. Qed.

Lemma layout_jac s n : In (Jacobian, 0, neq_of s n * neq_of s n) (layout s n).
Proof. unfold layout. simpl. auto. Qed.
Lemma layout_dx s n : exists o, In (Dx, o, neq_of s n) (layout s n).
Proof. eexists. unfold layout. cbn [base_requests app assign_increment]. right. left. reflexivity. Qed.
Lemma layout_scr s n : exists o, In (SolScratch, o, 2 * neq_of s n) (layout s n).
Proof. eexists. unfold layout. cbn [base_requests app assign_increment]. right. right. left. reflexivity. Qed.
Lemma layout_res s n : exists o, In (Residual, o, neq_of s n) (layout s n).
Proof. eexists. unfold layout. cbn [base_requests app assign_increment]. right. right. right. left. reflexivity. Qed.

Lemma jac_bound s nmat i : 1 <= nmat -> (s = RhoU -> 2 <= nmat) -> jac_write s nmat i -> i < neq_of s nmat * neq_of s nmat.
Proof.
  intros Hn Hs H. unfold neq_of. destruct H; unfold MatIndex; try nia.
  apply rhou_bounds; [apply Hs; reflexivity|assumption].
Qed.
Lemma res_bound s nmat i : 1 <= nmat -> res_write s nmat i -> i < neq_of s nmat.
Proof. intros Hn H. destruct H; unfold neq_of; lia. Qed.
Lemma dx_bound s nmat i : 1 <= nmat -> dx_read s nmat i -> i < neq_of s nmat.
Proof. intros Hn H. destruct H; unfold neq_of in *; lia. Qed.
Lemma scr_bound s nmat i : scr_use s nmat i -> i < 2 * neq_of s nmat.
Proof. intros H. destruct H; lia. Qed.

Theorem C33_accesses_in_bounds : forall s nmat, 1 <= nmat -> (s = RhoU -> 2 <= nmat) -> accesses_in_bounds s nmat.
Proof.
  intros s nmat Hn Hs a i H. destruct H as [i H|i H|i H|i H|a i H (o & l & HI)].
  - do 2 eexists. split; [apply layout_jac|]. apply jac_bound; assumption.
  - destruct (layout_res s nmat) as (o & Ho). do 2 eexists. split; [exact Ho|]. apply res_bound; assumption.
  - destruct (layout_dx s nmat) as (o & Ho). do 2 eexists. split; [exact Ho|]. apply dx_bound; assumption.
  - destruct (layout_scr s nmat) as (o & Ho). do 2 eexists. split; [exact Ho|]. apply scr_bound; assumption.
  - exists o, l. split; [exact HI|]. destruct H as [a nmat m Ha Hm]. pose proof (mat_len _ _ _ _ _ HI Ha). lia.
Qed.

(** One material in PTESolverRhoU: the Jacobian assembly writes past its 2x2 matrix (into dx) *)
Theorem C61_rhou_single_material_refuted : ~ accesses_in_bounds RhoU 1.
Proof.
  intros H. destruct (H Jacobian 5) as (o & l & HI & Hl).
  { apply t_jac. apply jw_ru. exact (rj_7 1). }
  unfold layout in HI. simpl in HI.
  repeat (destruct HI as [HI|HI]; [inversion HI; subst; lia|]). contradiction.
Qed.
(** ... but still inside the scratch block *)
Theorem C33_rhou_single_material_contained : forall i, rhou_jac_write 1 i -> i < required_scratch RhoU 1.
Proof. intros i H. destruct H; simpl in *; lia. Qed.

(** TryIdealPTE (used by PTESolverRhoU): its temporaries fit in the jacobian as soon as there are two materials *)
Theorem C33_ideal_guess_fits : forall nmat, 2 <= nmat -> hijack_end RhoU nmat <= neq_of RhoU nmat * neq_of RhoU nmat.
Proof. intros nmat H. unfold hijack_end, neq_of. nia. Qed.
(** and never reach the residual it saves, nor leave the scratch, for any number of materials *)
Theorem C33_ideal_guess_before_residual : forall nmat off len, 1 <= nmat -> In (Residual, off, len) (layout RhoU nmat) -> hijack_end RhoU nmat <= off.
Proof.
  intros nmat off len Hn H. unfold layout in H. cbn [base_requests extra_requests app assign_increment] in H. simpl In in H.
  repeat (destruct H as [H|H]; [inversion H; subst; unfold hijack_end, neq_of; try nia|]); contradiction.
Qed.
(** For the other four systems the same routine would not be safe: with one material PTESolverRhoT's saved residual
    would alias the live residual *)
Theorem C61_ideal_guess_other_systems_refuted : exists off len, In (Residual, off, len) (layout RhoT 1) /\ off < hijack_end RhoT 1.
Proof. exists 4, 1. split; [unfold layout; simpl; auto|]. unfold hijack_end. simpl. lia. Qed.

(** The value returned as [int] is the size actually needed while it is below 2^31 *)
Local Open Scope Z_scope.
Lemma to_int_id x : 0 <= x < 2 ^ 31 -> to_int x = x.
Proof. intros H. unfold to_int. rewrite Z.mod_small; lia. Qed.
Theorem C33_reported_size_exact : forall s nmat, Z.of_nat (required_scratch s nmat) < 2 ^ 31 ->
  RequiredScratch s nmat = Z.of_nat (required_scratch s nmat) /\ RequiredScratchInBytes s nmat = 8 * Z.of_nat (required_scratch s nmat).
Proof.
  intros s nmat H. assert (RequiredScratch s nmat = Z.of_nat (required_scratch s nmat)) as E by (unfold RequiredScratch; apply to_int_id; lia).
  split; [exact E|]. unfold RequiredScratchInBytes. rewrite E. destruct s; rewrite Z.mod_small; lia.
Qed.
Theorem C33_reported_size_46335 : forall nmat : nat, Z.of_nat nmat <= 46335 -> RequiredScratch RhoT nmat = Z.of_nat (required_scratch RhoT nmat).
Proof. intros nmat H. apply C33_reported_size_exact. unfold required_scratch. cbv zeta. rewrite !Nat2Z.inj_add, !Nat2Z.inj_mul. change (Z.of_nat 4) with 4. change (Z.of_nat 6) with 6. nia. Qed.
(** beyond that the reported size is wrong: int overflow at 46336 materials *)
Theorem C61_reported_size_refuted : exists nmat : nat, Z.of_nat nmat = 46336 /\ RequiredScratch RhoT nmat < 0.
Proof.
  exists (Z.to_nat 46336). split; [lia|]. unfold RequiredScratch.
  assert (Z.of_nat (required_scratch RhoT (Z.to_nat 46336)) = 2147488256) as ->.
  { unfold required_scratch. cbv zeta. rewrite !Nat2Z.inj_add, !Nat2Z.inj_mul, !Z2Nat.id by lia. reflexivity. }
  unfold to_int. vm_compute. reflexivity.
Qed.

(** non-vacuity *)
Example C33_ex_layout : layout RhoT 2 =
  [(Jacobian, 0, 4); (Dx, 4, 2); (SolScratch, 6, 4); (Residual, 10, 2); (U, 12, 2); (RhoBar, 14, 2);
   (DpDv, 16, 2); (DeDv, 18, 2); (DpDT, 20, 2); (VTemp, 22, 2)]%nat /\ required_scratch RhoT 2 = 24%nat.
Proof. split; reflexivity. Qed.
Local Open Scope nat_scope.
Example C33_ex_touch : touches RhoU 3 Jacobian 35 /\ touches FixedP 2 Residual 2 /\ touches FixedT 4 VTemp 3.
Proof.
  split; [|split].
  - apply t_jac, jw_ru. exact (rj_8 3).
  - apply t_res. exact (rw_fpn 2).
  - apply t_mat; [constructor; [simpl; tauto|lia]|]. do 2 eexists. unfold layout. simpl. right. right. right. right. right. right. right. left. reflexivity.
Qed.
Print Assumptions C33_arrays_disjoint.
Print Assumptions C33_arrays_inside.
Print Assumptions C33_scratch_exact_fit.
Print Assumptions C33_array_names_unique.
Print Assumptions C33_accesses_in_bounds.
Print Assumptions C61_rhou_single_material_refuted.
Print Assumptions C33_rhou_single_material_contained.
Print Assumptions C33_ideal_guess_fits.
Print Assumptions C33_ideal_guess_before_residual.
Print Assumptions C61_ideal_guess_other_systems_refuted.
Print Assumptions C33_reported_size_exact.
Print Assumptions C33_reported_size_46335.
Print Assumptions C61_reported_size_refuted.
