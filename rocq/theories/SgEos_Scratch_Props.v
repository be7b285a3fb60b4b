(** Memory use of get_sg_eos. *)
From Coq Require Import ZArith List Lia.
From Verif Require Import PTE_Scratch_Model SgEos_Scratch_Model.
Import ListNotations.
Local Open Scope nat_scope.

(** ** Specification *)
(** every Real the EOS calls may use as lambda, and every Real of the solver's arrays, lies in the allocation *)
Definition cache_inside (md : smode) (nmat npte : nat) : Prop := forall a, in_cache md nmat npte a -> a < allocated md nmat.
Definition solver_inside (md : smode) (nmat npte : nat) : Prop := forall x a, in_solver_array md npte x a -> a < allocated md nmat.
(** no Real is at the same time lambda storage and part of an array of the solver *)
Definition cache_apart (md : smode) (nmat npte : nat) : Prop := forall x a, in_cache md nmat npte a -> in_solver_array md npte x a -> False.

(** ** Proofs *)
Ltac lay H := cbn [layout base_requests extra_requests neq_of app assign_increment] in H; cbn [In] in H;
  repeat (destruct H as [H|H]; [injection H as <- <- <-|]); try contradiction.
Ltac lay2 := unfold layout; cbn [base_requests extra_requests neq_of app assign_increment]; cbn [In].

Theorem C40_cache_in_bounds : forall md nmat npte, 1 <= nmat -> npte <= nmat ->
  (md = RHO_T \/ md = P_T \/ 3 <= nmat \/ npte < nmat) -> cache_inside md nmat npte.
Proof.
  intros md nmat npte H1 H2 H3 a (m & k & Hm & Hk & ->). unfold cached, cache_base, allocated, required_scratch, MAX_NUM_LAMBDAS in *.
  destruct md; cbv zeta.
  - assert (npte * npte <= nmat * nmat) by nia. nia.
  - destruct H3 as [H3|[H3|H3]]; try discriminate. destruct (Nat.eq_dec npte nmat) as [->|N].
    + assert (Nat.max 1 nmat = nmat) by lia. nia.
    + assert (npte <= nmat - 1) by lia. assert (npte * npte <= (nmat - 1) * (nmat - 1)) by nia.
      assert ((nmat - 1) * (nmat - 1) + 2 * nmat = nmat * nmat + 1) by nia. nia.
  - nia.
  - destruct H3 as [H3|[H3|H3]]; try discriminate. destruct (Nat.eq_dec npte nmat) as [->|N].
    + assert (Nat.max 1 nmat = nmat) by lia. nia.
    + assert (npte <= nmat - 1) by lia. assert (npte * npte <= (nmat - 1) * (nmat - 1)) by nia.
      assert ((nmat - 1) * (nmat - 1) + 2 * nmat = nmat * nmat + 1) by nia. nia.
Qed.

Theorem C40_solver_in_bounds : forall md nmat npte, npte <= nmat ->
  (md = RHO_P -> 3 <= nmat \/ npte < nmat) -> solver_inside md nmat npte.
Proof.
  intros md nmat npte H2 H3 x a (s & o & l & Es & Hn & Hin & Ha). destruct md; cbn in Es; try discriminate; injection Es as <-;
  unfold allocated, required_scratch, MAX_NUM_LAMBDAS.
  - unfold layout in Hin. assert (npte * npte <= nmat * nmat) by nia. lay Hin; nia.
  - specialize (H3 eq_refl). unfold layout in Hin. destruct (Nat.eq_dec npte nmat) as [->|N].
    + lay Hin; nia.
    + assert (npte <= nmat - 1) by lia. assert (npte * npte <= (nmat - 1) * (nmat - 1)) by nia.
      assert ((nmat - 1) * (nmat - 1) + 2 * nmat = nmat * nmat + 1) by nia. lay Hin; nia.
  - unfold layout in Hin. assert (npte * npte <= nmat * nmat) by nia. lay Hin; nia.
Qed.

(** two materials never share cache storage *)
Theorem C40_caches_of_materials_disjoint : forall (md : smode) npte m1 m2 k1 k2, k1 < MAX_NUM_LAMBDAS -> k2 < MAX_NUM_LAMBDAS ->
  cache_base md npte + m1 * MAX_NUM_LAMBDAS + k1 = cache_base md npte + m2 * MAX_NUM_LAMBDAS + k2 -> m1 = m2 /\ k1 = k2.
Proof. unfold MAX_NUM_LAMBDAS. intros. lia. Qed.

(** the solver's arrays and the lambdas are apart in the modes/cell sizes where this holds: (P,T) input, cells with at
    most one participating material, and two-material cells with (rho,e) input *)
Theorem C40_cache_apart : forall md nmat npte, npte <= nmat ->
  (md = P_T \/ npte <= 1 \/ (md = RHO_E /\ npte = 2)) -> cache_apart md nmat npte.
Proof.
  intros md nmat npte H1 H2 x a (m & k & Hm & Hk & ->) (s & o & l & Es & Hn & Hin & Ha).
  destruct H2 as [->|[H2|[-> ->]]]; [discriminate|lia|]. injection Es as <-. unfold MAX_NUM_LAMBDAS, cached in *. cbn [cache_base] in Ha.
  unfold layout in Hin. lay Hin; cbn in Ha; lia.
Qed.

(** ** What fails *)
(** With one or two materials, all participating, the lambda storage of (rho,e) and (rho,P) input runs past the end of
    the thread's scratch row (into the next thread's row, or past the allocation for the last thread). *)
Theorem C64_cache_past_the_end_refuted : forall md nmat, (md = RHO_E \/ md = RHO_P) -> 1 <= nmat <= 2 -> ~ cache_inside md nmat nmat.
Proof.
  intros md nmat Hm Hn H. specialize (H (cache_base md nmat + (nmat - 1) * MAX_NUM_LAMBDAS + 2)).
  assert (in_cache md nmat nmat (cache_base md nmat + (nmat - 1) * MAX_NUM_LAMBDAS + 2)) as HI.
  { exists (nmat - 1), 2. unfold MAX_NUM_LAMBDAS. split; [|lia]. unfold cached. destruct Hm as [-> | ->]; lia. }
  specialize (H HI). assert (nmat = 1 \/ nmat = 2) as [-> | ->] by lia; destruct Hm as [-> | ->]; cbn in H; lia.
Qed.
(** and for (rho,P) input with two materials so does the solver itself *)
Theorem C64_solver_past_the_end_refuted : ~ solver_inside RHO_P 2 2.
Proof.
  intros H. specialize (H VTemp 30). assert (in_solver_array RHO_P 2 VTemp 30) as HI.
  { exists FixedP, 29, 2. split; [reflexivity|]. split; [lia|]. split; [cbn; tauto|lia]. }
  specialize (H HI). cbn in H. lia.
Qed.
(** The lambda storage overlaps live solver arrays for every larger cell: an EOS that stores into its lambda while the
    solver runs overwrites the solver's data, and the solver overwrites what the EOS cached. *)
Theorem C64_cache_overlaps_solver_refuted : forall nmat npte, npte <= nmat ->
  (3 <= npte -> ~ cache_apart RHO_E nmat npte) /\
  (2 <= npte -> ~ cache_apart RHO_T nmat npte /\ ~ cache_apart RHO_P nmat npte).
Proof.
  intros nmat npte H.
  assert (forall md, (md = RHO_E \/ md = RHO_T \/ md = RHO_P) -> 1 <= npte -> in_cache md nmat npte (cache_base md npte)) as HC.
  { intros md Hmd Hn. exists 0, 0. unfold MAX_NUM_LAMBDAS. split; [destruct Hmd as [->|[->| ->]]; cbn [cached]; lia|lia]. }
  split; [|intros H2; split].
  - intros H2 HA. destruct (le_lt_dec npte 5) as [L|L].
    + apply (HA VTemp _ (HC RHO_E ltac:(auto) ltac:(lia))).
      exists RhoT, (npte * npte + 9 * npte), npte. split; [reflexivity|]. split; [lia|]. split; [lay2; do 9 right; left; f_equal; f_equal; lia|].
      cbn [cache_base]. cbv zeta. lia.
    + apply (HA DpDT _ (HC RHO_E ltac:(auto) ltac:(lia))).
      exists RhoT, (npte * npte + 8 * npte), npte. split; [reflexivity|]. split; [lia|]. split; [lay2; do 8 right; left; f_equal; f_equal; lia|].
      cbn [cache_base]. cbv zeta. lia.
  - intros HA. apply (HA DpDv _ (HC RHO_T ltac:(auto) ltac:(lia))).
    exists FixedT, (npte * npte + 6 * npte), npte. split; [reflexivity|]. split; [lia|]. split; [lay2; do 6 right; left; f_equal; f_equal; lia|].
    cbn [cache_base]. cbv zeta. lia.
  - intros HA. apply (HA DpDv _ (HC RHO_P ltac:(auto) ltac:(lia))).
    exists FixedP, ((npte + 1) * (npte + 1) + 4 * (npte + 1) + 2 * npte), npte. split; [reflexivity|]. split; [lia|]. split; [lay2; do 6 right; left; f_equal; f_equal; lia|].
    cbn [cache_base]. cbv zeta. lia.
Qed.

(** ** The hypotheses are met: five materials of which four participate *)
Example C40_ex_scratch : cache_inside RHO_E 5 4 /\ solver_inside RHO_E 5 4 /\ in_cache RHO_E 5 4 64 /\ allocated RHO_E 5 = 90.
Proof.
  split; [apply C40_cache_in_bounds; lia|]. split; [apply C40_solver_in_bounds; [lia|discriminate]|]. split; [|reflexivity].
  exists 3, 2. unfold MAX_NUM_LAMBDAS. split; [apply Nat.ltb_lt; reflexivity|]. split; [lia|reflexivity].
Qed.
Print Assumptions C40_cache_in_bounds.
Print Assumptions C40_solver_in_bounds.
Print Assumptions C40_caches_of_materials_disjoint.
Print Assumptions C40_cache_apart.
Print Assumptions C64_cache_past_the_end_refuted.
Print Assumptions C64_solver_past_the_end_refuted.
Print Assumptions C64_cache_overlaps_solver_refuted.
