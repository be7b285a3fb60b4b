(** Property theorems C10: type-indexed lambdas. *)
From Coq Require Import List Arith Bool Lia.
From Verif Require Import TypeLists_Model TypeLists_Proofs TypeLists_Props Indexer_Model.
Import ListNotations.

Lemma variadic_slot_iff ts k i : NoDup ts -> (variadic_slot ts k = Some i <-> nth_error ts i = Some (k_type k)).
Proof.
  intros HD. unfold variadic_slot. destruct (C09_get_index (k_type k) ts) as [H1 H2].
  destruct (contains (k_type k) ts) eqn:E.
  - rewrite H1. split; [tauto|]. intros H. split; [exact H|]. intros j Hj Hj'.
    rewrite NoDup_nth_error in HD. assert (j = i); [|lia]. apply HD; [|congruence].
    apply nth_error_Some. congruence.
  - split; [discriminate|]. intros H. exfalso. apply nth_error_In in H. apply contains_ok in H. congruence.
Qed.
Lemma variadic_slot_none ts k : variadic_slot ts k = None <-> ~ In (k_type k) ts.
Proof.
  unfold variadic_slot. destruct (C09_get_index (k_type k) ts) as [_ H2].
  destruct (contains (k_type k) ts) eqn:E.
  - exact H2.
  - split; [|reflexivity]. intros _ H. apply contains_ok in H. congruence.
Qed.

(** Histories: after any sequence of writes by name through a variadic indexer, reading a name T that the
    indexer has returns the last value written under that name, or the initial value if there was none;
    names the indexer does not have are reported missing and change nothing. *)
Theorem C10_reads_last_write :
  forall (V : Type) (ts : list ty) (d : nat -> V) (ws : list (key * V)) (T : key) (ai : AI) (idx : nat) (out : V),
  NoDup ts ->
  let ix := write_all ai (variadic_indexer ts d) ws in
  (forall i, nth_error ts i = Some (k_type T) ->
     SafeGet ai ix T idx out =
       (true, match find (fun w => ty_eqb (k_type (fst w)) (k_type T)) (rev ws) with
              | Some w => snd w | None => d i end, [i])) /\
  (~ In (k_type T) ts -> SafeGet ai ix T idx out = (false, out, [])).
Proof.
  intros V ts d ws T ai idx out HD. cbv zeta.
  assert (Hshape : forall ws, exists d', write_all ai (variadic_indexer ts d) ws = variadic_indexer ts d' /\
     forall i, nth_error ts i = Some (k_type T) ->
       d' i = match find (fun w => ty_eqb (k_type (fst w)) (k_type T)) (rev ws) with
              | Some w => snd w | None => d i end).
  { clear ws. intros ws. induction ws as [|w ws IH] using rev_ind.
    - exists d. split; [reflexivity|]. intros; reflexivity.
    - destruct IH as [d' [E Hd']]. unfold write_all in *. rewrite fold_left_app, E. cbn [fold_left].
      rewrite rev_unit. cbn [find].
      unfold SafeSet, variadic_indexer. cbn [ix_null ix_slot ix_flagged ix_data].
      destruct (variadic_slot ts (fst w)) as [k|] eqn:Es.
      + exists (upd d' k (snd w)). split; [reflexivity|]. intros i Hi. unfold upd.
        apply variadic_slot_iff in Es; [|exact HD].
        destruct (ty_eqb (k_type (fst w)) (k_type T)) eqn:Et.
        * apply ty_eqb_eq in Et. rewrite NoDup_nth_error in HD.
          assert (i = k). { apply HD; [apply nth_error_Some; congruence|congruence]. }
          subst. rewrite Nat.eqb_refl. reflexivity.
        * apply ty_eqb_neq in Et. destruct (Nat.eqb i k) eqn:Ei.
          -- apply Nat.eqb_eq in Ei. subst. congruence.
          -- apply Hd', Hi.
      + exists d'. split; [reflexivity|]. intros i Hi.
        destruct (ty_eqb (k_type (fst w)) (k_type T)) eqn:Et.
        * exfalso. apply ty_eqb_eq in Et. apply variadic_slot_none in Es. apply Es. rewrite Et.
          eapply nth_error_In, Hi.
        * apply Hd', Hi. }
  destruct (Hshape ws) as [d' [E Hd']]. rewrite E. split.
  - intros i Hi. unfold SafeGet, variadic_indexer. cbn [ix_null ix_slot ix_flagged ix_data].
    assert (Es : variadic_slot ts T = Some i) by (apply variadic_slot_iff; assumption).
    rewrite Es, (Hd' i Hi). reflexivity.
  - intros HN. unfold SafeGet, variadic_indexer. cbn [ix_null ix_slot ix_flagged ix_data].
    apply variadic_slot_none in HN. rewrite HN. reflexivity.
Qed.
Print Assumptions C10_reads_last_write.

(** SafeGet/SafeSet report success exactly when the value was transferred: a named slot exists, or the
    indexer is an untyped one with integer indexing and the caller allowed numeric fall-back; otherwise
    nothing changes.  For every indexer of any shape. *)
Theorem C10_safe_access_contract :
  forall (V : Type) (ix : indexer V) (T : key) (ai : AI) (idx : nat) (v : V),
  let ok := ix_null ix = false /\ ((exists k, ix_slot ix T = Some k) \/
              (ix_slot ix T = None /\ ix_flagged ix = false /\ ai = Numeric /\ ix_has_int ix = true)) in
  (fst (fst (SafeGet ai ix T idx v)) = true <-> ok) /\
  (fst (fst (SafeSet ai ix T idx v)) = true <-> ok) /\
  (fst (fst (SafeGet ai ix T idx v)) = false -> snd (fst (SafeGet ai ix T idx v)) = v) /\
  (fst (fst (SafeSet ai ix T idx v)) = false -> snd (fst (SafeSet ai ix T idx v)) = ix) /\
  (ok -> fst (SafeGet ai (snd (fst (SafeSet ai ix T idx v))) T idx v) = (true, v)).
Proof.
  intros V ix T ai idx v ok. unfold SafeGet, SafeSet, ok. clear ok.
  destruct ix as [n s f h d]. cbn [ix_null ix_slot ix_flagged ix_has_int ix_data].
  destruct n; [|destruct (s T) as [k|] eqn:Es; [|destruct f; [|destruct ai; [destruct h|]]]];
    cbn [fst snd ix_null ix_slot ix_flagged ix_has_int ix_data set_data]; rewrite ?Es;
    cbn [fst snd ix_null ix_slot ix_flagged ix_has_int ix_data set_data];
    unfold upd; rewrite ?Nat.eqb_refl;
    repeat split; try reflexivity; try discriminate; intros; try tauto;
    try (left; exists k; reflexivity); try (right; auto; fail);
    try (destruct H as [? [[? ?]|[? [? [? ?]]]]]; congruence).
Qed.
Print Assumptions C10_safe_access_contract.

(** every access is to the slot of the named type, or to the numeric index; a null indexer is never
    dereferenced; a slot of a variadic indexer is inside its storage of size() elements *)
Theorem C10_accesses_in_bounds :
  forall (V : Type) (ix : indexer V) (T : key) (ai : AI) (idx : nat) (v : V),
  (ix_null ix = true -> snd (SafeGet ai ix T idx v) = [] /\ snd (SafeSet ai ix T idx v) = []) /\
  (forall k, In k (snd (SafeGet ai ix T idx v)) \/ In k (snd (SafeSet ai ix T idx v)) ->
     ix_slot ix T = Some k \/ (ai = Numeric /\ ix_flagged ix = false /\ k = idx)) /\
  (forall ts k, variadic_slot ts T = Some k -> k < length ts).
Proof.
  intros V ix T ai idx v. unfold SafeGet, SafeSet. repeat split.
  - rewrite H. reflexivity.
  - rewrite H. reflexivity.
  - intros k. destruct ix as [n s f h d]. cbn [ix_null ix_slot ix_flagged ix_has_int ix_data].
    destruct n; [simpl; tauto|]. destruct (s T) as [j|] eqn:Es; [simpl; intuition congruence|].
    destruct f; [simpl; tauto|]. destruct ai; [destruct h|]; simpl; intuition.
  - intros ts k H. unfold variadic_slot in H. destruct (contains _ _); [|discriminate].
    apply (proj1 (C09_get_index (k_type T) ts)) in H. destruct H as [H _].
    apply nth_error_Some. congruence.
Qed.
Print Assumptions C10_accesses_in_bounds.

(** GenericIndexer writes through an injective map do not interfere *)
Theorem C10_generic_indexer :
  forall (V : Type) (arr : nat -> V) (map : nat -> nat) (i j : nat) (v : V),
  (forall a b, map a = map b -> a = b) ->
  generic_get (generic_set arr map i v) map j = if Nat.eqb j i then v else generic_get arr map j.
Proof.
  intros V arr map i j v Hinj. unfold generic_get, generic_set, upd.
  destruct (Nat.eqb j i) eqn:E.
  - apply Nat.eqb_eq in E. subst. rewrite Nat.eqb_refl. reflexivity.
  - destruct (Nat.eqb (map j) (map i)) eqn:E2; [|reflexivity].
    apply Nat.eqb_eq in E2. apply Hinj in E2. subst. rewrite Nat.eqb_refl in E. discriminate.
Qed.
Print Assumptions C10_generic_indexer.

(** SafeMustGet and SafeGet address the same slot for flagged indexers ... *)
Theorem C10_must_agrees :
  forall (V : Type) (ix : indexer V) (T : key) (ai : AI) (idx k : nat) (v : V),
  ix_flagged ix = true \/ ix_slot ix T = None ->
  SafeMustSlot ai ix T idx = Slot k -> SafeGet ai ix T idx v = (true, ix_data ix k, [k]).
Proof.
  intros V ix T ai idx k v Hf H. unfold SafeMustSlot in H. unfold SafeGet.
  destruct (ix_null ix).
  - destruct (ix_flagged ix); [destruct (ix_slot ix T)|destruct ai; [destruct (ix_has_int ix)|]]; discriminate.
  - destruct (ix_flagged ix) eqn:F.
    + destruct (ix_slot ix T); [|discriminate]. injection H as ->. reflexivity.
    + destruct Hf as [?|Hf]; [discriminate|]. rewrite Hf. destruct ai; [|discriminate].
      destruct (ix_has_int ix); [|discriminate]. injection H as ->. reflexivity.
Qed.
Print Assumptions C10_must_agrees.
(** ... but not for a user indexer that provides operator[](T) without the is_type_indexable flag: SafeGet
    reads the named slot, SafeMustGet the numeric one *)
Theorem C56_must_disagrees_unflagged_refuted :
  exists (ix : indexer nat) (T : key) (idx k : nat),
    SafeMustSlot Numeric ix T idx = Slot k /\ fst (SafeGet Numeric ix T idx 0) <> (true, ix_data ix k).
Proof.
  exists (unflagged_indexer [Base 7] (fun i => i + 10)), (mkKey (Base 7) 0), 3, 3.
  split; [reflexivity|]. vm_compute. discriminate.
Qed.
Print Assumptions C56_must_disagrees_unflagged_refuted.

(** indices of the same type with different payload (MassFractions(0), MassFractions(1)) share one slot of
    a variadic indexer: writing one changes the other *)
Theorem C56_payload_aliases_refuted :
  exists (ts : list ty) (d : nat -> nat) (T T' : key),
    NoDup ts /\ T <> T' /\
    fst (SafeGet TypeOnly (write_all TypeOnly (variadic_indexer ts d) [(T, 5)]) T' 0 0) = (true, 5) /\
    fst (SafeGet TypeOnly (variadic_indexer ts d) T' 0 0) = (true, 0).
Proof.
  exists [Base 8], (fun _ => 0), (mkKey (Base 8) 0), (mkKey (Base 8) 1).
  split; [repeat constructor; simpl; tauto|]. split; [discriminate|]. split; reflexivity.
Qed.
Print Assumptions C56_payload_aliases_refuted.

(** non-vacuity *)
Example C10_instance :
  fst (SafeGet TypeOnly (write_all TypeOnly (variadic_indexer [Base 1; Base 2; Base 3] (fun i => i))
     [(mkKey (Base 2) 0, 50); (mkKey (Base 3) 0, 60); (mkKey (Base 9) 0, 70); (mkKey (Base 2) 0, 80)])
     (mkKey (Base 2) 0) 0 0) = (true, 80).
Proof. reflexivity. Qed.
