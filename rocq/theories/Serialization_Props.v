(** C11, C12: serialisation.  Vocabulary (tables, inside, disjoint, tables_apart, tables_within, same_object,
    same_outside, consecutive) is at the end of Serialization_Model.v. *)
From Coq Require Import List ZArith Bool Lia.
From Verif Require Import Serialization_Model Serialization_Proofs.
Import ListNotations.
Open Scope Z_scope.

(** C11, private memory: for every object, contents and destination not overlapping the object's own tables *)
Theorem C11_round_trip_private : forall (P : platform) check m dst o root,
  representable P o -> tables_apart P o dst (SerializedSizeInBytes P o) ->
  exists m2 o1, Serialize P m dst o = Some (m2, SerializedSizeInBytes P o) /\
    same_outside P m m2 dst (SerializedSizeInBytes P o) /\
    DeSerialize P check m2 dst (mkSettings 0 root) = Some (m2, o1, SerializedSizeInBytes P o) /\
    same_object P m o m2 o1 /\ tables_within P o1 dst (SerializedSizeInBytes P o).
Proof. exact single_private. Qed.
Print Assumptions C11_round_trip_private.

(** C11, shared memory: the root copies the tables into the shared segment and writes nothing else; a second rank
    then restores the same object from its serialised copy without writing a byte. *)
Theorem C11_round_trip_shared : forall (P : platform) check m dst o data,
  representable P o -> o_kind o = Honors -> 0 < data ->
  tables_apart P o dst (SerializedSizeInBytes P o) ->
  disjoint dst (SerializedSizeInBytes P o) data (SharedMemorySizeInBytes P o) ->
  exists m2 m3 o1 o2, Serialize P m dst o = Some (m2, SerializedSizeInBytes P o) /\
    DeSerialize P check m2 dst (mkSettings data true) = Some (m3, o1, SerializedSizeInBytes P o) /\
    same_outside P m2 m3 data (SharedMemorySizeInBytes P o) /\
    same_object P m o m3 o1 /\ tables_within P o1 data (SharedMemorySizeInBytes P o) /\
    DeSerialize P check m3 dst (mkSettings data false) = Some (m3, o2, SerializedSizeInBytes P o) /\
    same_object P m o m3 o2 /\ tables_within P o2 data (SharedMemorySizeInBytes P o).
Proof. exact single_shared. Qed.
Print Assumptions C11_round_trip_shared.

(** A concrete platform: a byte holds a number or (the single byte of) an object. *)
Definition toy : platform.
Proof.
  refine {| byte := nat + obj unit; stat := unit; SZ := 1;
            enc := fun o => [inr o];
            dec := fun l => match l with [inr o] => o | _ => mkObj tt Honors [] end;
            representable := fun _ => True; SIZE_T := 1;
            encn := fun n => [inl n]; decn := fun l => match l with [inl n] => n | _ => O end;
            representable_n := fun _ => True |}; auto.
Defined.
Definition toy_mem : mem toy := fun x => inl (Z.to_nat x).
Definition tab (p : Z) (k : kind) : obj unit := mkObj tt k [(2%nat, p); (1%nat, p + 7)].

(** Helmholtz (kind Ignores) with shared memory: the object still points into the serialised buffer. *)
Theorem C56_shared_helmholtz_refuted :
  ~ forall (P : platform) check m dst o data, representable P o -> 0 < data ->
      tables_apart P o dst (SerializedSizeInBytes P o) ->
      disjoint dst (SerializedSizeInBytes P o) data (SharedMemorySizeInBytes P o) ->
      forall m2 n m3 o1 n1, Serialize P m dst o = Some (m2, n) ->
        DeSerialize P check m2 dst (mkSettings data true) = Some (m3, o1, n1) ->
        tables_within P o1 data (SharedMemorySizeInBytes P o).
Proof.
  intros H.
  assert (A : tables_apart toy (tab 100 Ignores) 300 (SerializedSizeInBytes toy (tab 100 Ignores))).
  { intros b [<-|[<-|[]]] x; unfold inside; cbn; lia. }
  assert (D : disjoint 300 (SerializedSizeInBytes toy (tab 100 Ignores)) 400 (SharedMemorySizeInBytes toy (tab 100 Ignores))).
  { intros x; unfold inside; cbn; lia. }
  specialize (H toy true toy_mem 300 (tab 100 Ignores) 400 I ltac:(lia) A D _ _ _ _ _ eq_refl eq_refl).
  specialize (H _ (or_introl eq_refl) 301). unfold inside in H. cbn in H. lia.
Qed.
Print Assumptions C56_shared_helmholtz_refuted.

(** C12: any list of objects, shared memory, root rank *)
Theorem C12_bulk_shared_root : forall (P : platform) check m dst os data,
  Forall (fun o => representable P o /\ o_kind o = Honors) os -> representable_n P (length os) ->
  (forall o, In o os -> tables_apart P o dst (bulk_size P os)) ->
  0 < data -> disjoint dst (bulk_size P os) data (bulk_shared_size P os) ->
  exists m2 m3 os', BulkSerialize P m dst os = Some (m2, bulk_size P os) /\
    same_outside P m m2 dst (bulk_size P os) /\
    BulkDeSerialize P check m2 dst (mkSettings data true) = Some (m3, os', bulk_size P os) /\
    Forall2 (fun o o1 => same_object P m o m3 o1) os os' /\ consecutive P data os' /\
    same_outside P m2 m3 data (bulk_shared_size P os).
Proof. exact bulk_root. Qed.
Print Assumptions C12_bulk_shared_root.

(** ... and a further rank after the root, without writing a byte *)
Theorem C12_bulk_shared_other_rank : forall (P : platform) check m dst os data,
  Forall (fun o => representable P o /\ o_kind o = Honors) os -> representable_n P (length os) ->
  (forall o, In o os -> tables_apart P o dst (bulk_size P os)) ->
  0 < data -> disjoint dst (bulk_size P os) data (bulk_shared_size P os) ->
  forall m2 n m3 os' n', BulkSerialize P m dst os = Some (m2, n) ->
  BulkDeSerialize P check m2 dst (mkSettings data true) = Some (m3, os', n') ->
  exists os'', BulkDeSerialize P check m3 dst (mkSettings data false) = Some (m3, os'', bulk_size P os) /\
    Forall2 (fun o o1 => same_object P m o m3 o1) os os'' /\ consecutive P data os''.
Proof. exact bulk_nonroot. Qed.
Print Assumptions C12_bulk_shared_other_rank.

(** C12 without shared memory (the default settings): holds when at most one object has tables.
    For two or more tabulated objects it is false (next theorem, C56). *)
Theorem C12_bulk_private : forall (P : platform) check m dst pre o post root,
  Forall (fun q => representable P q /\ DynamicMemorySizeInBytes P q = O) pre -> representable P o ->
  Forall (fun q => representable P q /\ DynamicMemorySizeInBytes P q = O) post ->
  representable_n P (length (pre ++ o :: post)) ->
  (forall q, In q (pre ++ o :: post) -> tables_apart P q dst (bulk_size P (pre ++ o :: post))) ->
  exists m2 os', BulkSerialize P m dst (pre ++ o :: post) = Some (m2, bulk_size P (pre ++ o :: post)) /\
    BulkDeSerialize P check m2 dst (mkSettings 0 root) = Some (m2, os', bulk_size P (pre ++ o :: post)) /\
    Forall2 (fun q q1 => same_object P m q m2 q1) (pre ++ o :: post) os'.
Proof. exact bulk_one. Qed.
Print Assumptions C12_bulk_private.

(** serialization_utils.hpp:92 advances stngs_loc.data even when it is null: the second tabulated object is
    silently given the address "size of the first object's tables". *)
Theorem C56_bulk_private_refuted :
  ~ forall (P : platform) check m dst os root,
      Forall (fun o => representable P o /\ o_kind o = Honors) os -> representable_n P (length os) ->
      (forall o, In o os -> tables_apart P o dst (bulk_size P os)) ->
      forall m2 n m3 os' n', BulkSerialize P m dst os = Some (m2, n) ->
      BulkDeSerialize P check m2 dst (mkSettings 0 root) = Some (m3, os', n') ->
      Forall2 (fun q q1 => same_object P m q m3 q1) os os'.
Proof.
  intros H.
  assert (A : forall o, In o [tab 100 Honors; tab 200 Honors] ->
     tables_apart toy o 300 (bulk_size toy [tab 100 Honors; tab 200 Honors])).
  { intros o [<-|[<-|[]]] b [<-|[<-|[]]] x; unfold inside; cbn; lia. }
  specialize (H toy true toy_mem 300 [tab 100 Honors; tab 200 Honors] false
     ltac:(repeat constructor) I A _ _ _ _ _ eq_refl eq_refl).
  inversion H as [|? ? ? ? _ H1]; subst. inversion H1 as [|? ? ? ? H2 _]; subst.
  destruct H2 as [_ [_ [_ E]]]. vm_compute in E. discriminate.
Qed.
Print Assumptions C56_bulk_private_refuted.

(** the hypotheses are met *)
Example C11_case : representable toy (tab 100 Honors) /\ o_kind (tab 100 Honors) = Honors /\
  tables_apart toy (tab 100 Honors) 300 (SerializedSizeInBytes toy (tab 100 Honors)) /\
  disjoint 300 (SerializedSizeInBytes toy (tab 100 Honors)) 400 (SharedMemorySizeInBytes toy (tab 100 Honors)) /\
  tables toy toy_mem (tab 100 Honors) = [[inl 100%nat; inl 101%nat]; [inl 107%nat]].
Proof.
  split; [exact I|]. split; [reflexivity|]. split; [|split; [intros x; unfold inside; cbn; lia|reflexivity]].
  intros b [<-|[<-|[]]] x; unfold inside; cbn; lia.
Qed.
Example C12_case : let os := [tab 100 Honors; mkObj tt Honors []; tab 200 Honors] in
  Forall (fun o => representable toy o /\ o_kind o = Honors) os /\
  (forall o, In o os -> tables_apart toy o 300 (bulk_size toy os)) /\
  disjoint 300 (bulk_size toy os) 400 (bulk_shared_size toy os) /\ bulk_shared_size toy os = 6%nat.
Proof.
  cbv zeta. split; [repeat constructor|]. split; [|split; [intros x; unfold inside; cbn; lia|reflexivity]].
  intros o [<-|[<-|[<-|[]]]] b Hb; cbn in Hb; [destruct Hb as [<-|[<-|[]]]|destruct Hb|destruct Hb as [<-|[<-|[]]]];
    intros x; unfold inside; cbn; lia.
Qed.
