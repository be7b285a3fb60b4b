(** Model of object serialisation: eos/eos_base.hpp:740-800 (EosBase), eos/eos_variant.hpp:736-782 (Variant),
    base/spiner_table_utils.hpp:322-345 (SpinerTricks), the SetDynamicMemory overrides of the tabulated EOS
    and base/serialization_utils.hpp (BulkSerializer).
    Memory is a byte array indexed by addresses in Z; the null pointer is 0. *)
From Coq Require Import List ZArith Bool Lia.
Import ListNotations.
Open Scope Z_scope.

(** How the class implements SetDynamicMemory:
    [Honors]  eos_spiner_rho_sie.hpp:638-655, eos_spiner_rho_temp.hpp:528-543, eos_stellar_collapse.hpp:536-540,
              HelmElectrons (eos_helmholtz.hpp:237-241): use stngs.data when it is not null;
    [Ignores] Helmholtz (eos_helmholtz.hpp:502-505): calls electrons_.SetDynamicMemory(src), without stngs.
    Modifiers delegate (eos_base.hpp:115-124), so a modified EOS has the kind of the EOS it wraps.
    EOSPAC (external library calls) is not modelled. *)
Inductive kind := Honors | Ignores.

(** An EOS object: opaque plain data, implementation kind, and its DataBoxes (and the phase-name block) as
    (size in bytes, pointer), in the order of GetDataBoxPointers_().  A class without tables has none. *)
Record obj (S : Type) := mkObj { o_static : S; o_kind : kind; o_boxes : list (nat * Z) }.
Arguments mkObj {S}. Arguments o_static {S}. Arguments o_kind {S}. Arguments o_boxes {S}.

(** the platform: bytes, the object representation copied by memcpy(.., sizeof(CRTP)), size_t representation *)
Record platform := {
  byte : Type;
  stat : Type;
  SZ : nat;                                 (* sizeof(CRTP) resp. sizeof(Variant) *)
  enc : obj stat -> list byte;
  dec : list byte -> obj stat;
  representable : obj stat -> Prop;
  enc_len : forall o, length (enc o) = SZ;
  dec_enc : forall o, representable o -> dec (enc o) = o;
  SIZE_T : nat;                             (* sizeof(std::size_t) *)
  encn : nat -> list byte;
  decn : list byte -> nat;
  representable_n : nat -> Prop;
  encn_len : forall n, length (encn n) = SIZE_T;
  decn_encn : forall n, representable_n n -> decn (encn n) = n
}.

Section M.
Context (P : platform).
Notation Obj := (obj (stat P)).
Definition mem := Z -> byte P.

Fixpoint write (m : mem) (a : Z) (l : list (byte P)) : mem :=
  match l with [] => m | b :: r => write (fun x => if Z.eqb x a then b else m x) (a + 1) r end.
Fixpoint read (m : mem) (a : Z) (n : nat) : list (byte P) :=
  match n with O => [] | S k => m a :: read m (a + 1) k end.
(** memcpy of n bytes between non-overlapping regions *)
Definition memcpy (m : mem) (dst src : Z) (n : nat) : mem := write m dst (read m src n).

Fixpoint boxes_size (bs : list (nat * Z)) : nat :=
  match bs with [] => 0 | (s, _) :: r => s + boxes_size r end%nat.
(** spiner_table_utils.hpp:322-328 *)
Definition DynamicMemorySizeInBytes (o : Obj) : nat := boxes_size (o_boxes o).
(** eos_base.hpp:748-751 *)
Definition SharedMemorySizeInBytes (o : Obj) : nat := DynamicMemorySizeInBytes o.
(** spiner_table_utils.hpp:329-337 *)
Fixpoint dump (m : mem) (dst : Z) (bs : list (nat * Z)) : mem * nat :=
  match bs with
  | [] => (m, O)
  | (s, p) :: r =>
      let m1 := memcpy m dst p s in
      let (m2, n) := dump m1 (dst + Z.of_nat s) r in (m2, (s + n)%nat)
  end.
(** spiner_table_utils.hpp:338-345; setPointer returns the box size *)
Fixpoint set_pointers (base : Z) (bs : list (nat * Z)) : list (nat * Z) :=
  match bs with [] => [] | (s, _) :: r => (s, base) :: set_pointers (base + Z.of_nat s) r end.

(** constants.hpp:44-52 *)
Record settings := mkSettings { st_data : Z; st_root : bool }.
Definition DEFAULT_SHMEM_STNGS := mkSettings 0 false.
Definition CopyNeeded (st : settings) : bool := negb (Z.eqb (st_data st) 0) && st_root st.

Definition SetDynamicMemory (o : Obj) (src : Z) (st : settings) : Obj * nat :=
  let base := match o_kind o with
              | Honors => if Z.eqb (st_data st) 0 then src else st_data st
              | Ignores => src end in
  (mkObj (o_static o) (o_kind o) (set_pointers base (o_boxes o)), boxes_size (o_boxes o)).

(** eos_base.hpp:756-761 / eos_variant.hpp:749-751 *)
Definition SerializedSizeInBytes (o : Obj) : nat := (DynamicMemorySizeInBytes o + SZ P)%nat.
(** eos_base.hpp:762-773 / eos_variant.hpp:752-761; None is the PORTABLE_ALWAYS_REQUIRE failure *)
Definition Serialize (m : mem) (dst : Z) (o : Obj) : option (mem * nat) :=
  let m1 := write m dst (enc P o) in
  let '(m2, n) :=
    if Nat.ltb 0 (DynamicMemorySizeInBytes o) then dump m1 (dst + Z.of_nat (SZ P)) (o_boxes o) else (m1, O) in
  let offst := (SZ P + n)%nat in
  if Nat.eqb offst (SerializedSizeInBytes o) then Some (m2, offst) else None.
(** eos_base.hpp:782-800; [check] = true for EosBase (final size check), false for Variant
    (eos_variant.hpp:769-782 has none).  Memory, object, bytes consumed. *)
Definition DeSerialize (check : bool) (m : mem) (src : Z) (st : settings) : option (mem * Obj * nat) :=
  let o := dec P (read m src (SZ P)) in
  let offst := SZ P in
  let dyn := DynamicMemorySizeInBytes o in
  let '(m1, o1, n) :=
    if Nat.ltb 0 dyn then
      let m1 := if CopyNeeded st then memcpy m (st_data st) (src + Z.of_nat offst) dyn else m in
      let '(o1, n) := SetDynamicMemory o (src + Z.of_nat offst) st in (m1, o1, n)
    else (m, o, O) in
  if check && negb (Nat.eqb (offst + n) (SerializedSizeInBytes o1)) then None else Some (m1, o1, (offst + n)%nat).

(** *** BulkSerializer, serialization_utils.hpp:37-118 *)
Definition bulk_size (os : list Obj) : nat :=
  (SIZE_T P + fold_left (fun tot o => tot + SerializedSizeInBytes o) os 0)%nat.
Definition bulk_shared_size (os : list Obj) : nat :=
  (fold_left (fun tot o => tot + SharedMemorySizeInBytes o) os 0)%nat.
Fixpoint bulk_ser_loop (m : mem) (dst : Z) (offst : nat) (os : list Obj) : option (mem * nat) :=
  match os with
  | [] => Some (m, offst)
  | o :: r => match Serialize m (dst + Z.of_nat offst) o with
              | Some (m1, n) => bulk_ser_loop m1 dst (offst + n)%nat r | None => None end
  end.
(** serialization_utils.hpp:62-71 *)
Definition BulkSerialize (m : mem) (dst : Z) (os : list Obj) : option (mem * nat) :=
  match bulk_ser_loop (write m dst (encn P (length os))) dst (SIZE_T P) os with
  | Some (m1, offst) => if Nat.eqb offst (bulk_size os) then Some (m1, offst) else None
  | None => None
  end.
(** serialization_utils.hpp:79-99 loop: stngs_loc.data advances by SharedMemorySizeInBytes unconditionally *)
Fixpoint bulk_deser_loop (check : bool) (m : mem) (src : Z) (offst : nat) (data : Z) (root : bool) (shared : nat)
    (count : nat) (acc : list Obj) : option (mem * list Obj * nat * nat) :=
  match count with
  | O => Some (m, acc, offst, shared)
  | S k =>
      match DeSerialize check m (src + Z.of_nat offst) (mkSettings data root) with
      | Some (m1, o, n) =>
          let sb := SharedMemorySizeInBytes o in
          bulk_deser_loop check m1 src (offst + n)%nat (data + Z.of_nat sb) root (shared + sb)%nat k (acc ++ [o])
      | None => None
      end
  end.
Definition BulkDeSerialize (check : bool) (m : mem) (src : Z) (st : settings) : option (mem * list Obj * nat) :=
  let vsize := decn P (read m src (SIZE_T P)) in
  match bulk_deser_loop check m src (SIZE_T P) (st_data st) (st_root st) 0 vsize [] with
  | Some (m1, os, offst, shared) =>
      if Nat.eqb offst (bulk_size os) && Nat.eqb shared (bulk_shared_size os) then Some (m1, os, offst) else None
  | None => None
  end.

(** *** Specification vocabulary *)
(** bytes currently held in the tables of an object *)
Definition tables (m : mem) (o : Obj) : list (list (byte P)) := map (fun b => read m (snd b) (fst b)) (o_boxes o).
(** address x lies in [a, a+n) *)
Definition inside (a : Z) (n : nat) (x : Z) : Prop := a <= x < a + Z.of_nat n.
Definition disjoint (a : Z) (n : nat) (b : Z) (k : nat) : Prop := forall x, inside a n x -> inside b k x -> False.
(** the tables of o do not overlap [a,a+n) *)
Definition tables_apart (o : Obj) (a : Z) (n : nat) : Prop :=
  forall b, In b (o_boxes o) -> disjoint (snd b) (fst b) a n.
(** the tables of o lie in [a,a+n) *)
Definition tables_within (o : Obj) (a : Z) (n : nat) : Prop :=
  forall b, In b (o_boxes o) -> forall x, inside (snd b) (fst b) x -> inside a n x.
(** the same object up to where its tables are stored *)
Definition same_object (m1 : mem) (o1 : Obj) (m2 : mem) (o2 : Obj) : Prop :=
  o_static o1 = o_static o2 /\ o_kind o1 = o_kind o2 /\ map fst (o_boxes o1) = map fst (o_boxes o2) /\
  tables m1 o1 = tables m2 o2.
(** nothing outside [a,a+n) changed *)
Definition same_outside (m m' : mem) (a : Z) (n : nat) : Prop := forall x, ~ inside a n x -> m' x = m x.
(** the tables of the i-th object lie in the i-th of consecutive segments starting at data, of the objects' sizes *)
Fixpoint consecutive (data : Z) (os : list Obj) : Prop :=
  match os with
  | [] => True
  | o :: r => tables_within o data (DynamicMemorySizeInBytes o) /\
              consecutive (data + Z.of_nat (DynamicMemorySizeInBytes o)) r
  end.
End M.
