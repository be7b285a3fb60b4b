(** Model of singularity-eos/base/indexable_types.hpp and base/generic_indexer.hpp. *)
From Coq Require Import List Arith Bool.
From Verif Require Import TypeLists_Model.
Import ListNotations.

(** An index object passed to operator[]: its C++ type and its run-time payload (only MassFractions has
    one, indexable_types.hpp:339-343). *)
Record key := mkKey { k_type : ty; k_payload : nat }.

Section Indexer.
Context {V : Type}.

(** What SafeGet/SafeSet can observe of an Indexer_t: whether lambda compares equal to nullptr
    (variadic_utils.hpp:55-66), which index types operator[] accepts and to which storage slot it maps
    them (is_indexable), whether is_type_indexable is declared and true, whether integer indexing
    compiles, and the storage. *)
Record indexer := mkIndexer {
  ix_null : bool;
  ix_slot : key -> option nat;
  ix_flagged : bool;
  ix_has_int : bool;
  ix_data : nat -> V
}.
Definition upd (d : nat -> V) (i : nat) (v : V) : nat -> V := fun j => if Nat.eqb j i then v else d j.
Definition set_data (ix : indexer) (d : nat -> V) : indexer :=
  mkIndexer (ix_null ix) (ix_slot ix) (ix_flagged ix) (ix_has_int ix) d.

(** trace of storage accesses: what is dereferenced *)
Definition access := list nat.

Inductive AI := Numeric | TypeOnly.

(** indexable_types.hpp:56-82 impl::SafeGet.  Result: returned bool, new value of out, accesses. *)
Definition SafeGet (ai : AI) (ix : indexer) (t : key) (idx : nat) (out : V) : bool * V * access :=
  if ix_null ix then (false, out, []) else
  match ix_slot ix t with
  | Some k => (true, ix_data ix k, [k])
  | None =>
      if ix_flagged ix then (false, out, []) else
      match ai with
      | Numeric => if ix_has_int ix then (true, ix_data ix idx, [idx]) else (false, out, [])
      | TypeOnly => (false, out, [])
      end
  end.
(** indexable_types.hpp:93-118 impl::SafeSet *)
Definition SafeSet (ai : AI) (ix : indexer) (t : key) (idx : nat) (inp : V) : bool * indexer * access :=
  if ix_null ix then (false, ix, []) else
  match ix_slot ix t with
  | Some k => (true, set_data ix (upd (ix_data ix) k inp), [k])
  | None =>
      if ix_flagged ix then (false, ix, []) else
      match ai with
      | Numeric => if ix_has_int ix then (true, set_data ix (upd (ix_data ix) idx inp), [idx]) else (false, ix, [])
      | TypeOnly => (false, ix, [])
      end
  end.
(** indexable_types.hpp:142-170 impl::SafeMustGetSet: the slot referred to.
    Abort: PORTABLE_ALWAYS_REQUIRE fires; NoCompile: a static_assert fires. *)
Inductive must := Slot (k : nat) | Abort | NoCompile.
Definition SafeMustSlot (ai : AI) (ix : indexer) (t : key) (idx : nat) : must :=
  let compiled :=
    if ix_flagged ix then match ix_slot ix t with Some k => Slot k | None => NoCompile end
    else match ai with
         | Numeric => if ix_has_int ix then Slot idx else NoCompile
         | TypeOnly => NoCompile end in
  match compiled with NoCompile => NoCompile | c => if ix_null ix then Abort else c end.

(** VariadicIndexerBase<Data_t, Ts...>, indexable_types.hpp:281-336: operator[](const T &t) ignores the
    payload of t and uses GetIndexInTL<T, Ts...>(); EnableIfContained restricts T to Ts. *)
Definition variadic_slot (ts : list ty) (k : key) : option nat :=
  if contains (k_type k) ts then get_index (k_type k) ts else None.
Definition variadic_indexer (ts : list ty) (d : nat -> V) : indexer :=
  mkIndexer false (variadic_slot ts) true true d.
(** a raw Real* lambda, possibly null *)
Definition pointer_indexer (null : bool) (d : nat -> V) : indexer :=
  mkIndexer null (fun _ => None) false true d.
(** a user class with operator[](T) for some T and operator[](size_t) but without is_type_indexable *)
Definition unflagged_indexer (ts : list ty) (d : nat -> V) : indexer :=
  mkIndexer false (variadic_slot ts) false true d.

(** a sequence of writes through SafeSet *)
Definition write_all (ai : AI) (ix : indexer) (ws : list (key * V)) : indexer :=
  fold_left (fun ix w => snd (fst (SafeSet ai ix (fst w) 0 (snd w)))) ws ix.

(** GenericIndexer, generic_indexer.hpp:23-52: operator[](i) is arr_[map_[i]] *)
Definition generic_get (arr : nat -> V) (map : nat -> nat) (i : nat) : V := arr (map i).
Definition generic_set (arr : nat -> V) (map : nat -> nat) (i : nat) (v : V) : nat -> V := upd arr (map i) v.
End Indexer.
Arguments indexer : clear implicits.
