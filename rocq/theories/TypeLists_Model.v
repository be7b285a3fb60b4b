(** Model of singularity-eos/base/variadic_utils.hpp (compile-time type lists) and of
    eos/eos_type_lists.hpp.  A C++ type is a finite tree; template instantiation is modelled either by a
    function or, for the partially specialised flatten_helper, by the relation its specialisations define. *)
From Coq Require Import List Arith Bool.
Import ListNotations.

(** types: a plain class, an adapter (modifier) class template applied to a type, a type_list *)
Inductive ty : Type :=
| Base (n : nat)
| App (adapter : nat) (t : ty)
| TL (l : list ty).

Fixpoint ty_eqb (a b : ty) {struct a} : bool :=
  match a, b with
  | Base n, Base m => Nat.eqb n m
  | App f x, App g y => Nat.eqb f g && ty_eqb x y
  | TL l, TL k =>
      (fix go l k := match l, k with
        | [], [] => true | x :: l', y :: k' => ty_eqb x y && go l' k' | _, _ => false end) l k
  | _, _ => false
  end.

(** variadic_utils.hpp:76-83: conjunction<Bs...> is is_same<bool_pack<true,Bs...>, bool_pack<Bs...,true>> *)
Fixpoint blist_eqb (a b : list bool) : bool :=
  match a, b with
  | [], [] => true | x :: a', y :: b' => Bool.eqb x y && blist_eqb a' b' | _, _ => false end.
Definition conjunction (bs : list bool) : bool := blist_eqb (true :: bs) (bs ++ [true]).
Definition disjunction (bs : list bool) : bool := negb (conjunction (map negb bs)).
(** variadic_utils.hpp:85-92 *)
Definition contains (t : ty) (ts : list ty) : bool := disjunction (map (ty_eqb t) ts).

(** variadic_utils.hpp:103-117; None is the static_assert failure *)
Fixpoint get_index_from (t : ty) (ts : list ty) (current_index : nat) : option nat :=
  match ts with
  | [] => None
  | h :: r => if ty_eqb t h then Some current_index else get_index_from t r (S current_index)
  end.
Definition get_index (t : ty) (ts : list ty) : option nat := get_index_from t ts 0.

(** variadic_utils.hpp:146-176: flatten_helper<acc, input>::type is out.  The first specialisation is more
    specialised than the second, so the second applies only when the head is not a type_list. *)
Definition is_TL (t : ty) : bool := match t with TL _ => true | _ => false end.
Inductive flatten_helper : list ty -> list ty -> list ty -> Prop :=
| FH_nested ts heads tail out :
    flatten_helper ts (heads ++ tail) out -> flatten_helper ts (TL heads :: tail) out
| FH_leaf ts head tail out :
    is_TL head = false -> flatten_helper (ts ++ [head]) tail out -> flatten_helper ts (head :: tail) out
| FH_nil ts : flatten_helper ts [] ts.
(** variadic_utils.hpp:178-186 *)
Definition flatten (ts out : list ty) : Prop := flatten_helper [] ts out.

(** variadic_utils.hpp:188-196 *)
Definition is_not_duplicate_nested (a : nat) (t : ty) : bool :=
  match t with App f (App g _) => negb (Nat.eqb f a && Nat.eqb g a) | _ => true end.
(** variadic_utils.hpp:198-226 *)
Fixpoint filter_ty (a : nat) (ts : list ty) : list ty :=
  match ts with
  | [] => []
  | t :: r => if is_not_duplicate_nested a t then t :: filter_ty a r else filter_ty a r
  end.
(** variadic_utils.hpp:228-241 *)
Inductive filter_nested_variadic : list nat -> list ty -> list ty -> Prop :=
| FN_nil l : filter_nested_variadic [] l l
| FN_cons first us ts l1 out :
    flatten [TL (filter_ty first ts)] l1 ->
    filter_nested_variadic us l1 out -> filter_nested_variadic (first :: us) ts out.
(** variadic_utils.hpp:243-257: type_list<transform_list_struct<Ts,Us...>::type...> *)
Inductive transform_variadic_list (us : list ty) (ts : list nat) (out : list ty) : Prop :=
| TVL l1 : flatten (map (fun t => TL (map (App t) us)) ts) l1 ->
           filter_nested_variadic ts l1 out -> transform_variadic_list us ts out.
(** variadic_utils.hpp:259-269 (n-ary, right nested) *)
Fixpoint concat_tl (ls : list (list ty)) : list ty :=
  match ls with [] => [] | l :: r => l ++ concat_tl r end.
(** variadic_utils.hpp:271-280 *)
Definition pack_size {A} (l : list A) : nat := length l.

(** eos_type_lists.hpp:73-98, for an arbitrary full_eos_list; adapters are numbered *)
Definition SHIFTED := 0. Definition SCALED := 1. Definition RAMP := 2.
Inductive combined_list (full out : list ty) : Prop :=
| CL shifted scaled_1 scaled_of_shifted ramped :
    transform_variadic_list full [SHIFTED] shifted ->
    transform_variadic_list full [SCALED] scaled_1 ->
    transform_variadic_list shifted [SCALED] scaled_of_shifted ->
    transform_variadic_list (concat_tl [full; shifted; concat_tl [scaled_1; scaled_of_shifted]]) [RAMP] ramped ->
    out = concat_tl [concat_tl [full; shifted; concat_tl [scaled_1; scaled_of_shifted]]; ramped] ->
    combined_list full out.
