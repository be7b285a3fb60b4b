(** Model of the EOS variant as a tagged union, of Modify / UnmodifyOnce / GetUnmodifiedObject (eos_base.hpp:350-379, 811-823,
    eos_variant.hpp:145-224, 785-803), of EOSBuilder (eos_builder.hpp:33-52) and of the modifier stacks built by the C
    interface (singularity_eos_init_utils.hpp:24-86, singularity_eos.cpp:67-103).
    An EOS object is a value of a class or of a modifier class template around another object; [V] is the data of a class,
    [A] the constructor arguments a modifier keeps.  A modifier constructor stores the wrapped object unchanged and may abort
    in CheckParams ([ctor_ok]).  C++ types are those of TypeLists_Model. *)
From Coq Require Import List Arith Bool.
From Verif Require Import TypeLists_Model.
Import ListNotations.

Section Variant.
Variables V A : Type.
Variable ctor_ok : nat -> A -> bool.      (* CheckParams of the modifier class: false = abort *)

Inductive obj : Type := Plain (cls : nat) (v : V) | Modified (modifier : nat) (args : A) (t_ : obj).
(** the C++ type of an object *)
Fixpoint type_of (o : obj) : ty := match o with Plain n _ => Base n | Modified a _ t => App a (type_of t) end.

(** IsModified: eos_base.hpp:811 (false) and SG_ADD_MODIFIER_METHODS, eos_base.hpp:113 (true) *)
Definition IsModified (o : obj) : bool := match o with Plain _ _ => false | Modified _ _ _ => true end.
(** UnmodifyOnce: eos_base.hpp:813 (the object itself) and 114 (a copy of t_) *)
Definition UnmodifyOnce (o : obj) : obj := match o with Plain _ _ => o | Modified _ _ t => t end.
(** GetUnmodifiedObject: eos_base.hpp:815-823 *)
Fixpoint GetUnmodifiedObject (o : obj) : obj := match o with Plain _ _ => o | Modified _ _ t => GetUnmodifiedObject t end.
(** EosBase::Modify, eos_base.hpp:357-361 *)
Definition obj_Modify (a : nat) (args : A) (o : obj) : option obj := if ctor_ok a args then Some (Modified a args o) else None.

(** ** the variant over the type list [ts] *)
Record variant := mkVar { index : nat; held : obj }.
(** converting constructor, eos_variant.hpp:155-162: does not compile unless the type is in the list; the index is that of the
    (unique) alternative of that type *)
Definition make (ts : list ty) (o : obj) : option variant :=
  match get_index (type_of o) ts with Some i => Some (mkVar i o) | None => None end.
(** visit: a table with one function per alternative, indexed by the stored index; [None]: an alternative of another type *)
Definition visit {B} (ts : list ty) (f : ty -> obj -> B) (v : variant) : option B :=
  match nth_error (map f ts) (index v) with Some g => Some (g (held v)) | None => None end.
(** get, eos_variant.hpp:176-182; IsType, 844-847: decided by the stored index *)
Definition IsType (ts : list ty) (t : ty) (v : variant) : bool :=
  match get_index t ts with Some i => Nat.eqb i (index v) | None => false end.
Definition get (ts : list ty) (t : ty) (v : variant) : option obj := if IsType ts t v then Some (held v) else None.
(** ModifiedInVariant, eos_variant.hpp:207-212; ModifiedInList, eos_base.hpp:351-354: the type is the alternative's, so
    the list is searched for Mod applied to it *)
Definition ModifiedInVariant (ts : list ty) (a : nat) (v : variant) : option bool :=
  visit ts (fun t _ => contains (App a t) ts) v.
(** ConditionallyModify, eos_base.hpp:365-379 *)
Definition ConditionallyModify (ts : list ty) (a : nat) (args : A) (t : ty) (o : obj) : option obj :=
  if contains (App a t) ts then obj_Modify a args o else Some o.
(** Modify, eos_variant.hpp:213-224; [None] = abort *)
Definition Modify (ts : list ty) (a : nat) (args : A) (v : variant) : option variant :=
  match ModifiedInVariant ts a v with
  | Some true =>
      match visit ts (fun t o => ConditionallyModify ts a args t o) v with
      | Some (Some o) => make ts o
      | _ => None
      end
  | _ => None
  end.
(** eos_variant.hpp:789-803 *)
Definition var_UnmodifyOnce (ts : list ty) (v : variant) : option variant :=
  match visit ts (fun _ o => UnmodifyOnce o) v with Some o => make ts o | None => None end.
Definition var_GetUnmodifiedObject (ts : list ty) (v : variant) : option variant :=
  match visit ts (fun _ o => GetUnmodifiedObject o) v with Some o => make ts o | None => None end.
(** 785-787 *)
Definition var_IsModified (ts : list ty) (v : variant) : option bool := visit ts (fun _ o => IsModified o) v.
(** eos_builder.hpp:32-46 *)
Definition is_modifiable (a : nat) (u : ty) (ts : list ty) : bool := conjunction [contains u ts; contains (App a u) ts].
(** eos_builder.hpp:48-51 *)
Definition builder_Modify := Modify.

(** ** the C interface *)
Variable mkargs : list V -> A.    (* the Real arguments of a modifier's constructor *)
(** applyShiftAndScale, singularity_eos_init_utils.hpp:24-39 *)
Definition applyShiftAndScale (eos : obj) (scaled shifted : bool) (scale shift : V) : option obj :=
  if shifted && scaled then
    match obj_Modify SHIFTED (mkargs [shift]) eos with Some a => obj_Modify SCALED (mkargs [scale]) a | None => None end
  else if shifted then obj_Modify SHIFTED (mkargs [shift]) eos
  else if scaled then obj_Modify SCALED (mkargs [scale]) eos
  else Some eos.
(** applyWrappedShiftAndScale<T, BilinearRampEOS>, 41-60 *)
Definition applyWrappedShiftAndScale (eos : obj) (scaled shifted : bool) (scale shift : V) (ramp_args : list V) : option obj :=
  if shifted && scaled then
    match obj_Modify SHIFTED (mkargs [shift]) eos with
    | Some a => match obj_Modify SCALED (mkargs [scale]) a with Some b => obj_Modify RAMP (mkargs ramp_args) b | None => None end
    | None => None end
  else if shifted then
    match obj_Modify SHIFTED (mkargs [shift]) eos with Some a => obj_Modify RAMP (mkargs ramp_args) a | None => None end
  else if scaled then
    match obj_Modify SCALED (mkargs [scale]) eos with Some b => obj_Modify RAMP (mkargs ramp_args) b | None => None end
  else obj_Modify RAMP (mkargs ramp_args) eos.
(** applyShiftAndScaleAndBilinearRamp, 62-73 *)
Definition applyAll (eos : obj) (scaled shifted ramped : bool) (scale shift : V) (ramp_args : list V) : option obj :=
  if ramped then applyWrappedShiftAndScale eos scaled shifted scale shift ramp_args
  else applyShiftAndScale eos scaled shifted scale shift.
(** pAlpha2BilinearRampParams (ramps_eos.hpp:43-77) as a function of the object and (alpha0, Pe, Pc) to (r0, a, b, c) *)
Variable palpha : obj -> V -> V -> V -> V * V * V * V.
(** the four flags and six values of an init_sg_* call *)
Record en := mkEn { e0 : bool; e1 : bool; e2 : bool; e3 : bool }.
Record vals := mkVals { v0 : V; v1 : V; v2 : V; v3 : V; v4 : V; v5 : V }.
(** body of init_sg_IdealGas and of every other init_sg_*, singularity_eos.cpp:67-78: the object stored, and the caller's
    vals array afterwards *)
Definition init_sg (cls : obj) (e : en) (v : vals) : option (obj * vals) :=
  match applyShiftAndScale cls (e0 e) (e1 e) (v0 v) (v1 v) with
  | None => None
  | Some eosi =>
      let v' := if e3 e then let '(r0, a, b, c) := palpha eosi (v2 v) (v3 v) (v4 v) in mkVals (v0 v) (v1 v) r0 a b c else v in
      match applyAll cls (e0 e) (e1 e) (e2 e || e3 e) (v0 v') (v1 v') [v2 v'; v3 v'; v4 v'; v5 v'] with
      | Some o => Some (o, v')
      | None => None
      end
  end.
End Variant.
Arguments Plain {V A}. Arguments Modified {V A}. Arguments type_of {V A}. Arguments mkVar {V A}. Arguments index {V A}. Arguments held {V A}.
Arguments IsModified {V A}. Arguments UnmodifyOnce {V A}. Arguments GetUnmodifiedObject {V A}. Arguments make {V A}. Arguments visit {V A B}.
Arguments IsType {V A}. Arguments get {V A}. Arguments ModifiedInVariant {V A}. Arguments var_UnmodifyOnce {V A}.
Arguments var_GetUnmodifiedObject {V A}. Arguments var_IsModified {V A}.
Arguments Modify {V A}. Arguments obj_Modify {V A}. Arguments init_sg {V A}. Arguments mkVals {V}.
Arguments applyShiftAndScale {V A}. Arguments applyAll {V A}. Arguments applyWrappedShiftAndScale {V A}.
