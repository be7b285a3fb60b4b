(** Arithmetic interface used for control-flow heavy numerical code.

    The C++ code computes in [Real] = double (ports-of-call portability.hpp).
    A model function is written once over an [Arith] record and can then be read
      - over the exact reals ([RArith]), or
      - over IEEE binary64 ([FArith], Coq primitive floats, executable),
      - or over anything at all (theorems quantified over every [Arith]).
    No algebraic law is assumed in the record. *)
From Coq Require Import ZArith Reals Floats Uint63.
From Flocq Require Import Core.Raux.

Record Arith := MkArith {
  num : Type;
  add : num -> num -> num;
  sub : num -> num -> num;
  mul : num -> num -> num;
  div : num -> num -> num;
  absn : num -> num;
  ltb : num -> num -> bool;   (* C++ <  : false if an operand is NaN *)
  leb : num -> num -> bool;   (* C++ <= *)
  eqb : num -> num -> bool;   (* C++ == *)
  isnan : num -> bool;        (* std::isnan *)
  isinf : num -> bool;        (* std::isinf *)
  ofQ : Z -> positive -> num  (* the literal p/q *)
}.

Arguments add {_}. Arguments sub {_}. Arguments mul {_}. Arguments div {_}.
Arguments absn {_}. Arguments ltb {_}. Arguments leb {_}. Arguments eqb {_}.
Arguments isnan {_}. Arguments isinf {_}. Arguments ofQ {_}.

Declare Scope arith_scope.
Delimit Scope arith_scope with A.
Infix "+" := add : arith_scope.
Infix "-" := sub : arith_scope.
Infix "*" := mul : arith_scope.
Infix "/" := div : arith_scope.
Infix "<?" := ltb : arith_scope.
Infix "<=?" := leb : arith_scope.
Infix "=?" := eqb : arith_scope.

(** integer literal *)
Definition lit {A : Arith} (z : Z) : num A := ofQ z 1.

(** std::min(a,b) = (b < a) ? b : a ; std::max(a,b) = (a < b) ? b : a *)
Definition amin {A : Arith} (a b : num A) : num A := if (b <? a)%A then b else a.
Definition amax {A : Arith} (a b : num A) : num A := if (a <? b)%A then b else a.

(** Exact reals. There is no NaN and no infinity; division by zero is excluded in theorem
    statements, never used. *)
Definition RArith : Arith :=
  {| num := R; add := Rplus; sub := Rminus; mul := Rmult; div := Rdiv; absn := Rabs;
     ltb := Rlt_bool; leb := Rle_bool; eqb := Req_bool;
     isnan := fun _ => false; isinf := fun _ => false;
     ofQ := fun p q => (IZR p / IZR (Zpos q))%R |}.

(** IEEE binary64 (primitive floats, round to nearest even). The literal p/q is the correctly
    rounded quotient of two integers that are exactly representable (|p|, q <= 2^53). *)
Definition float_of_Z (z : Z) : float :=
  match z with
  | Z0 => 0%float
  | Zpos _ => PrimFloat.of_uint63 (Uint63.of_Z z)
  | Zneg p => (- PrimFloat.of_uint63 (Uint63.of_Z (Zpos p)))%float
  end.

Definition FArith : Arith :=
  {| num := float; add := PrimFloat.add; sub := PrimFloat.sub; mul := PrimFloat.mul;
     div := PrimFloat.div; absn := PrimFloat.abs;
     ltb := PrimFloat.ltb; leb := PrimFloat.leb; eqb := PrimFloat.eqb;
     isnan := PrimFloat.is_nan; isinf := PrimFloat.is_infinity;
     ofQ := fun p q => PrimFloat.div (float_of_Z p) (float_of_Z (Zpos q)) |}.
