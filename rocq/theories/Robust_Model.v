(** Model of singularity-eos/base/robust_utils.hpp, math_utils.hpp, error_utils.hpp over exact reals.
    T = double: numeric_limits::min() = 2^-1022, epsilon() = 2^-52,
    min_exponent = -1021, max_exponent = 1024. M_LN2 is modelled as the exact ln 2. *)
From Coq Require Import ZArith Reals Bool.
From Flocq Require Import Core.
Local Open Scope R_scope.

(** robust_utils.hpp:26-29 *)
Definition SMALL : R := 10 * bpow radix2 (-1022).
(** robust_utils.hpp:31-34 *)
Definition EPS : R := 10 * bpow radix2 (-52).
(** robust_utils.hpp:36-39 *)
Definition min_exp_arg : R := (-1021 - 1) * ln 2.
(** robust_utils.hpp:41-44 *)
Definition max_exp_arg : R := 1024 * ln 2.

(** robust_utils.hpp:46-49: std::max(val, EPS) *)
Definition make_positive (val : R) : R := Rmax val EPS.

(** robust_utils.hpp:51-54 *)
Definition make_bounded (val vmin vmax : R) : R :=
  Rmin (Rmax val (vmin + EPS)) (vmax * (1 - EPS)).

(** robust_utils.hpp:56-63: (0 <= val) - (val < 0); +1 at zero. Signed types only. *)
Definition sgn (val : R) : R := if Rle_bool 0 val then 1 else -1.

(** robust_utils.hpp:65-68, exactly as written, in exact arithmetic *)
Definition ratio_denominator (b : R) : R := b + sgn b * SMALL.
Definition ratio_exact (a b : R) : R := a / ratio_denominator b.

(** The same function in the semantics used by the thermodynamic modules: binary64 rounding absorbs
    SMALL as soon as |b| >= 2^-960 (theorem C01_ratio_absorbed), so the computed denominator is b. *)
Definition not_tiny (b : R) : Prop := bpow radix2 (-960) <= Rabs b.
Definition ratio (a b : R) : R :=
  if Rle_bool (bpow radix2 (-960)) (Rabs b) then a / b else ratio_exact a b.

(** [x + robust::SMALL()] in the same semantics (used inside logarithms by some EOS); for x >= 2^-960 binary64 rounding
    returns x (C01_ratio_absorbed: ratio_denominator b = b + SMALL for b >= 0) *)
Definition plus_small (x : R) : R := if Rle_bool (bpow radix2 (-960)) x then x else x + SMALL.

(** robust_utils.hpp:70-75. [None] = +infinity *)
Definition safe_arg_exp (x : R) : option R :=
  if Rlt_bool x min_exp_arg then Some 0
  else if Rlt_bool max_exp_arg x then None
  else Some (exp x).

(** math_utils.hpp:31-50. Template recursion pow<P>; the specialisations pow<0> and pow<1> end it.
    Recursion on [fuel] only bounds the instantiation depth; [ipow_pos] uses fuel P, which
    C02 shows to be enough (no [None] for any P). *)
Fixpoint ipow_pos (fuel : nat) (P : nat) (x : R) : option R :=
  match P with
  | O => Some 1
  | S O => Some x
  | _ =>
    match fuel with
    | O => None
    | S n =>
      if Nat.odd P then
        match ipow_pos n (P - 1) x with Some y => Some (x * y) | None => None end
      else
        match ipow_pos n (Nat.div2 P) x with Some y => Some (y * y) | None => None end
    end
  end.
Definition ipow (P : Z) (x : R) : option R :=
  match P with
  | Zneg p => match ipow_pos (Pos.to_nat p) (Pos.to_nat p) x with
              | Some y => Some (1 / y) | None => None end
  | _ => ipow_pos (Z.to_nat P) (Z.to_nat P) x
  end.

(** math_utils.hpp:57-60. The literal 2.30258509299405e+00 *)
Definition mu_ln10 : R := 230258509299405 / 100000000000000.
Definition mu_pow10 (x : R) : R := exp (mu_ln10 * x).

(** error_utils.hpp:32-39 over reals: std::isnormal(v) <-> 2^-1022 <= |v| < 2^1024 *)
Definition isnormal (v : R) : bool :=
  Rle_bool (bpow radix2 (-1022)) (Rabs v) && Rlt_bool (Rabs v) (bpow radix2 1024).
Definition is_normal_or_zero (v : R) : bool :=
  Req_bool v 0 || (isnormal (10000000000 * v) && isnormal v).
(** error_utils.hpp:41-47, 49-55 *)
Definition is_strictly_positive (v : R) : bool := Rlt_bool 0 v.
Definition is_non_negative (v : R) : bool := Rle_bool 0 v.
(** error_utils.hpp:59-68 *)
Definition violates_condition (v : R) (cond : R -> bool) : bool := negb (cond v).
(** error_utils.hpp:71-75 *)
Definition bad_value (v : R) : bool := violates_condition v is_normal_or_zero.
(** error_utils.hpp:76-80 *)
Definition non_positive_value (v : R) : bool := violates_condition v is_strictly_positive.
(** error_utils.hpp:81-85 (sic: is_strictly_positive) *)
Definition negative_value (v : R) : bool := violates_condition v is_strictly_positive.
