(** What "accurate in double precision" means *)
From Coq Require Import ZArith Reals.
From Flocq Require Import Core IEEE754.BinarySingleNaN IEEE754.PrimFloat.
Local Open Scope R_scope.

(** the real number a double stands for; not NaN, not infinite *)
Definition FR (x : PrimFloat.float) : R := B2R (Prim2B x).
Definition fin (x : PrimFloat.float) : Prop := PrimFloat.is_finite x = true.
(** IEEE rounding to nearest even, and half an ulp of 1 *)
Definition rnd (x : R) : R := round radix2 (FLT_exp (-1074) 53) ZnearestE x.
Definition u : R := bpow radix2 (-53).

(** [a] and [v] differ by at most k relative rounding errors: a factor between (1-u)^k and (1-u)^-k *)
Definition near (k : nat) (a v : R) : Prop := (1 - u) ^ k * v <= a /\ (1 - u) ^ k * a <= v.
(** the double [x] is the real [v] up to k rounding errors *)
Definition close (k : nat) (x : PrimFloat.float) (v : R) : Prop := fin x /\ near k (FR x) v.
(** far from underflow and overflow *)
Definition ordinary (v : R) : Prop := v = 0 \/ bpow radix2 (-1000) <= v <= bpow radix2 1000.

(** sums of lists of reals; the numbers a loop over 0 <= i < n reads when it skips index [iskip] *)
Definition Rsum (l : list R) : R := List.fold_right Rplus 0 l.
Definition summands (n offset : nat) (iskip : option nat) (op : PrimFloat.float -> PrimFloat.float) (data : nat -> PrimFloat.float) : list PrimFloat.float :=
  List.map (fun i => op (data (i + offset)%nat)) (List.filter (fun i => match iskip with Some k => negb (Nat.eqb i k) | None => true end) (List.seq 0 n)).
