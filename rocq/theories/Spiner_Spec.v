(** Specification for C42/C53. *)
From Coq Require Import Reals.
From Verif Require Import Arith.
Local Open Scope R_scope.

(** x lies in [lo,hi] together with a true solution r of f r = y, and either x is within tol of it or f at one end of an interval
    [u,v] containing x and r is within tol of the target *)
Definition encloses_root (f : R -> R) (y lo hi tol x : R) : Prop :=
  lo <= x <= hi /\
  exists u v r, lo <= u /\ u <= r <= v /\ v <= hi /\ u <= x <= v /\ f r = y /\
    (Rabs (x - r) <= tol \/
     Rmin (Rabs (f u - y)) (Rabs (f v - y)) <= tol).
Definition continuous_on (f : R -> R) (lo hi : R) : Prop := forall z, lo <= z <= hi -> continuity_pt f z.
