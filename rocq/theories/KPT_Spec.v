(** Specification vocabulary for the kinetic phase-transition properties (C38, C39). Independent of the model. *)
From Coq Require Import Reals List Permutation.
From Flocq Require Import Core.Raux.
Local Open Scope R_scope.

(** [order] lists the phases 0, ..., n-1, each exactly once *)
Definition lists_all_phases (n : nat) (order : nat -> nat) : Prop := Permutation (map order (seq 0 n)) (seq 0 n).

(** doc/sphinx/src/using-kpt.rst: the phase-transition index jk = (j+1)(N-1) - (j-1)j/2 - k *)
Definition doc_slot (n j k : nat) : nat := ((j + 1) * (n - 1) - (j * (j - 1)) / 2 - k)%nat.

(** doc/sphinx/src/using-kpt.rst: Greeff's rate R_ij = nu_ij theta(G_i - G_j) x exp(x^2), x = (G_i - G_j)/B_ij; nu and B
    are n x n matrices stored row by row *)
Definition greeff_rate (n : nat) (nu B G : nat -> R) (i j : nat) : R :=
  let x := (G i - G j) / B (i * n + j)%nat in
  if Rlt_bool (G j) (G i) then nu (i * n + j)%nat * x * exp (x * x) else 0.

(** total over phases *)
Fixpoint total (n : nat) (f : nat -> R) : R := match n with O => 0 | S k => total k f + f k end.
