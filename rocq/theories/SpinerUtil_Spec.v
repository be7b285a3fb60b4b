(** Specifications for the table helpers (C41, C43, C49): no definition of the code is used. *)
From Coq Require Import ZArith Reals List.
From Verif Require Import SpinerUtil_Model.
Import ListNotations.
Local Open Scope R_scope.

(** a logarithm and its inverse exponential, exact (C05 states how far each FastMath variant satisfies this) *)
Record is_log_pair (L : LogPair) : Prop := {
  lp_inv_l : forall x, 0 < x -> pw10 L (lg10 L x) = x;
  lp_inv_r : forall y, lg10 L (pw10 L y) = y;
  lp_pos : forall y, 0 < pw10 L y;
  lp_incr : forall x y, 0 < x -> x < y -> lg10 L x < lg10 L y
}.
(** the mathematical one *)
Definition real_log10 : LogPair := mkLogPair (fun x => ln x / ln 10) (fun y => exp (y * ln 10)).

(** an energy transform and its inverse: given the untransformed energy as hint, the inverse undoes the transform *)
Definition inverts (tr : R -> R -> R) (inv : R -> R -> R -> R) : Prop :=
  forall e rho, inv (tr e rho) rho e = e.
Definition order_preserving (tr : R -> R -> R) : Prop :=
  forall rho e1 e2, e1 < e2 -> tr e1 rho < tr e2 rho.

(** a sequence of grids that abut and run from lo to hi *)
Fixpoint abut (lo hi : R) (gs : list RegGrid) : Prop :=
  match gs with
  | [] => lo = hi
  | g :: r => g_min g = lo /\ abut (g_max g) hi r
  end.
(** every grid has at least two points and increases *)
Definition increasing_grids (gs : list RegGrid) : Prop :=
  forall g, In g gs -> (2 <= g_N g)%Z /\ g_min g < g_max g.
(** p is one of the grid points *)
Definition is_grid_point (gs : list RegGrid) (p : R) : Prop :=
  exists g i, In g gs /\ (0 <= i < g_N g)%Z /\ g_x g i = p.
