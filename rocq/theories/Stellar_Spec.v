(** Specification vocabulary for StellarCollapse (C65-C67); no query or loader of the model is used. *)
From Coq Require Import ZArith Reals List.
From Verif Require Import SpinerUtil_Model.
Import ListNotations.
Local Open Scope R_scope.

(** a grid with at least two points, running upwards; its points *)
Definition good_grid (g : RegGrid) : Prop := (2 <= g_N g)%Z /\ g_min g < g_max g.
Definition in_grid (g : RegGrid) (i : Z) : Prop := (0 <= i < g_N g)%Z.
Definition in_span (g : RegGrid) (x : R) : Prop := g_min g <= x <= g_max g.

(** m is a median of l: an element with at most half of the elements below it and at most half above it *)
Definition count (p : R -> bool) (l : list R) : nat := length (filter p l).
Definition is_median (lt : R -> R -> bool) (m : R) (l : list R) : Prop :=
  In m l /\ (2 * count (fun x => lt x m) l <= length l)%nat /\ (2 * count (fun x => lt m x) l <= length l)%nat.

(** the value at distance at most w from (i, j, k) in a 3-d array *)
Definition in_window (a : Z -> Z -> Z -> R) (w i j k : Z) (v : R) : Prop :=
  exists i' j' k', (Z.abs (i' - i) <= w /\ Z.abs (j' - j) <= w /\ Z.abs (k' - k) <= w)%Z /\ v = a i' j' k'.
