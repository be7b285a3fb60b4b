(** What a pressure-temperature equilibrium of several materials in one cell is, and what a well-behaved material is; independent of the
    solvers and of any particular EOS. P m rho T and E m rho T are the pressure and specific energy queries of material m. Used by C91. *)
From Coq Require Import Reals.
From Coquelicot Require Import Coquelicot.
From Verif Require Import Thermo_Spec Stability_Spec.
Local Open Scope R_scope.

(** sum over the materials 0 .. n-1 *)
Fixpoint total (n : nat) (f : nat -> R) : R := match n with O => 0 | S k => total k f + f k end.

(** an interval of positive numbers *)
Definition positive_interval (D : R -> Prop) : Prop :=
  (forall x, D x -> 0 < x) /\ forall a b x, D a -> D b -> a <= x <= b -> D x.
(** on densities in D and temperatures in DT: pressure and energy obey the first and second law with some entropy, the specific heat is
    positive, and the pressure rises along isotherms *)
Definition well_behaved (P E : R -> R -> R) (D DT : R -> Prop) : Prop :=
  positive_interval D /\ positive_interval DT /\
  (exists S, forall rho T, D rho -> DT T -> first_law S E P rho T) /\
  (forall rho T, D rho -> DT T -> exists c, is_specific_heat E rho T c /\ 0 < c) /\
  (forall rho T, D rho -> DT T -> exists K, is_isothermal_modulus P rho T K /\ 0 < K).

(** the equilibrium of n materials of the given masses in volume V with energy U: one temperature, one pressure *)
Definition equilibrium (n : nat) (P E : nat -> R -> R -> R) (mass : nat -> R) (V U : R) (rho : nat -> R) (T p : R) : Prop :=
  (forall m, (m < n)%nat -> P m (rho m) T = p) /\
  total n (fun m => mass m / rho m) = V /\
  total n (fun m => mass m * E m (rho m) T) = U.
(** the same up to dp in every pressure, dv in the volume and du in the energy *)
Definition near_equilibrium (n : nat) (P E : nat -> R -> R -> R) (mass : nat -> R) (V U : R) (dp dv du : R) (rho : nat -> R) (T p : R) : Prop :=
  (forall m, (m < n)%nat -> Rabs (P m (rho m) T - p) <= dp) /\
  Rabs (total n (fun m => mass m / rho m) - V) <= dv /\
  Rabs (total n (fun m => mass m * E m (rho m) T) - U) <= du.

(** how far two states (rho,T) and (rho',T') of one material are apart, in units of entropy: the entropy difference to first order seen from one
    state minus the one seen from the other. Zero only for equal states (C91_gap_zero); for an ideal gas it is
    Cv (T-T')^2/(T T') + (gamma-1) Cv (rho-rho')^2/(rho rho') (C91_gap_ideal). *)
Definition gap (P E : R -> R -> R) (rho T rho' T' : R) : R :=
  (1 / T - 1 / T') * (E rho' T' - E rho T) + (P rho T / T - P rho' T' / T') * (1 / rho' - 1 / rho).

(** the same when every material has its own temperature: the inverse temperatures are within db of b and the ratios of pressure to
    temperature within dq of q *)
Definition near_equilibrium_each (n : nat) (P E : nat -> R -> R -> R) (mass : nat -> R) (V U : R) (db dq dv du : R) (rho T : nat -> R) (b q : R) : Prop :=
  (forall m, (m < n)%nat -> Rabs (1 / T m - b) <= db /\ Rabs (P m (rho m) (T m) / T m - q) <= dq) /\
  Rabs (total n (fun m => mass m / rho m) - V) <= dv /\
  Rabs (total n (fun m => mass m * E m (rho m) (T m)) - U) <= du.
