(** What "thermodynamically stable" means for an equation of state given by its public queries, all as functions of density and temperature.
    Independent of any particular EOS; used by C89 and C90. *)
From Coq Require Import Reals.
From Coquelicot Require Import Coquelicot.
Local Open Scope R_scope.

(** K is the isothermal bulk modulus of the pressure P(rho,T): K = rho (dP/drho)_T *)
Definition is_isothermal_modulus (P : R -> R -> R) (rho T K : R) : Prop :=
  exists d, is_derive (fun r => P r T) rho d /\ K = rho * d.
(** the isentropic and the isothermal bulk modulus differ by rho Gamma^2 Cv T (an identity of thermodynamics, equivalent to
    C_P - C_V = alpha^2 K_T T / rho): the bulk modulus query B, the Gruneisen query G and the specific heat query C have to satisfy it with the
    pressure query P *)
Definition moduli_identity (P B G C : R -> R -> R) (rho T : R) : Prop :=
  exists K, is_isothermal_modulus P rho T K /\ B rho T - K = rho * (G rho T * G rho T) * C rho T * T.
(** stability: positive specific heat, pressure increasing with density along the isotherm, and a bulk modulus not below the isothermal one,
    so that the sound speed sqrt(B/rho) is real and positive *)
Definition stable (P B C : R -> R -> R) (rho T : R) : Prop :=
  0 < C rho T /\ exists K, is_isothermal_modulus P rho T K /\ 0 < K /\ K <= B rho T.
