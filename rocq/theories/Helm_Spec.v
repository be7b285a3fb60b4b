(** Specification for C68-C71: thermodynamics of P(rho,T) and E(rho,T), independent of any EOS. *)
From Coq Require Import Reals.
From Coquelicot Require Import Coquelicot.
Local Open Scope R_scope.

(** energy and pressure come from one free energy: rho^2 (dE/drho)_T = P - T (dP/dT)_rho *)
Definition compatible (P E : R -> R -> R) (rho T : R) : Prop :=
  exists dEdr dPdT, is_derive (fun r => E r T) rho dEdr /\ is_derive (fun t => P rho t) T dPdT /\ rho * rho * dEdr = P rho T - T * dPdT.

(** G = (1/rho) (dP/de)_rho, by the chain rule in temperature *)
Definition is_gruneisen_T (P E : R -> R -> R) (rho T G : R) : Prop :=
  exists dPdT dEdT, is_derive (fun t => P rho t) T dPdT /\ is_derive (fun t => E rho t) T dEdT /\ dEdT <> 0 /\ rho * G = dPdT / dEdT.

(** B = rho (dP/drho) along the adiabat dE = (P/rho^2) drho through (rho,T); dTdr is the slope of temperature along it *)
Definition is_adiabatic_modulus (P E : R -> R -> R) (rho T B : R) : Prop :=
  exists dPdr dPdT dEdr dEdT dTdr,
    is_derive (fun r => P r T) rho dPdr /\ is_derive (fun t => P rho t) T dPdT /\
    is_derive (fun r => E r T) rho dEdr /\ is_derive (fun t => E rho t) T dEdT /\
    dEdr + dEdT * dTdr = P rho T / (rho * rho) /\ B = rho * (dPdr + dPdT * dTdr).
