(** Model of singularity-eos/eos/eos_sap_polynomial.hpp (class SAP_Polynomial), over exact reals. The stubs (temperature, energy from
    temperature, entropy, specific heat, (rho,T) pressure / bulk modulus / Gruneisen) return 0 after a warning; only the ones FillEos calls are modelled. *)
From Coq Require Import Reals Bool List.
From Flocq Require Import Core.
From Verif Require Import Robust_Model Thermo_Spec Fill_Model.
Local Open Scope R_scope.

(** members, eos_sap_polynomial.hpp:211-214 *)
Record sap := mkSap { a0 : R; a1 : R; a2c : R; a2e : R; a3 : R; b0 : R; b1 : R; b2c : R; b2e : R; b3 : R; rho0 : R; Abar : R; Zbar : R }.
(** CheckParams, eos_sap_polynomial.hpp:50-53 *)
Definition CheckParams (g : sap) : bool := Rle_bool 0 (rho0 g) && Rlt_bool 0 (Abar g) && Rlt_bool 0 (Zbar g).
Section Queries.
Variable g : sap.
(** 154-156 *) Definition MuFromDensity (rho : R) : R := rho / rho0 g - 1.
(** 76-86 *) Definition PressureFromDensityInternalEnergy (rho sie : R) : R :=
  let mu := MuFromDensity rho in
  if Rle_bool 0 mu then
    a0 g + a1 g * mu + a2c g * mu * mu + a3 g * mu * mu * mu + sie * (b0 g + b1 g * mu + b2c g * mu * mu + b3 g * mu * mu * mu)
  else
    a0 g + a1 g * mu + a2e g * mu * mu + a3 g * mu * mu * mu + sie * (b0 g + b1 g * mu + b2e g * mu * mu + b3 g * mu * mu * mu).
(** 131-139 *) Definition GruneisenParamFromDensityInternalEnergy (rho sie : R) : R :=
  let mu := MuFromDensity rho in
  if Rle_bool 0 mu then b0 g + b1 g * mu + b2c g * mu * mu + b3 g * mu * mu * mu
  else b0 g + b1 g * mu + b2e g * mu * mu + b3 g * mu * mu * mu.
(** 141-151 *) Definition BulkModulusFromDensityInternalEnergy (rho sie : R) : R :=
  let mu := MuFromDensity rho in
  if Rle_bool 0 mu then
    (1 + mu) * (a1 g + 2 * a2c g * mu + 3 * a3 g * mu * mu + sie * (b1 g + 2 * b2c g * mu + 3 * b3 g * mu * mu))
  else
    (1 + mu) * (a1 g + 2 * a2e g * mu + 3 * a3 g * mu * mu + sie * (b1 g + 2 * b2e g * mu + 3 * b3 g * mu * mu)).
(** 55-60 *) Definition TemperatureFromDensityInternalEnergy (rho sie : R) : R := 0.
(** 62-67 *) Definition InternalEnergyFromDensityTemperature (rho temperature : R) : R := 0.
(** 110-115 *) Definition SpecificHeatFromDensityInternalEnergy (rho sie : R) : R := 0.
(** 160-160 *) Definition MinimumPressure : R := - (10 ^ 100).
(** 162-162 *) Definition MaximumPressureAtTemperature (T : R) : R := 10 ^ 100.
(** 172-184 *) Definition ValuesAtReferenceState : list R := (rho0 g :: 0 :: 0 :: 0 :: 0 :: 0 :: 0 :: 0 :: nil)%list.
(** FillEos, eos_sap_polynomial.hpp:220-246 (same body as the other analytic EOS, energy from (rho, press) is 0.0);
    [DE] = the base-class (P,T) inversion *)
Definition FillEos (DE : R -> R -> R * R) : flags -> fstate -> option fstate :=
  fill_std DE InternalEnergyFromDensityTemperature (fun _ _ => 0)
    PressureFromDensityInternalEnergy TemperatureFromDensityInternalEnergy BulkModulusFromDensityInternalEnergy
    SpecificHeatFromDensityInternalEnergy.
End Queries.
