(** Model of singularity-eos/eos/eos_noble_abel.hpp (class NobleAbel), over exact reals. *)
From Coq Require Import Reals Bool List.
From Flocq Require Import Core.
From Verif Require Import Robust_Model Thermo_Spec Fill_Model.
Local Open Scope R_scope.

(** members, eos_noble_abel.hpp:203-213 *)
Record noble := mkNoble { Cv : R; gm1 : R; bb : R; qq : R; T0 : R; P0 : R; qp : R;
  rho0 : R; vol0 : R; sie0 : R; bmod0 : R; dpde0 : R; Abar : R; Zbar : R }.
(** CheckParams, eos_noble_abel.hpp:69-74 *)
Definition CheckParams (g : noble) : bool :=
  Rlt_bool 0 (Cv g) && Rle_bool 0 (gm1 g) && Rle_bool 0 (bb g) && Rlt_bool 0 (Abar g) && Rlt_bool 0 (Zbar g).
(** constructors, eos_noble_abel.hpp:39-61 (the short one passes qp = 0, T0 = 293, P0 = 1e6) *)
Definition ctor (gm1 Cv bb qq qp T0 P0 A Z : R) : noble :=
  let rho0 := ratio P0 (gm1 * Cv * T0 + bb * P0) in
  mkNoble Cv gm1 bb qq T0 P0 qp rho0 (ratio (gm1 * Cv * T0 + bb * P0) P0) (Cv * T0 + qq)
    (ratio (rho0 * Cv * T0 * gm1 * (gm1 + 1)) ((1 - bb * rho0) * (1 - bb * rho0)))
    (ratio (rho0 * gm1) (1 - bb * rho0)) A Z.
Definition make (gm1 Cv bb qq qp T0 P0 A Z : R) : option noble :=
  let g := ctor gm1 Cv bb qq qp T0 P0 A Z in if CheckParams g then Some g else None.

Section Queries.
Variable g : noble.
(** 64-68 *) Definition TemperatureFromDensityInternalEnergy (rho sie : R) : R := Rmax SMALL ((sie - qq g) / Cv g).
(** 76-80 *) Definition InternalEnergyFromDensityTemperature (rho temperature : R) : R := Rmax (qq g) (Cv g * temperature + qq g).
(** 82-87 *) Definition PressureFromDensityTemperature (rho temperature : R) : R :=
  Rmax SMALL (ratio (gm1 g * rho * Cv g * temperature) (1 - bb g * rho)).
(** 89-94 *) Definition PressureFromDensityInternalEnergy (rho sie : R) : R :=
  Rmax SMALL (ratio (gm1 g * rho * (sie - qq g)) (1 - bb g * rho)).
(** 96-99 *) Definition MinInternalEnergyFromDensity (rho : R) : R := qq g.
(** 102-109 *) Definition EntropyFromDensityTemperature (rho temperature : R) : R :=
  let vol := ratio 1 rho in
  Cv g * ln (plus_small (ratio temperature (T0 g))) + gm1 g * Cv g * ln (plus_small (ratio (vol - bb g) (vol0 g - bb g))) + qp g.
(** 111-119 *) Definition EntropyFromDensityInternalEnergy (rho sie : R) : R :=
  let vol := ratio 1 rho in
  Cv g * ln (plus_small (ratio (sie - qq g) (sie0 g - qq g))) + gm1 g * Cv g * ln (plus_small (ratio (vol - bb g) (vol0 g - bb g))) + qp g.
(** 121-131 *) Definition SpecificHeat (rho x : R) : R := Cv g.
(** 133-139 *) Definition BulkModulusFromDensityTemperature (rho temperature : R) : R :=
  Rmax SMALL (ratio (gm1 g * (gm1 g + 1) * rho * Cv g * temperature) ((1 - bb g * rho) * (1 - bb g * rho))).
(** 141-147 *) Definition BulkModulusFromDensityInternalEnergy (rho sie : R) : R :=
  Rmax SMALL (ratio (gm1 g * (gm1 g + 1) * rho * (sie - qq g)) ((1 - bb g * rho) * (1 - bb g * rho))).
(** 149-159 *) Definition GruneisenParam (rho x : R) : R := ratio (gm1 g) (1 - bb g * rho).
(** 167-178; dvdt is not assigned *)
Definition ValuesAtReferenceState (dvdt_in : R) : list R :=
  (rho0 g :: T0 g :: sie0 g :: P0 g :: Cv g :: bmod0 g :: dpde0 g :: dvdt_in :: nil)%list.
(** 193-198 *) Definition DensityEnergyFromPressureTemperature (press temp : R) : R * R :=
  (Rmax SMALL (ratio press (gm1 g * Cv g * temp + bb g * press)), Rmax (qq g) (Cv g * temp + qq g)).
(** 233 (inside FillEos) *) Definition fill_sie_from_rho_press (rho press : R) : R := press * (1 - bb g * rho) / gm1 g + qq g.
(** FillEos, 216-242 *)
Definition FillEos : flags -> fstate -> option fstate :=
  fill_std DensityEnergyFromPressureTemperature InternalEnergyFromDensityTemperature fill_sie_from_rho_press
    PressureFromDensityInternalEnergy TemperatureFromDensityInternalEnergy BulkModulusFromDensityInternalEnergy SpecificHeat.
End Queries.
