(** Model of singularity-eos/eos/eos_carnahan_starling.hpp (class CarnahanStarling), over exact reals.
    math_utils::pow<n> is the n-th power (C02). *)
From Coq Require Import Reals Bool List ZArith.
From Flocq Require Import Core.
From Verif Require Import Arith RootFinding_Model Robust_Model Thermo_Spec Fill_Model.
Local Open Scope R_scope.

(** std::numeric_limits<Real>::min() *)
Definition DBL_MIN : R := bpow radix2 (-1022).

(** members, eos_carnahan_starling.hpp:280-286 *)
Record carnahan := mkCarn { Cv : R; gm1 : R; bb : R; qq : R; T0 : R; P0 : R; qp : R;
  rho0 : R; vol0 : R; sie0 : R; bmod0 : R; dpde0 : R; Abar : R; Zbar : R }.
(** CheckParams, eos_carnahan_starling.hpp:73-78 *)
Definition CheckParams (g : carnahan) : bool :=
  Rlt_bool 0 (Cv g) && Rlt_bool 0 (gm1 g) && Rle_bool 0 (bb g) && Rlt_bool 0 (Abar g) && Rlt_bool 0 (Zbar g).

(** ZedFromDensity, 80-86, as a function of the covolume b *)
Definition Zed (b rho : R) : R := let eta := b * rho in 1 + ratio (eta * (4 - 2 * eta)) ((1 - eta) ^ 3).
(** PartialRhoZedFromDensity, 88-92 *)
Definition PartialRhoZed (b rho : R) : R := let eta := b * rho in 1 + ratio (eta * (8 - 2 * eta)) ((1 - eta) ^ 4).
(** the function whose root is sought, 116-122 *)
Definition density_residual (Cv gm1 b press temperature : R) (x : R) : R :=
  let eta := b * x in
  x * (1 + eta * (1 + eta * (1 - eta))) - ratio (press * (1 - eta) ^ 3) (Cv * gm1 * temperature).
(** DensityFromPressureTemperature, 94-142 with its default guess = SMALL. [None] = EOS_ERROR (root finder failed; the program aborts). *)
Definition DensityFromPT (Cv gm1 b press temperature : R) : option R :=
  if Rle_bool temperature DBL_MIN then Some 0
  else if Rle_bool b DBL_MIN then Some (ratio press (Cv * gm1 * temperature))
  else match @regula_falsi RArith (density_residual Cv gm1 b press temperature) 0 SMALL 0 (1 / b) (1 / 1000000000) (1 / 1000000000) with
       | RFDone SUCCESS (Some rho) _ => Some (Rmax 0 rho)
       | _ => None
       end.
(** constructors, 41-65 (the short one passes qp = 0, T0 = 293, P0 = 1e6) *)
Definition ctor (gm1 Cv bb qq qp T0 P0 A Z : R) : option carnahan :=
  match DensityFromPT Cv gm1 bb P0 T0 with
  | None => None
  | Some rho0 =>
    Some (mkCarn Cv gm1 bb qq T0 P0 qp rho0 (ratio 1 rho0) (Cv * T0 + qq)
      (rho0 * Cv * T0 * (PartialRhoZed bb rho0 + Zed bb rho0 * Zed bb rho0 * gm1))
      (rho0 * Zed bb rho0 * gm1) A Z)
  end.
Definition make (gm1 Cv bb qq qp T0 P0 A Z : R) : option carnahan :=
  match ctor gm1 Cv bb qq qp T0 P0 A Z with Some g => if CheckParams g then Some g else None | None => None end.

Section Queries.
Variable g : carnahan.
(** 68-72 *) Definition TemperatureFromDensityInternalEnergy (rho sie : R) : R := Rmax SMALL ((sie - qq g) / Cv g).
(** 80-86 *) Definition ZedFromDensity (rho : R) : R := Zed (bb g) rho.
(** 88-92 *) Definition PartialRhoZedFromDensity (rho : R) : R := PartialRhoZed (bb g) rho.
(** 94-142 *) Definition DensityFromPressureTemperature (press temperature : R) : option R := DensityFromPT (Cv g) (gm1 g) (bb g) press temperature.
(** 144-148 *) Definition InternalEnergyFromDensityTemperature (rho temperature : R) : R := Rmax (qq g) (Cv g * temperature + qq g).
(** 150-155 *) Definition PressureFromDensityTemperature (rho temperature : R) : R :=
  Rmax SMALL (ZedFromDensity rho * rho * temperature * Cv g * gm1 g).
(** 157-162 *) Definition PressureFromDensityInternalEnergy (rho sie : R) : R := Rmax SMALL (ZedFromDensity rho * rho * (sie - qq g) * gm1 g).
(** the configurational part common to 165-175 and 177-188 *)
Definition entropy_tail (rho : R) : R :=
  let vol := ratio 1 rho in
  let one_by_vb := ratio 1 (vol - bb g) in
  let one_by_v0b := ratio 1 (vol0 g - bb g) in
  gm1 g * Cv g * ln (plus_small (ratio vol (vol0 g))) -
  gm1 g * Cv g * bb g * (one_by_vb - one_by_v0b) * (4 + bb g * (one_by_vb + one_by_v0b)) + qp g.
(** 165-175 *) Definition EntropyFromDensityTemperature (rho temperature : R) : R :=
  Cv g * ln (plus_small (ratio temperature (T0 g))) + entropy_tail rho.
(** 177-188 *) Definition EntropyFromDensityInternalEnergy (rho sie : R) : R :=
  Cv g * ln (plus_small (ratio (sie - qq g) (sie0 g - qq g))) + entropy_tail rho.
(** 190-200 *) Definition SpecificHeat (rho x : R) : R := Cv g.
(** 202-209 *) Definition BulkModulusFromDensityTemperature (rho temperature : R) : R :=
  Rmax SMALL (rho * Cv g * temperature * gm1 g * (PartialRhoZedFromDensity rho + ZedFromDensity rho * ZedFromDensity rho * gm1 g)).
(** 211-218 *) Definition BulkModulusFromDensityInternalEnergy (rho sie : R) : R :=
  Rmax SMALL (rho * (sie - qq g) * gm1 g * (PartialRhoZedFromDensity rho + ZedFromDensity rho * ZedFromDensity rho * gm1 g)).
(** 220-230 *) Definition GruneisenParam (rho x : R) : R := ZedFromDensity rho * gm1 g.
(** 232-235 *) Definition MinInternalEnergyFromDensity (rho : R) : R := qq g.
(** 243-254; dvdt is not assigned *)
Definition ValuesAtReferenceState (dvdt_in : R) : list R :=
  (rho0 g :: T0 g :: sie0 g :: P0 g :: Cv g :: bmod0 g :: dpde0 g :: dvdt_in :: nil)%list.
(** 270-274 *) Definition DensityEnergyFromPressureTemperature (press temp : R) : option (R * R) :=
  match DensityFromPressureTemperature press temp with Some rho => Some (rho, Rmax (qq g) (Cv g * temp + qq g)) | None => None end.
(** 309 (inside FillEos) *) Definition fill_sie_from_rho_press (rho press : R) : R := ratio press (ZedFromDensity rho * rho * gm1 g) + qq g.
(** FillEos, 291-318; [DE] = the (rho, e) found by DensityEnergyFromPressureTemperature when it does not raise an error *)
Definition FillEos (DE : R -> R -> R * R) : flags -> fstate -> option fstate :=
  fill_std DE InternalEnergyFromDensityTemperature fill_sie_from_rho_press
    PressureFromDensityInternalEnergy TemperatureFromDensityInternalEnergy BulkModulusFromDensityInternalEnergy SpecificHeat.
End Queries.
