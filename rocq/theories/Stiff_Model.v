(** Model of singularity-eos/eos/eos_stiff.hpp (class StiffGas), over exact reals. *)
From Coq Require Import Reals Bool List.
From Flocq Require Import Core.
From Verif Require Import Robust_Model Thermo_Spec.
Local Open Scope R_scope.

(** members, eos_stiff.hpp:190-201 *)
Record stiff := mkStiff { Cv : R; gm1 : R; Pinf : R; qq : R; T0 : R; P0 : R; qp : R;
  rho0 : R; vol0 : R; sie0 : R; bmod0 : R; dpde0 : R; Abar : R; Zbar : R }.
(** CheckParams, eos_stiff.hpp:69-73 *)
Definition CheckParams (g : stiff) : bool :=
  Rle_bool 0 (Cv g) && Rle_bool 0 (gm1 g) && Rlt_bool 0 (Abar g) && Rlt_bool 0 (Zbar g).
(** constructors, eos_stiff.hpp:39-61 (the 4-parameter one passes qp = 0, T0 = 293, P0 = 1e6) *)
Definition ctor (gm1 Cv Pinf qq qp T0 P0 A Z : R) : stiff :=
  let rho0 := ratio (P0 + Pinf) (gm1 * Cv * T0) in
  mkStiff Cv gm1 Pinf qq T0 P0 qp rho0 (ratio (gm1 * Cv * T0) (P0 + Pinf))
    (ratio (P0 + (gm1 + 1) * Pinf) (P0 + Pinf) * Cv * T0 + qq)
    (gm1 * (gm1 + 1) * ratio (P0 + Pinf) (gm1 * Cv * T0) * Cv * T0) (rho0 * gm1) A Z.
Definition make (gm1 Cv Pinf qq qp T0 P0 A Z : R) : option stiff :=
  let g := ctor gm1 Cv Pinf qq qp T0 P0 A Z in if CheckParams g then Some g else None.

Section Queries.
Variable g : stiff.
(** 64-68 *) Definition TemperatureFromDensityInternalEnergy (rho sie : R) : R :=
  Rmax SMALL (ratio (rho * (sie - qq g) - Pinf g) (rho * Cv g)).
(** 75-79 *) Definition InternalEnergyFromDensityTemperature (rho temperature : R) : R :=
  Rmax (qq g) (ratio (rho * Cv g * temperature + Pinf g) rho + qq g).
(** 81-85 *) Definition PressureFromDensityTemperature (rho temperature : R) : R :=
  Rmax (- Pinf g) (gm1 g * rho * Cv g * temperature - Pinf g).
(** 87-91 *) Definition PressureFromDensityInternalEnergy (rho sie : R) : R :=
  Rmax (- Pinf g) (gm1 g * rho * (sie - qq g) - (gm1 g + 1) * Pinf g).
(** 95-99 *) Definition EntropyFromDensityTemperature (rho temperature : R) : R :=
  Cv g * ln (plus_small (ratio temperature (T0 g))) + gm1 g * Cv g * ln (plus_small (ratio (rho0 g) rho)) + qp g.
(** 101-109 *) Definition EntropyFromDensityInternalEnergy (rho sie : R) : R :=
  let vol := ratio 1 rho in
  Cv g * ln (plus_small (ratio (sie - qq g - Pinf g * vol) (sie0 g - qq g - Pinf g * vol0 g))) +
  Cv g * gm1 g * ln (plus_small (ratio vol (vol0 g))) + qp g.
(** 111-121 *) Definition SpecificHeat (rho x : R) : R := Cv g.
(** 123-127 *) Definition BulkModulusFromDensityTemperature (rho temperature : R) : R :=
  Rmax SMALL (gm1 g * (gm1 g + 1) * rho * Cv g * temperature).
(** 129-133 *) Definition BulkModulusFromDensityInternalEnergy (rho sie : R) : R :=
  Rmax SMALL (gm1 g * (gm1 g + 1) * (rho * (sie - qq g) - Pinf g)).
(** 135-145 *) Definition GruneisenParam (rho x : R) : R := gm1 g.
(** 153-164: rho temp sie press cv bmod dpde; dvdt is not assigned *)
Definition ValuesAtReferenceState (dvdt_in : R) : list R :=
  (rho0 g :: T0 g :: sie0 g :: P0 g :: Cv g :: bmod0 g :: dpde0 g :: dvdt_in :: nil)%list.
(** 179-185 *) Definition DensityEnergyFromPressureTemperature (press temp : R) : R * R :=
  (Rmax SMALL (ratio (press + Pinf g) (gm1 g * Cv g * temp)),
   Rmax (qq g) (ratio (press + (gm1 g + 1) * Pinf g) (press + Pinf g) * Cv g * temp + qq g)).
(** EosBase default, eos_base.hpp:606-612 *)
Definition MinInternalEnergyFromDensity (rho : R) : R := InternalEnergyFromDensityTemperature rho 0.
(** FillEos, 203-229 *)
Definition FillEos (o : flags) (s : fstate) : option fstate :=
  if f_rho o && f_sie o && (f_press o || f_temp o) then None
  else
    let s := if f_rho o && f_sie o
             then let (r, e) := DensityEnergyFromPressureTemperature (s_press s) (s_temp s) in upd_sie (upd_rho s r) e
             else s in
    if f_press o && f_sie o && (f_rho o || f_temp o) then None
    else
      let s := cond_upd (f_press o && f_sie o) upd_sie (fun s => InternalEnergyFromDensityTemperature (s_rho s) (s_temp s)) s in
      let s := cond_upd (f_temp o && f_sie o) upd_sie (fun s => ratio (s_press s + (gm1 g + 1) * Pinf g) (gm1 g * s_rho s) + qq g) s in
      let s := cond_upd (f_press o) upd_press (fun s => PressureFromDensityInternalEnergy (s_rho s) (s_sie s)) s in
      let s := cond_upd (f_temp o) upd_temp (fun s => TemperatureFromDensityInternalEnergy (s_rho s) (s_sie s)) s in
      let s := cond_upd (f_bmod o) upd_bmod (fun s => BulkModulusFromDensityInternalEnergy (s_rho s) (s_sie s)) s in
      Some (cond_upd (f_cv o) upd_cv (fun s => SpecificHeat (s_rho s) (s_sie s)) s).
End Queries.
