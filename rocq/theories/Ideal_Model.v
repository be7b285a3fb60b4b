(** Model of singularity-eos/eos/eos_ideal.hpp (class IdealGas), over exact reals. MYMAX(a,b) = a > b ? a : b = Rmax.
    log = natural logarithm; robust::ratio as in Robust_Model. *)
From Coq Require Import Reals Bool.
From Flocq Require Import Core.
From Verif Require Import Robust_Model Thermo_Spec.
Local Open Scope R_scope.

(** constants.hpp:41-42 *)
Definition ROOM_TEMPERATURE : R := 293.
Definition ATMOSPHERIC_PRESSURE : R := 1000000.

(** members, eos_ideal.hpp:220-234 *)
Record ideal := mkIdeal { Cv : R; gm1 : R; rho0 : R; sie0 : R; bmod0 : R; dpde0 : R; dvdt0 : R;
  EntropyT0 : R; EntropyRho0 : R; Abar : R; Zbar : R }.
(** CheckParams, eos_ideal.hpp:65-76 and MeanAtomicProperties::CheckParams, eos_base.hpp:285-288.
    PORTABLE_ALWAYS_REQUIRE aborts when the condition is false. *)
Definition CheckParams (g : ideal) : bool :=
  Rle_bool 0 (Cv g) && Rle_bool 0 (gm1 g) && Rle_bool 0 (EntropyT0 g) && Rle_bool 0 (EntropyRho0 g) &&
  Rlt_bool 0 (Abar g) && Rlt_bool 0 (Zbar g).
(** constructors, eos_ideal.hpp:41-57; [None] = aborts. Division by zero yields inf in C++; those parameters
    (gm1 = 0 or Cv = 0) are excluded by the theorems' hypotheses. *)
Definition ctor5 (gm1 Cv ET0 Erho0 A Z : R) : ideal :=
  let T0 := ROOM_TEMPERATURE in let P0 := ATMOSPHERIC_PRESSURE in
  let rho0 := P0 / (gm1 * Cv * T0) in
  mkIdeal Cv gm1 rho0 (Cv * T0) ((gm1 + 1) * gm1 * rho0 * Cv * T0) (gm1 * rho0) (1 / (rho0 * T0)) ET0 Erho0 A Z.
Definition make (gm1 Cv ET0 Erho0 A Z : R) : option ideal :=
  let g := ctor5 gm1 Cv ET0 Erho0 A Z in if CheckParams g then Some g else None.
Definition make_default (gm1 Cv A Z : R) : option ideal :=
  let g := ctor5 gm1 Cv ROOM_TEMPERATURE (ATMOSPHERIC_PRESSURE / (gm1 * Cv * ROOM_TEMPERATURE)) A Z in
  if CheckParams g then Some g else None.

Section Queries.
Variable g : ideal.
(** 60-64 *) Definition TemperatureFromDensityInternalEnergy (rho sie : R) : R := Rmax 0 (sie / Cv g).
(** 78-82 *) Definition InternalEnergyFromDensityTemperature (rho temperature : R) : R := Rmax 0 (Cv g * temperature).
(** 84-88 *) Definition PressureFromDensityTemperature (rho temperature : R) : R := Rmax 0 (gm1 g * rho * Cv g * temperature).
(** 90-94 *) Definition PressureFromDensityInternalEnergy (rho sie : R) : R := Rmax 0 (gm1 g * rho * sie).
(** 96-99 *) Definition MinInternalEnergyFromDensity (rho : R) : R := 0.
(** 103-107 *) Definition EntropyFromDensityTemperature (rho temperature : R) : R :=
  Cv g * ln (ratio temperature (EntropyT0 g)) + gm1 g * Cv g * ln (ratio (EntropyRho0 g) rho).
(** 109-114 *) Definition EntropyFromDensityInternalEnergy (rho sie : R) : R :=
  EntropyFromDensityTemperature rho (TemperatureFromDensityInternalEnergy rho sie).
(** 116-126 *) Definition SpecificHeat (rho x : R) : R := Cv g.
(** 128-132 *) Definition BulkModulusFromDensityTemperature (rho temperature : R) : R :=
  Rmax 0 ((gm1 g + 1) * gm1 g * rho * Cv g * temperature).
(** 134-138 *) Definition BulkModulusFromDensityInternalEnergy (rho sie : R) : R := Rmax 0 ((gm1 g + 1) * gm1 g * rho * sie).
(** 140-150 *) Definition GruneisenParam (rho x : R) : R := gm1 g.
(** 154-168: (dedP_T, drdP_T, dedT_P, drdT_P) *)
Definition PTDerivatives (rho sie P T : R) : R * R * R * R :=
  (0, ratio 1 (gm1 g * sie), Cv g, - ratio P (gm1 g * Cv g * T * T)).
(** 203-207 *) Definition DensityEnergyFromPressureTemperature (press temp : R) : R * R :=
  let sie := Rmax 0 (Cv g * temp) in (Rmax 0 (press / (gm1 g * sie)), sie).
(** 209-214 *) Definition InternalEnergyFromDensityPressure (rho P : R) : R := P / (gm1 g * rho).
(** 178-190 (rho, temp, sie, press, cv, bmod, dpde, dvdt) *)
Definition ValuesAtReferenceState : list R :=
  (rho0 g :: ROOM_TEMPERATURE :: sie0 g :: ATMOSPHERIC_PRESSURE :: Cv g :: bmod0 g :: dpde0 g :: dvdt0 g :: nil)%list.
(** FillEos, eos_ideal.hpp:238-262; [None] = UNDEFINED_ERROR *)
Definition FillEos (o : flags) (s : fstate) : option fstate :=
  if f_rho o && f_sie o && (f_press o || f_temp o) then None
  else
    let s := if f_rho o && f_sie o
             then let (r, e) := DensityEnergyFromPressureTemperature (s_press s) (s_temp s) in upd_sie (upd_rho s r) e
             else s in
    if f_press o && f_sie o && (f_rho o || f_temp o) then None
    else
      let s := cond_upd (f_press o && f_sie o) upd_sie (fun s => InternalEnergyFromDensityTemperature (s_rho s) (s_temp s)) s in
      let s := cond_upd (f_temp o && f_sie o) upd_sie (fun s => s_press s / (gm1 g * s_rho s)) s in
      let s := cond_upd (f_press o) upd_press (fun s => PressureFromDensityInternalEnergy (s_rho s) (s_sie s)) s in
      let s := cond_upd (f_temp o) upd_temp (fun s => TemperatureFromDensityInternalEnergy (s_rho s) (s_sie s)) s in
      let s := cond_upd (f_bmod o) upd_bmod (fun s => BulkModulusFromDensityInternalEnergy (s_rho s) (s_sie s)) s in
      Some (cond_upd (f_cv o) upd_cv (fun s => SpecificHeat (s_rho s) (s_sie s)) s).
End Queries.
