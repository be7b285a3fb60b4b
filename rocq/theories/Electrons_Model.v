(** Model of class IdealElectrons in singularity-eos/eos/eos_electrons.hpp, over exact reals. Queries take the mean ionisation state [Z] that
    _Cv reads from the lambda; the lookup itself is [Z_slot] (base/indexable_types.hpp SafeMustGet, modelled in Indexer_Model). *)
From Coq Require Import Reals Bool List.
From Flocq Require Import Core.
From Verif Require Import Robust_Model Thermo_Spec Fill_Model.
From Verif Require TypeLists_Model Indexer_Model.
Local Open Scope R_scope.

(** constants.hpp:41-42 *)
Definition ROOM_TEMPERATURE : R := 293.
Definition ATMOSPHERIC_PRESSURE : R := 1000000.
(** eos_electrons.hpp:59-60 *)
Definition kb : R := 13806505 / 10 ^ 23.
Definition mp : R := 167262171 / 10 ^ 32.
(** members with their default initialisers, eos_electrons.hpp:222-231 *)
Record electrons := mkEl { gm1 : R; rho0 : R; T0 : R; P0 : R; dpde0 : R; dvdt0 : R; Abar : R; Zbar : R; Cvbase : R }.
(** CheckParams, eos_electrons.hpp:70-73 *)
Definition CheckParams (g : electrons) : bool := Rlt_bool 0 (Abar g) && Rlt_bool 0 (Zbar g).
(** constructor, eos_electrons.hpp:63-66 *)
Definition make (A Zb : R) : option electrons :=
  let gm1 := 5 / 3 - 1 in
  let g := mkEl gm1 1 ROOM_TEMPERATURE ATMOSPHERIC_PRESSURE (gm1 * 1) (1 / (1 * ROOM_TEMPERATURE)) A Zb (ratio kb (gm1 * A * mp)) in
  if CheckParams g then Some g else None.
(** the lambda lookup in _Cv, eos_electrons.hpp:212-213: SafeMustGet<MeanIonizationState>(lambda, Lambda::Zi), Lambda::Zi = 0 *)
Definition Z_slot (MeanIonizationState : TypeLists_Model.ty) (ix : @Indexer_Model.indexer R) : Indexer_Model.must :=
  Indexer_Model.SafeMustSlot Indexer_Model.Numeric ix (Indexer_Model.mkKey MeanIonizationState 0) 0.

Section Queries.
Variable g : electrons.
Variable Z : R.
(** _Cv, eos_electrons.hpp:211-215 *)
Definition Cv : R := Cvbase g * Rmax Z 0.
(** 76-80 *) Definition TemperatureFromDensityInternalEnergy (rho sie : R) : R := Rmax 0 (sie / Cv).
(** 82-86 *) Definition InternalEnergyFromDensityTemperature (rho temperature : R) : R := Rmax 0 (Cv * temperature).
(** 88-92 *) Definition PressureFromDensityTemperature (rho temperature : R) : R := Rmax 0 (gm1 g * rho * Cv * temperature).
(** 94-98 *) Definition PressureFromDensityInternalEnergy (rho sie : R) : R := Rmax 0 (gm1 g * rho * sie).
(** 100-103 *) Definition MinInternalEnergyFromDensity (rho : R) : R := 0.
(** 107-113 *) Definition EntropyFromDensityTemperature (rho temperature : R) : R :=
  Cv * ln (ratio temperature (T0 g)) + gm1 g * Cv * ln (ratio (rho0 g) rho).
(** 115-120 *) Definition EntropyFromDensityInternalEnergy (rho sie : R) : R :=
  EntropyFromDensityTemperature rho (TemperatureFromDensityInternalEnergy rho sie).
(** 123-127 *) Definition SpecificHeatFromDensityTemperature (rho temperature : R) : R := Cv.
(** 129-133 *) Definition SpecificHeatFromDensityInternalEnergy (rho sie : R) : R := Cv.
(** 135-139 *) Definition BulkModulusFromDensityTemperature (rho temperature : R) : R := Rmax 0 ((gm1 g + 1) * gm1 g * rho * Cv * temperature).
(** 141-145 *) Definition BulkModulusFromDensityInternalEnergy (rho sie : R) : R := Rmax 0 ((gm1 g + 1) * gm1 g * rho * sie).
(** 147-151 *) Definition GruneisenParamFromDensityTemperature (rho temperature : R) : R := gm1 g.
(** 153-157 *) Definition GruneisenParamFromDensityInternalEnergy (rho sie : R) : R := gm1 g.
(** 161-165 *) Definition DensityEnergyFromPressureTemperature (press temp : R) : R * R :=
  let sie := Rmax 0 (Cv * temp) in (Rmax 0 (press / (gm1 g * sie)), sie).
(** ValuesAtReferenceState, eos_electrons.hpp:169-182: rho temp sie press cv bmod dpde dvdt *)
Definition ValuesAtReferenceState : list R :=
  (rho0 g :: T0 g :: Cv * T0 g :: P0 g :: Cv :: BulkModulusFromDensityTemperature (rho0 g) (T0 g) :: dpde0 g :: dvdt0 g :: nil)%list.
(** FillEos, eos_electrons.hpp:235-262: the same body as Fill_Model.fill_std with sie = press / (gm1 * rho) in the (rho, press) branch *)
Definition FillEos (o : flags) (s : fstate) : option fstate :=
  fill_std DensityEnergyFromPressureTemperature InternalEnergyFromDensityTemperature (fun rho press => press / (gm1 g * rho))
    PressureFromDensityInternalEnergy TemperatureFromDensityInternalEnergy BulkModulusFromDensityInternalEnergy SpecificHeatFromDensityInternalEnergy o s.
End Queries.
