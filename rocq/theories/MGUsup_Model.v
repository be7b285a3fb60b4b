(** Model of class MGUsup in singularity-eos/eos/eos_mgusup.hpp, over exact reals. *)
From Coq Require Import Reals Bool List.
From Flocq Require Import Core.
From Verif Require Import Robust_Model Thermo_Spec.
Local Open Scope R_scope.

(** members, eos_mgusup.hpp:171-173 *)
Record mgusup := mkM { rho0 : R; T0 : R; Cs : R; s : R; G0 : R; Cv0 : R; E0 : R; S0 : R; Abar : R; Zbar : R }.
(** CheckParams, eos_mgusup.hpp:176-196; _AZbar.CheckParams is eos_base.hpp MeanAtomicProperties::CheckParams *)
Definition CheckParams (g : mgusup) : bool :=
  negb (Rlt_bool (rho0 g) 0) && negb (Rlt_bool (T0 g) 0) && negb (Rlt_bool (Cs g) 0) && negb (Rlt_bool (s g) 0) &&
  negb (Rlt_bool (G0 g) 0) && negb (Rlt_bool (Cv0 g) 0) && (Rlt_bool 0 (Abar g) && Rlt_bool 0 (Zbar g)).

Section Queries.
Variable g : mgusup.
(** the local variable eta of every query, e.g. eos_mgusup.hpp:199 *)
Definition eta_ (rho : R) : R := 1 - ratio (rho0 g) rho.
(** 198-201 *) Definition HugPressureFromDensity (rho : R) : R :=
  let eta := eta_ rho in Cs g * Cs g * rho0 g * ratio eta ((1 - s g * eta) * (1 - s g * eta)).
(** 202-205 *) Definition HugInternalEnergyFromDensity (rho : R) : R :=
  let eta := eta_ rho in E0 g + ratio eta (2 * rho0 g) * HugPressureFromDensity rho.
(** HugTemperatureFromDensity aborts when f1 <= 0, eos_mgusup.hpp:210-216 *)
Definition HugTemperature_aborts (rho : R) : bool := Rle_bool (1 - s g * eta_ rho) 0.
(** the for loop of HugTemperatureFromDensity, eos_mgusup.hpp:230-239; [fuel] = sumkmax - i; cutoff = 1e-16 *)
Fixpoint hug_loop (G0os f1 eta : R) (fuel i : nat) (sk lk sum : R) : R :=
  match fuel with
  | O => sum
  | S fuel' =>
      let mk := G0os / INR (i + 2) / INR (i + 2) in
      let sk := (sk * f1 - lk * eta) * INR (i + 1) * mk in
      let lk := mk * INR (i + 1) * lk in
      let sum := sum + sk in
      if Rlt_bool (ratio (sk * sk) (sum * sum)) (1 / 10 ^ 16 * (1 / 10 ^ 16)) then sum
      else hug_loop G0os f1 eta fuel' (S i) sk lk sum
  end.
(** 206-251: the value returned when HugTemperature_aborts is false *) Definition HugTemperatureFromDensity (rho : R) : R :=
  let eta := eta_ rho in
  let f1 := 1 - s g * eta in
  let G0os := ratio (G0 g) (s g) in
  let pf := Cs g * Cs g / (2 * Cv0 g * s g * s g) in
  if Rlt_bool (eta * eta) (1 / 10 ^ 8) then
    T0 g * exp (G0 g * eta) + pf * (2 * ln f1 - s g * eta / (f1 * f1) * (3 * s g * eta - 2))
  else
    let sum := hug_loop G0os f1 eta 20 0 (- G0 g * eta) (G0 g) (- G0 g * eta) in
    let temp := T0 g - pf * ((G0os - 3) + exp (- G0os) * (G0os * G0os - 4 * G0os + 2) * (ln f1 + sum)) in
    let temp := temp * exp (G0 g * eta) in
    temp - pf / f1 * ((4 - G0os) - 1 / f1).
(** 254-259 *) Definition InternalEnergyFromDensityTemperature (rho temp : R) : R :=
  HugInternalEnergyFromDensity rho + Cv0 g * (temp - HugTemperatureFromDensity rho).
(** 261-266 *) Definition PressureFromDensityTemperature (rho temp : R) : R :=
  HugPressureFromDensity rho + G0 g * rho0 g * Cv0 g * (temp - HugTemperatureFromDensity rho).
(** 268-273 *) Definition EntropyFromDensityTemperature (rho temp : R) : R :=
  S0 g - G0 g * Cv0 g * eta_ rho + Cv0 g * ln (temp / T0 g).
(** 282-294 *) Definition TBulkModulusFromDensityTemperature (rho temp : R) : R :=
  let eta := eta_ rho in
  let value := ratio (1 + s g * eta - G0 g * s g * eta * eta) (1 - s g * eta) in
  let value := if Req_bool eta 0 then Cs g * Cs g * rho0 g else value * ratio (HugPressureFromDensity rho) eta in
  let value := value - G0 g * G0 g * Cv0 g * rho0 g * HugTemperatureFromDensity rho in
  ratio (rho0 g) rho * value.
(** 275-280 *) Definition TExpansionCoeffFromDensityTemperature (rho temp : R) : R :=
  ratio (Cv0 g * rho0 g * G0 g) (TBulkModulusFromDensityTemperature rho temp).
(** 296-309 *) Definition BulkModulusFromDensityTemperature (rho temp : R) : R :=
  let eta := eta_ rho in
  let value := ratio (1 + s g * eta - G0 g * s g * eta * eta) (eta * (1 - s g * eta)) in
  let value := if Req_bool eta 0 then Cs g * Cs g * rho0 g else value * ratio (HugPressureFromDensity rho) eta in
  let value := value - G0 g * G0 g * Cv0 g * rho0 g * (temp - HugTemperatureFromDensity rho) in
  ratio (rho0 g) rho * value.
(** 311-322 *) Definition TemperatureFromDensityInternalEnergy (rho sie : R) : R :=
  let value := (sie - HugInternalEnergyFromDensity rho) / Cv0 g + HugTemperatureFromDensity rho in
  if Rlt_bool value 0 then 1 / 10 ^ 12 else value.
(** 324-329 *) Definition PressureFromDensityInternalEnergy (rho sie : R) : R :=
  HugPressureFromDensity rho + rho0 g * G0 g * (sie - HugInternalEnergyFromDensity rho).
(** 331-343 *) Definition EntropyFromDensityInternalEnergy (rho sie : R) : R :=
  let value := ln (TemperatureFromDensityInternalEnergy rho sie / T0 g) in
  let value := S0 g - G0 g * Cv0 g * eta_ rho + Cv0 g * value in
  if Rlt_bool value 0 then 1 / 10 ^ 12 else value.
(** 345-357 *) Definition BulkModulusFromDensityInternalEnergy (rho sie : R) : R :=
  let eta := eta_ rho in
  let value := ratio (1 + s g * eta - G0 g * s g * eta * eta) (1 - s g * eta) in
  let value := if Req_bool eta 0 then Cs g * Cs g * rho0 g else value * ratio (HugPressureFromDensity rho) eta in
  let value := value + G0 g * G0 g * rho0 g * (sie - HugInternalEnergyFromDensity rho) in
  ratio (rho0 g) rho * value.
(** 75-79 *) Definition SpecificHeatFromDensityTemperature (rho temp : R) : R := Cv0 g.
(** 81-85 *) Definition SpecificHeatFromDensityInternalEnergy (rho sie : R) : R := Cv0 g.
(** 109-113 *) Definition GruneisenParamFromDensityTemperature (rho temp : R) : R := ratio (G0 g * rho0 g) rho.
(** 115-119 *) Definition GruneisenParamFromDensityInternalEnergy (rho sie : R) : R := ratio (G0 g * rho0 g) rho.
(** 132-138 *) Definition MaximumDensity : R := if Rlt_bool 1 (s g) then 99 / 100 * ratio (s g * rho0 g) (s g - 1) else 1000 * rho0 g.
(** FillEos, eos_mgusup.hpp:362-383. [None] = EOS_ERROR *)
Definition FillEos (o : flags) (st : fstate) : option fstate :=
  if f_rho o then None
  else if f_temp o && f_sie o then None
  else
    let st := cond_upd (negb (f_temp o)) upd_sie (fun st => InternalEnergyFromDensityTemperature (s_rho st) (s_temp st)) st in
    let st := cond_upd (f_temp o) upd_temp (fun st => TemperatureFromDensityInternalEnergy (s_rho st) (s_sie st)) st in
    let st := cond_upd (f_press o) upd_press (fun st => PressureFromDensityInternalEnergy (s_rho st) (s_sie st)) st in
    let st := cond_upd (f_cv o) upd_cv (fun st => SpecificHeatFromDensityInternalEnergy (s_rho st) (s_sie st)) st in
    Some (cond_upd (f_bmod o) upd_bmod (fun st => BulkModulusFromDensityInternalEnergy (s_rho st) (s_sie st)) st).
(** ValuesAtReferenceState, eos_mgusup.hpp:388-408: rho temp sie press cv bmod dpde dvdt *)
Definition ValuesAtReferenceState : list R :=
  (rho0 g :: T0 g :: E0 g :: PressureFromDensityTemperature (rho0 g) (T0 g) :: Cv0 g :: Cs g * Cs g * rho0 g :: G0 g * rho0 g ::
   ratio (- (1)) (T0 g * G0 g * rho0 g) :: nil)%list.
End Queries.
