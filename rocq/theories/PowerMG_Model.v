(** Model of class PowerMG in singularity-eos/eos/eos_powermg.hpp, over exact reals. *)
From Coq Require Import Reals Bool List.
From Flocq Require Import Core.
From Verif Require Import Robust_Model Thermo_Spec.
From Verif Require Vinet_Model.
Local Open Scope R_scope.
Notation downto := Vinet_Model.downto.

(** members, eos_powermg.hpp:180-184; [K] = _K0toK40, [M] = _M *)
Record powermg := mkPM { rho0 : R; T0 : R; G0 : R; Cv0 : R; E0 : R; S0 : R; Pmin : R; M : nat; K : nat -> R; Abar : R; Zbar : R }.
(** CheckParams, eos_powermg.hpp:195-210 *)
Definition CheckParams (g : powermg) : bool :=
  negb (Rlt_bool (rho0 g) 0) && negb (Rlt_bool (T0 g) 0) && negb (Rlt_bool (Cv0 g) 0) && negb (Rlt_bool (K g 0%nat) 0) &&
  (Rlt_bool 0 (Abar g) && Rlt_bool 0 (Zbar g)).
(** _InitializePowerMG, eos_powermg.hpp:212-224: the value of _M after the copy loop; PressureCoeffsK0toK40Size = 41 *)
Definition InitM (k : nat -> R) : nat :=
  fold_left (fun m ind => if Req_bool (k ind) 0 then m else ind) (seq 0 41) 0%nat.
(** constructor, eos_powermg.hpp:40-52. [None] = abort in CheckParams *)
Definition make (r0 t0 g0 cv0 e0 s0 pmin : R) (k : nat -> R) (A Z : R) : option powermg :=
  let g := mkPM r0 t0 g0 cv0 e0 s0 pmin (InitM k) k A Z in
  if CheckParams g then
    Some (if Rle_bool 0 pmin then mkPM r0 t0 g0 cv0 e0 s0 (- (1000) * k 0%nat) (InitM k) k A Z else g)
  else None.

(** the while loop of _SN2Mp2, eos_powermg.hpp:260-265; maxind = 200 bounds the number of iterations, [fuel] >= 200 *)
Fixpoint sn_loop (pf x : R) (fuel ind : nat) (ak sum : R) : R :=
  match fuel with
  | O => sum
  | S fuel' =>
      if Rlt_bool (sum * (1 / 10 ^ 15)) (pf * ak) && Nat.ltb ind 200 then
        let ind := S ind in
        let ak := ak * x / INR ind in
        sn_loop pf x fuel' ind ak (sum + ak)
      else sum
  end.

Section Queries.
Variable g : powermg.
(** the local variable eta of every query, e.g. eos_powermg.hpp:227 *)
Definition eta_ (rho : R) : R := 1 - ratio (rho0 g) rho.
(** _HugPressureFromDensity, eos_powermg.hpp:226-234 *) Definition HugPressureFromDensity (rho : R) : R :=
  let eta := eta_ rho in
  let value := downto (M g) 1 (fun ind value => K g ind + eta * value) 0 in
  K g 0%nat * eta * (eta * value + 1).
(** _SN2Mp2, eos_powermg.hpp:251-272 *)
Definition SN2Mp2 (x : R) : R :=
  let ak := 1 / INR (M g + 2) in
  sn_loop (exp x - 1) x 200 (M g + 2) ak ak.
(** _HugTemperatureFromDensity, eos_powermg.hpp:235-246 *) Definition HugTemperatureFromDensity (rho : R) : R :=
  let eta := eta_ rho in
  let gamma2 := SN2Mp2 (G0 g * eta) in
  let sum := INR (M g) * K g (M g) * gamma2 in
  let '(gamma2, sum) := downto (M g - 1) 1 (fun ind '(gamma2, sum) =>
      let gamma2 := G0 g * eta / INR (ind + 2) * gamma2 + 1 / INR (ind + 2) in
      (gamma2, eta * sum + INR ind * K g ind * gamma2)) (gamma2, sum) in
  let temp := eta * eta * eta * sum * (K g 0%nat / Cv0 g / 2 / rho0 g) in
  T0 g * exp (eta * G0 g) + temp.
(** 274-287 *) Definition AllHugPressureFromDensity (rho : R) : R :=
  let eta := eta_ rho in
  if Rle_bool eta 0 then
    if Rlt_bool eta (Pmin g / K g 0%nat) then Pmin g else K g 0%nat * eta
  else HugPressureFromDensity rho.
(** 288-291 *) Definition AllHugInternalEnergyFromDensity (rho : R) : R :=
  let eta := eta_ rho in E0 g + ratio eta (2 * rho0 g) * AllHugPressureFromDensity rho.
(** 292-301 *) Definition AllHugTemperatureFromDensity (rho : R) : R :=
  let eta := eta_ rho in if Rle_bool eta 0 then T0 g * exp (eta * G0 g) else HugTemperatureFromDensity rho.
(** 304-309 *) Definition InternalEnergyFromDensityTemperature (rho temp : R) : R :=
  AllHugInternalEnergyFromDensity rho + Cv0 g * (temp - AllHugTemperatureFromDensity rho).
(** 311-316 *) Definition PressureFromDensityTemperature (rho temp : R) : R :=
  AllHugPressureFromDensity rho + G0 g * rho0 g * Cv0 g * (temp - AllHugTemperatureFromDensity rho).
(** 318-323 *) Definition EntropyFromDensityTemperature (rho temp : R) : R :=
  S0 g - G0 g * Cv0 g * eta_ rho + Cv0 g * ln (temp / T0 g).
(** loop shared by the two _compBulkModulus functions, eos_powermg.hpp:342-345 and 373-376 *)
Definition comp_sum (eta : R) : R := downto (M g) 1 (fun ind sum => sum * eta + INR ind * K g ind * eta) 0.
(** _compBulkModulusFromDensityTemperature, eos_powermg.hpp:338-350 *)
Definition compBulkModulusFromDensityTemperature (rho temp : R) : R :=
  let eta := eta_ rho in
  let value := (1 - G0 g * eta / 2) * K g 0%nat in
  let value := value * comp_sum eta in
  let value := value + ratio (HugPressureFromDensity rho) eta in
  let value := value + G0 g * G0 g * Cv0 g * rho0 g * (temp - HugTemperatureFromDensity rho) in
  ratio (rho0 g) rho * value.
(** 352-367 *) Definition BulkModulusFromDensityTemperature (rho temp : R) : R :=
  let eta := eta_ rho in
  if Rle_bool eta 0 then
    let value := if Rlt_bool eta (Pmin g / K g 0%nat) then G0 g * G0 g * Cv0 g * rho0 g * (temp - T0 g * exp (G0 g * eta))
                 else K g 0%nat + G0 g * G0 g * Cv0 g * rho0 g * (temp - T0 g * exp (G0 g * eta)) in
    ratio (rho0 g) rho * value
  else compBulkModulusFromDensityTemperature rho temp.
(** 332-336 *) Definition TBulkModulusFromDensityTemperature (rho temp : R) : R :=
  BulkModulusFromDensityTemperature rho temp - G0 g * G0 g * Cv0 g * rho0 g * ratio (rho0 g) rho * temp.
(** 325-330 *) Definition TExpansionCoeffFromDensityTemperature (rho temp : R) : R :=
  ratio (Cv0 g * rho0 g * G0 g) (TBulkModulusFromDensityTemperature rho temp).
(** _compBulkModulusFromDensityInternalEnergy, eos_powermg.hpp:369-381 *)
Definition compBulkModulusFromDensityInternalEnergy (rho sie : R) : R :=
  let eta := eta_ rho in
  let value := (1 - G0 g * eta / 2) * K g 0%nat in
  let value := value * comp_sum eta in
  let value := value + ratio (HugPressureFromDensity rho) eta in
  let value := value + G0 g * G0 g * rho0 g * (sie - AllHugInternalEnergyFromDensity rho) in
  ratio (rho0 g) rho * value.
(** 383-400 *) Definition BulkModulusFromDensityInternalEnergy (rho sie : R) : R :=
  let eta := eta_ rho in
  if Rle_bool eta 0 then
    let value := if Rlt_bool eta (Pmin g / K g 0%nat)
                 then G0 g * G0 g * rho0 g * (sie - E0 g + Pmin g / rho0 g * (Pmin g / K g 0%nat / 2 - eta))
                 else K g 0%nat + G0 g * G0 g * rho0 g * (sie - E0 g - K g 0%nat * eta * eta / 2) in
    ratio (rho0 g) rho * value
  else compBulkModulusFromDensityInternalEnergy rho sie.
(** 403-414 *) Definition TemperatureFromDensityInternalEnergy (rho sie : R) : R :=
  let value := (sie - AllHugInternalEnergyFromDensity rho) / Cv0 g + AllHugTemperatureFromDensity rho in
  if Rlt_bool value 0 then 1 / 10 ^ 12 else value.
(** 416-421 *) Definition PressureFromDensityInternalEnergy (rho sie : R) : R :=
  AllHugPressureFromDensity rho + rho0 g * G0 g * (sie - AllHugInternalEnergyFromDensity rho).
(** 423-435 *) Definition EntropyFromDensityInternalEnergy (rho sie : R) : R :=
  let value := ln (TemperatureFromDensityInternalEnergy rho sie / T0 g) in
  let value := S0 g - G0 g * Cv0 g * eta_ rho + Cv0 g * value in
  if Rlt_bool value 0 then 1 / 10 ^ 12 else value.
(** 81-85 *) Definition SpecificHeatFromDensityTemperature (rho temp : R) : R := Cv0 g.
(** 87-91 *) Definition SpecificHeatFromDensityInternalEnergy (rho sie : R) : R := Cv0 g.
(** 115-119 *) Definition GruneisenParamFromDensityTemperature (rho temp : R) : R := ratio (G0 g * rho0 g) rho.
(** 121-125 *) Definition GruneisenParamFromDensityInternalEnergy (rho sie : R) : R := ratio (G0 g * rho0 g) rho.
(** 160-166 *) Definition MinimumDensity : R := 1 / 10 ^ 4 * rho0 g.
(** FillEos, eos_powermg.hpp:440-461. [None] = EOS_ERROR *)
Definition FillEos (o : flags) (st : fstate) : option fstate :=
  if f_rho o then None
  else if f_temp o && f_sie o then None
  else
    let st := cond_upd (negb (f_temp o)) upd_sie (fun st => InternalEnergyFromDensityTemperature (s_rho st) (s_temp st)) st in
    let st := cond_upd (f_temp o) upd_temp (fun st => TemperatureFromDensityInternalEnergy (s_rho st) (s_sie st)) st in
    let st := cond_upd (f_press o) upd_press (fun st => PressureFromDensityInternalEnergy (s_rho st) (s_sie st)) st in
    let st := cond_upd (f_cv o) upd_cv (fun st => SpecificHeatFromDensityInternalEnergy (s_rho st) (s_sie st)) st in
    Some (cond_upd (f_bmod o) upd_bmod (fun st => BulkModulusFromDensityInternalEnergy (s_rho st) (s_sie st)) st).
(** ValuesAtReferenceState, eos_powermg.hpp:466-486: rho temp sie press cv bmod dpde dvdt *)
Definition ValuesAtReferenceState : list R :=
  (rho0 g :: T0 g :: E0 g :: PressureFromDensityTemperature (rho0 g) (T0 g) :: Cv0 g :: K g 0%nat :: G0 g * rho0 g ::
   ratio (- (1)) (T0 g * G0 g * rho0 g) :: nil)%list.
End Queries.
