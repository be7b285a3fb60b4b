(** Model of class DavisReactants in singularity-eos/eos/eos_davis.hpp, over exact reals. math_utils::pow<n> is the n-th power (C02). *)
From Coq Require Import Reals Bool List.
From Flocq Require Import Core.
From Verif Require Import Arith RootFinding_Model Robust_Model Thermo_Spec.
Local Open Scope R_scope.

(** std::pow for a base that is never negative here; the only non-positive base reached is 0 with exponent 1 + alpha >= 1 *)
Definition cpow (x y : R) : R := if Rlt_bool 0 x then Rpower x y else 0.
(** members, eos_davis.hpp:199-200 *)
Record reactants := mkR { rho0 : R; spvol0 : R; e0 : R; P0 : R; T0 : R; A : R; B : R; C : R; G0 : R; Z : R; alpha : R; i1pa : R; Cv0 : R; A2oB : R;
  Abar : R; Zbar : R }.
(** constructor, eos_davis.hpp:44-52 (CheckParams is active in debug builds only, except for the mean atomic properties) *)
Definition ctor (rho0 e0 P0 T0 A B C G0 Z alpha Cv0 Ab Zb : R) : reactants :=
  mkR rho0 (1 / rho0) e0 P0 T0 A B C G0 Z alpha (1 / (1 + alpha)) Cv0 (A * A / B) Ab Zb.
(** CheckParams, eos_davis.hpp:55-62 *)
Definition CheckParams (g : reactants) : bool :=
  Rlt_bool SMALL (rho0 g) && Rle_bool 0 (T0 g) && Rlt_bool SMALL (B g) && Rle_bool 0 (alpha g) && Rlt_bool 0 (Abar g) && Rlt_bool 0 (Zbar g).
(** onethird, eos_davis.hpp:198 *)
Definition onethird : R := 1 / 3.

Section Queries.
Variable g : reactants.
(** 402-417 *) Definition Ps (rho : R) : R :=
  if Rle_bool rho 0 then 0
  else
    let y := 1 - ratio (rho0 g) (Rmax rho 0) in
    let phat := 1 / 4 * A2oB g * rho0 g in
    let b4y := 4 * B g * y in
    if Rle_bool (rho0 g) rho then
      phat * (b4y + 1 / 2 * (b4y ^ 2 + onethird * (b4y ^ 3 + C g * b4y ^ 4 * (1 / 4))) + ratio (y ^ 2) ((1 - y) ^ 4))
    else phat * (exp b4y - 1).
(** 418-434 *) Definition Es (rho : R) : R :=
  if Rle_bool rho 0 then 0
  else
    let y := 1 - ratio (rho0 g) (Rmax rho 0) in
    let phat := 1 / 4 * A2oB g * rho0 g in
    let b4y := 4 * B g * y in
    let e_s :=
      if Rlt_bool 0 y then
        let z := rho * spvol0 g - 1 in
        1 / 2 * y * b4y * (1 + onethird * b4y * (1 + 1 / 4 * b4y * (1 + C g * (1 / 5) * b4y))) + onethird * z ^ 3
      else - y - ratio (1 - exp b4y) (4 * B g) in
    e0 g + P0 g * (spvol0 g - ratio 1 (Rmax rho 0)) + phat * spvol0 g * e_s.
(** 435-440 *) Definition Ts (rho : R) : R :=
  if Rle_bool rho 0 then T0 g
  else
    let rho0overrho := ratio (rho0 g) (Rmax rho 0) in
    let y := 1 - rho0overrho in
    T0 g * exp (- Z g * y) * cpow rho0overrho (- G0 g - Z g).
(** 441-448 *) Definition Gamma (rho : R) : R :=
  if Rle_bool (rho0 g) rho then let y := 1 - ratio (rho0 g) (Rmax rho 0) in G0 g + Z g * y else G0 g.
(** 397-400 *) Definition DimlessEdiff (rho sie : R) : R := ratio (1 + alpha g) (Ts rho * Cv0 g) * (sie - Es rho) + 1.
(** 64-75 *) Definition TemperatureFromDensityInternalEnergy (rho sie : R) : R :=
  let power_base := DimlessEdiff rho sie in
  if Rle_bool power_base 0 then 0 else Ts rho * cpow power_base (i1pa g).
(** 77-84 *) Definition InternalEnergyFromDensityTemperature (rho temp : R) : R :=
  let t_s := Ts rho in Es rho + Cv0 g * t_s * i1pa g * (cpow (ratio temp t_s) (1 + alpha g) - 1).
(** 93-97 *) Definition PressureFromDensityInternalEnergy (rho sie : R) : R := Ps rho + Gamma rho * rho * (sie - Es rho).
(** 86-91 *) Definition PressureFromDensityTemperature (rho temp : R) : R :=
  PressureFromDensityInternalEnergy rho (InternalEnergyFromDensityTemperature rho temp).
(** 100-107 *) Definition MinInternalEnergyFromDensity (rho : R) : R := Es rho - Cv0 g * Ts rho * i1pa g.
(** 130-139 *) Definition SpecificHeatFromDensityInternalEnergy (rho sie : R) : R :=
  let power_base := DimlessEdiff rho sie in
  if Rle_bool power_base 0 then 0 else ratio (Cv0 g) (cpow power_base (- alpha g * i1pa g)).
(** 123-128 *) Definition SpecificHeatFromDensityTemperature (rho temp : R) : R :=
  SpecificHeatFromDensityInternalEnergy rho (InternalEnergyFromDensityTemperature rho temp).
(** 451-474 *) Definition BulkModulusFromDensityInternalEnergy (rho sie : R) : R :=
  let r := Rmax rho 0 in
  let y := 1 - ratio (rho0 g) r in
  let phat := 1 / 4 * A2oB g * rho0 g in
  let b4y := 4 * B g * y in
  let gamma := Gamma r in
  let esv := - Ps r in
  let psv := if Rle_bool (rho0 g) rho
    then - phat * rho0 g * (4 * B g * (1 + b4y + 1 / 2 * (b4y ^ 2 + onethird * C g * b4y ^ 3)) + 3 * ratio y ((1 - y) ^ 4) + 4 * ratio (y ^ 2) ((1 - y) ^ 5))
    else - phat * 4 * B g * rho0 g * exp b4y in
  let gammav := if Rle_bool (rho0 g) rho then - Z g * rho0 g else 0 in
  let es := Es rho in
  let numerator := - (psv + (sie - es) * r * (gammav - gamma * r) - gamma * r * esv) in
  let ke := ratio numerator r in
  let p := - esv + rho * gamma * (sie - es) in
  ke + gamma * p.
(** 141-146 *) Definition BulkModulusFromDensityTemperature (rho temp : R) : R :=
  BulkModulusFromDensityInternalEnergy rho (InternalEnergyFromDensityTemperature rho temp).
(** 152-156 *) Definition GruneisenParamFromDensityTemperature (rho temp : R) : R := Gamma rho.
(** 158-162 *) Definition GruneisenParamFromDensityInternalEnergy (rho sie : R) : R := Gamma rho.
(** the lambda PofRatT, eos_davis.hpp:482-485 *)
Definition PofRatT (temp r : R) : R := Ps r + Gamma r * r * Cv0 g * Ts r * i1pa g * (cpow (ratio temp (Ts r)) (1 + alpha g) - 1).
(** 477-496 *) Definition DensityEnergyFromPressureTemperature (press temp : R) : option (R * R) :=
  match @regula_falsi RArith (PofRatT temp) press (rho0 g) (1 / 100000) 1000 (1 / 100000000) (1 / 100000000) with
  | RFDone SUCCESS (Some rho) _ => let rho := Rmax 0 rho in Some (rho, InternalEnergyFromDensityTemperature rho temp)
  | _ => None (* EOS_ERROR *)
  end.
(** FillEos, eos_davis.hpp:499-511 *)
Definition FillEos (o : flags) (s : fstate) : fstate :=
  let s := cond_upd (f_press o) upd_press (fun s => PressureFromDensityInternalEnergy (s_rho s) (s_sie s)) s in
  let s := cond_upd (f_temp o) upd_temp (fun s => TemperatureFromDensityInternalEnergy (s_rho s) (s_sie s)) s in
  let s := cond_upd (f_bmod o) upd_bmod (fun s => BulkModulusFromDensityInternalEnergy (s_rho s) (s_sie s)) s in
  cond_upd (f_cv o) upd_cv (fun s => SpecificHeatFromDensityInternalEnergy (s_rho s) (s_sie s)) s.
(** ValuesAtReferenceState, eos_davis.hpp:517-530: rho temp sie press cv bmod dpde dvdt *)
Definition ValuesAtReferenceState : list R :=
  let sie := InternalEnergyFromDensityTemperature (rho0 g) (T0 g) in
  let cv := SpecificHeatFromDensityInternalEnergy (rho0 g) sie in
  let bmod := BulkModulusFromDensityInternalEnergy (rho0 g) sie in
  let gm1 := GruneisenParamFromDensityTemperature (rho0 g) (T0 g) * rho0 g in
  (rho0 g :: T0 g :: sie :: PressureFromDensityInternalEnergy (rho0 g) sie :: cv :: bmod :: Gamma (rho0 g) * rho0 g :: gm1 * ratio cv bmod :: nil)%list.
End Queries.
