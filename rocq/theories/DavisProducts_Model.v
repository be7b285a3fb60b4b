(** Model of class DavisProducts in singularity-eos/eos/eos_davis.hpp, over exact reals. math_utils::pow<n> is the n-th power (C02). *)
From Coq Require Import Reals Bool List.
From Flocq Require Import Core.
From Verif Require Import Arith RootFinding_Model Robust_Model Thermo_Spec.
Local Open Scope R_scope.

(** std::pow for a positive base (all bases are vvc > 0 or sums of powers of it) *)
Definition cpow (x y : R) : R := if Rlt_bool 0 x then Rpower x y else 0.
(** members, eos_davis.hpp:348-349 *)
Record products := mkP { a : R; b : R; k : R; n : R; aon : R; vc : R; pc : R; Cv : R; Abar : R; Zbar : R }.
(** constructor, eos_davis.hpp:215-221 *)
Definition ctor (a b k n vc pc Cv A Z : R) : products := mkP a b k n (a / n) vc pc Cv A Z.
(** CheckParams, eos_davis.hpp:223-227 (debug builds only except the mean atomic properties) *)
Definition CheckParams (g : products) : bool := Rlt_bool SMALL (n g) && Rlt_bool SMALL (Cv g) && Rlt_bool 0 (Abar g) && Rlt_bool 0 (Zbar g).

Section Queries.
Variable g : products.
(** 353-359 *) Definition F (rho : R) : R :=
  if Rle_bool rho 0 then 0
  else let vvc := ratio 1 (rho * vc g) in 2 * ratio (a g) (cpow vvc (2 * n g) + 1).
(** 360-369 *) Definition Ps (rho : R) : R :=
  if Rle_bool rho 0 then 0
  else
    let vvc := ratio 1 (rho * vc g) in
    pc g * ratio (cpow (1 / 2 * (cpow vvc (n g) + cpow vvc (- n g))) (aon g)) (cpow vvc (k g + a g)) * ratio (k g - 1 + F rho) (k g - 1 + a g).
(** 370-380 *) Definition Es (rho : R) : R :=
  if Rle_bool rho 0 then 0
  else
    let vvc := ratio 1 (rho * vc g) in
    let ec := pc g * ratio (vc g) (k g - 1 + a g) in
    ratio (ec * cpow (1 / 2 * (cpow vvc (n g) + cpow vvc (- n g))) (aon g)) (cpow vvc (k g - 1 + a g)).
(** 381-391 *) Definition Ts (rho : R) : R :=
  if Rle_bool rho 0 then 0
  else
    let vvc := ratio 1 (rho * vc g) in
    cpow 2 (- a g * ratio (b g) (n g)) * pc g * ratio (vc g) (Cv g * (k g - 1 + a g)) *
    ratio (cpow (1 / 2 * (cpow vvc (n g) + cpow vvc (- n g))) (aon g * (1 - b g))) (cpow vvc (k g - 1 + a g * (1 - b g))).
(** 392-394 *) Definition Gamma (rho : R) : R := k g - 1 + (1 - b g) * F rho.
(** 230-234 *) Definition TemperatureFromDensityInternalEnergy (rho sie : R) : R := Ts rho + ratio (sie - Es rho) (Cv g).
(** 236-240 *) Definition InternalEnergyFromDensityTemperature (rho temp : R) : R := Cv g * (temp - Ts rho) + Es rho.
(** 249-253 *) Definition PressureFromDensityInternalEnergy (rho sie : R) : R := Ps rho + rho * Gamma rho * (sie - Es rho).
(** 242-247 *) Definition PressureFromDensityTemperature (rho temp : R) : R :=
  PressureFromDensityInternalEnergy rho (InternalEnergyFromDensityTemperature rho temp).
(** 275-279 *) Definition SpecificHeatFromDensityTemperature (rho temp : R) : R := Cv g.
(** 281-285 *) Definition SpecificHeatFromDensityInternalEnergy (rho sie : R) : R := Cv g.
(** 533-563 *) Definition BulkModulusFromDensityInternalEnergy (rho sie : R) : R :=
  if Rle_bool rho 0 then 0
  else
    let vvc := ratio 1 (rho * vc g) in
    let Fx := -4 * a g * n g * ratio (cpow vvc (2 * n g - 1)) ((1 + cpow vvc (2 * n g)) ^ 2) in
    let tmp := ratio (cpow (1 / 2 * (cpow vvc (n g) + cpow vvc (- n g))) (aon g)) (cpow vvc (k g + a g)) in
    let tmp_x := 1 / 2 * a g * (cpow vvc (n g - 1) - cpow vvc (- n g - 1)) *
        ratio (cpow (1 / 2 * (cpow vvc (n g) + cpow vvc (- n g))) (aon g - 1)) (cpow vvc (k g + a g)) -
      (k g + a g) * ratio tmp vvc in
    let psv := ratio (pc g) (k g - 1 + a g) * ratio (tmp * Fx + (k g - 1 + F rho) * tmp_x) (vc g) in
    let esv := ratio (pc g) (k g - 1 + a g) * (tmp + vvc * tmp_x) in
    let gamma := Gamma rho in
    let es := Es rho in
    let gammav := (1 - b g) * Fx / vc g in
    let ke := - ratio (psv + (sie - es) * rho * (gammav - gamma * rho) - gamma * rho * esv) rho in
    let p := Ps rho + rho * gamma * (sie - es) in
    ke + gamma * p.
(** 287-292 *) Definition BulkModulusFromDensityTemperature (rho temp : R) : R :=
  BulkModulusFromDensityInternalEnergy rho (InternalEnergyFromDensityTemperature rho temp).
(** 298-302 *) Definition GruneisenParamFromDensityTemperature (rho temp : R) : R := Gamma rho.
(** 304-308 *) Definition GruneisenParamFromDensityInternalEnergy (rho sie : R) : R := Gamma rho.
(** the lambda PofRatT, eos_davis.hpp:568-570 *)
Definition PofRatT (temp r : R) : R := Ps r + Gamma r * r * Cv g * (temp - Ts r).
(** 565-582 *) Definition DensityEnergyFromPressureTemperature (press temp : R) : option (R * R) :=
  match @regula_falsi RArith (PofRatT temp) press (ratio 1 (vc g)) (1 / 100000) 1000 (1 / 100000000) (1 / 100000000) with
  | RFDone SUCCESS (Some rho) _ => let rho := Rmax rho 0 in Some (rho, InternalEnergyFromDensityTemperature rho temp)
  | _ => None (* EOS_ERROR *)
  end.
(** FillEos, eos_davis.hpp:585-595 *)
Definition FillEos (o : flags) (s : fstate) : fstate :=
  let s := cond_upd (f_press o) upd_press (fun s => PressureFromDensityInternalEnergy (s_rho s) (s_sie s)) s in
  let s := cond_upd (f_temp o) upd_temp (fun s => TemperatureFromDensityInternalEnergy (s_rho s) (s_sie s)) s in
  let s := cond_upd (f_bmod o) upd_bmod (fun s => BulkModulusFromDensityInternalEnergy (s_rho s) (s_sie s)) s in
  cond_upd (f_cv o) upd_cv (fun s => SpecificHeatFromDensityInternalEnergy (s_rho s) (s_sie s)) s.
(** ValuesAtReferenceState, eos_davis.hpp:600-613: rho temp sie press cv bmod dpde dvdt *)
Definition ValuesAtReferenceState : list R :=
  let rho := ratio 1 (vc g) in
  let sie := 2 * Es rho in
  let temp := TemperatureFromDensityInternalEnergy rho sie in
  let cv := SpecificHeatFromDensityInternalEnergy rho sie in
  let bmod := BulkModulusFromDensityInternalEnergy rho sie in
  let gm1 := GruneisenParamFromDensityTemperature rho temp * rho in
  (rho :: temp :: sie :: PressureFromDensityInternalEnergy rho sie :: cv :: bmod :: Gamma rho * rho :: gm1 * ratio cv bmod :: nil)%list.
End Queries.
