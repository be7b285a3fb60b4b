(** Model of singularity-eos/eos/eos_jwl.hpp (class JWL), over exact reals. *)
From Coq Require Import Reals Bool List.
From Flocq Require Import Core.
From Verif Require Import Arith RootFinding_Model Robust_Model Thermo_Spec.
Local Open Scope R_scope.

(** members, eos_jwl.hpp:138-139 *)
Record jwl := mkJwl { A : R; B : R; R1 : R; R2 : R; w : R; rho0 : R; Cv : R; c1 : R; c2 : R; Abar : R; Zbar : R }.
(** CheckParams, eos_jwl.hpp:52-57 *)
Definition CheckParams (g : jwl) : bool :=
  Rlt_bool 0 (w g) && Rlt_bool 0 (rho0 g) && Rlt_bool 0 (Cv g) && Rlt_bool 0 (Abar g) && Rlt_bool 0 (Zbar g).
(** constructor, eos_jwl.hpp:42-51. The two PORTABLE_REQUIRE on R1, R2 are active only in debug builds and are not part of [make]. *)
Definition ctor (A B R1 R2 w rho0 Cv Ab Zb : R) : jwl := mkJwl A B R1 R2 w rho0 Cv (ratio A (rho0 * R1)) (ratio B (rho0 * R2)) Ab Zb.
Definition make (A B R1 R2 w rho0 Cv Ab Zb : R) : option jwl :=
  let g := ctor A B R1 R2 w rho0 Cv Ab Zb in if CheckParams g then Some g else None.
(** robust::safe_arg_exp as a number; its overflow result +infinity ([None]) cannot occur for a negative argument, hence for R1, R2, rho > 0 *)
Definition sexp (x : R) : R := match safe_arg_exp x with Some v => v | None => 0 end.

Section Queries.
Variable g : jwl.
(** 147-150 *) Definition ReferencePressure (rho : R) : R :=
  let x := ratio (rho0 g) rho in A g * sexp (- R1 g * x) + B g * sexp (- R2 g * x).
(** 151-154 *) Definition ReferenceEnergy (rho : R) : R :=
  let x := ratio (rho0 g) rho in c1 g * sexp (- R1 g * x) + c2 g * sexp (- R2 g * x).
(** 156-159 *) Definition InternalEnergyFromDensityTemperature (rho temp : R) : R := ReferenceEnergy rho + Cv g * temp.
(** 161-164 *) Definition PressureFromDensityInternalEnergy (rho sie : R) : R :=
  ReferencePressure rho + w g * rho * (sie - ReferenceEnergy rho).
(** 172-175 *) Definition TemperatureFromDensityInternalEnergy (rho sie : R) : R := ratio (sie - ReferenceEnergy rho) (Cv g).
(** 177-180 *) Definition SpecificHeatFromDensityInternalEnergy (rho sie : R) : R := Cv g.
(** 182-190 *) Definition BulkModulusFromDensityInternalEnergy (rho sie : R) : R :=
  let x := ratio (rho0 g) rho in
  (w g + 1) * w g * rho * (sie - ReferenceEnergy rho) +
  x * (A g * R1 g * sexp (- R1 g * x) + B g * R2 g * sexp (- R2 g * x)).
(** 192-195 *) Definition GruneisenParamFromDensityInternalEnergy (rho sie : R) : R := w g.
(** 198-202 *) Definition PressureFromDensityTemperature (rho temp : R) : R :=
  PressureFromDensityInternalEnergy rho (InternalEnergyFromDensityTemperature rho temp).
(** 210-214 *) Definition SpecificHeatFromDensityTemperature (rho temp : R) : R :=
  SpecificHeatFromDensityInternalEnergy rho (InternalEnergyFromDensityTemperature rho temp).
(** 216-220 *) Definition BulkModulusFromDensityTemperature (rho temp : R) : R :=
  BulkModulusFromDensityInternalEnergy rho (InternalEnergyFromDensityTemperature rho temp).
(** 222-225 *) Definition GruneisenParamFromDensityTemperature (rho temp : R) : R := w g.
(** the lambda PofRatT, eos_jwl.hpp:233 *)
Definition PofRatT (temp r : R) : R := Cv g * temp * r * w g + ReferencePressure r.
(** 227-244 *) Definition DensityEnergyFromPressureTemperature (press temp rho_in : R) : option (R * R) :=
  let rhoguess := if Rlt_bool rho_in (1 / 100000000) then rho0 g else rho_in in
  match @regula_falsi RArith (PofRatT temp) press rhoguess (1 / 100000) 1000 (1 / 100000000) (1 / 100000000) with
  | RFDone SUCCESS (Some rho) _ => Some (rho, InternalEnergyFromDensityTemperature rho temp)
  | _ => None (* EOS_ERROR *)
  end.
(** FillEos, eos_jwl.hpp:247-256 *)
Definition FillEos (o : flags) (s : fstate) : fstate :=
  let s := cond_upd (f_press o) upd_press (fun s => PressureFromDensityInternalEnergy (s_rho s) (s_sie s)) s in
  let s := cond_upd (f_temp o) upd_temp (fun s => TemperatureFromDensityInternalEnergy (s_rho s) (s_sie s)) s in
  let s := cond_upd (f_bmod o) upd_bmod (fun s => BulkModulusFromDensityInternalEnergy (s_rho s) (s_sie s)) s in
  cond_upd (f_cv o) upd_cv (fun s => SpecificHeatFromDensityInternalEnergy (s_rho s) (s_sie s)) s.
(** 263-276: rho temp sie press cv bmod dpde dvdt; ROOM_TEMPERATURE = 293, ATMOSPHERIC_PRESSURE = 1e6 (constants.hpp:41-42) *)
Definition ValuesAtReferenceState : list R :=
  let rho := rho0 g in let temp := 293 in
  let sie := InternalEnergyFromDensityTemperature rho temp in
  let cv := Cv g in let bmod := BulkModulusFromDensityInternalEnergy rho sie in
  let gm1 := GruneisenParamFromDensityInternalEnergy rho sie * rho in
  (rho :: temp :: sie :: 1000000 :: cv :: bmod :: w g * rho0 g :: ratio (gm1 * cv) bmod :: nil)%list.
End Queries.
