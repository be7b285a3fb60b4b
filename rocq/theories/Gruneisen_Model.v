(** Model of singularity-eos/eos/eos_gruneisen.hpp (class Gruneisen, Steinberg form), over exact reals.
    [rho_max = None] stands for +infinity, the value ComputeRhoMax returns when the Hugoniot has no singularity. *)
From Coq Require Import Reals Bool List.
From Flocq Require Import Core.
From Verif Require Import Arith RootFinding_Model Robust_Model Thermo_Spec.
Local Open Scope R_scope.

(** gruneisen_utils::find_min_bounded_val, eos_gruneisen.hpp:206-222; [None] = -infinity *)
Definition find_min_bounded_val (val1 val2 mn mx : R) : option R :=
  let minval := Rmin val1 val2 in
  let maxval := Rmax val1 val2 in
  if Rlt_bool mn minval && Rlt_bool minval mx then Some minval
  else if Rlt_bool mn maxval && Rlt_bool maxval mx then Some maxval
  else None.
(** gruneisen_utils::is_near_zero, eos_gruneisen.hpp:223-225 *)
Definition is_near_zero (val tol : R) : bool := Rlt_bool (Rabs val) tol.
(** the lambda poly in ComputeRhoMax, eos_gruneisen.hpp:237-239: the denominator 1 - s(eta) *)
Definition poly (s1 s2 s3 eta : R) : R := 1 - s1 * eta - s2 * eta ^ 2 - s3 * eta ^ 3.
Definition discriminant3 (s1 s2 s3 : R) : R :=
  -18 * s3 * s2 * s1 - 4 * (- s2) ^ 3 + s2 ^ 2 * s1 ^ 2 - 4 * s3 * s1 ^ 3 - 27 * s3 ^ 2.
(** search interval of the cubic case, eos_gruneisen.hpp:264-296 *)
Definition cubic_bounds (s1 s2 s3 : R) : R * R :=
  if Rle_bool 0 (discriminant3 s1 s2 s3) then
    let extremum1 := (s2 + sqrt (s2 ^ 2 - 3 * s3 * s1)) / (-3 * s3) in
    let extremum2 := (s2 - sqrt (s2 ^ 2 - 3 * s3 * s1)) / (-3 * s3) in
    let min_extremum := Rmin extremum1 extremum2 in
    let max_extremum := Rmax extremum1 extremum2 in
    if Rlt_bool s3 0 then
      let minbound := Rmax min_extremum 0 in
      (minbound, Rmin (Rmax max_extremum minbound) 1)
    else if Rlt_bool 0 min_extremum then (0, Rmin min_extremum 1) else (0, 1)
  else (0, 1).
(** the value of [root] after the linear/quadratic/cubic selection, eos_gruneisen.hpp:245-321; [None] = EOS_ERROR (program aborts).
    The initial -1 and -infinity both mean "no root" and are represented by -1. *)
Definition eta_root (s1 s2 s3 : R) : option R :=
  if is_near_zero s2 EPS && is_near_zero s3 EPS && Rlt_bool 1 s1 then Some (1 / s1)
  else if is_near_zero s3 EPS && negb (is_near_zero s2 EPS) then
    let discriminant := s1 ^ 2 + 4 * s2 in
    if Rlt_bool discriminant 0 then Some (-1)
    else
      let root1 := (s1 + sqrt discriminant) / (-2 * s2) in
      let root2 := (s1 - sqrt discriminant) / (-2 * s2) in
      match find_min_bounded_val root1 root2 0 1 with Some r => Some r | None => Some (-1) end
  else if negb (is_near_zero s3 EPS) then
    let (minbound, maxbound) := cubic_bounds s1 s2 s3 in
    let p := poly s1 s2 s3 in
    if Rlt_bool (p minbound * p maxbound) 0 then
      match @regula_falsi RArith p 0 (1 / 1000) minbound maxbound (100 * EPS) (10 * EPS) with
      | RFDone SUCCESS (Some root) _ => Some root
      | _ => None
      end
    else if is_near_zero (p minbound) EPS then Some minbound
    else if is_near_zero (p maxbound) EPS then Some maxbound
    else Some (-1)
  else Some (-1).
(** ComputeRhoMax, eos_gruneisen.hpp:231-329: outer [None] = EOS_ERROR, inner [None] = +infinity *)
Definition ComputeRhoMax (s1 s2 s3 rho0 : R) : option (option R) :=
  match eta_root s1 s2 s3 with
  | None => None
  | Some root => if Rlt_bool 0 root && Rlt_bool root 1 then Some (Some (rho0 / ((1 - root) + EPS))) else Some None
  end.

(** members, eos_gruneisen.hpp:188-189 *)
Record grun := mkGrun { C0 : R; s1 : R; s2 : R; s3 : R; G0 : R; b : R; rho0 : R; T0 : R; P0 : R; Cv : R; rho_max : option R;
  Abar : R; Zbar : R }.
(** RHOMAX_SAFETY, eos_gruneisen.hpp:200-202 *)
Definition RHOMAX_SAFETY : R := 99 / 100.
(** second constructor, eos_gruneisen.hpp:60-67 (neither constructor calls CheckParams) *)
Definition make_auto (C0 s1 s2 s3 G0 b rho0 T0 P0 Cv A Z : R) : option grun :=
  match ComputeRhoMax s1 s2 s3 rho0 with
  | None => None
  | Some rm => Some (mkGrun C0 s1 s2 s3 G0 b rho0 T0 P0 Cv (match rm with Some m => Some (RHOMAX_SAFETY * m) | None => None end) A Z)
  end.
Section Queries.
Variable g : grun.
(** CheckParams, eos_gruneisen.hpp:70-78 *)
Definition CheckParams : bool :=
  Rle_bool 0 (T0 g) && Rle_bool 0 (rho0 g) && Rle_bool 0 (C0 g) && Rle_bool 0 (Cv g) &&
  (match rho_max g with Some m => Rlt_bool (rho0 g) m | None => true end) && Rlt_bool 0 (Abar g) && Rlt_bool 0 (Zbar g).
(** std::min(rho, _rho_max) *)
Definition cap (rho : R) : R := match rho_max g with Some m => Rmin rho m | None => rho end.
(** 192-195 *) Definition Gamma (rho_in : R) : R :=
  let rho := cap rho_in in
  if Rlt_bool rho (rho0 g) then G0 g else G0 g * rho0 g / rho + b g * (1 - rho0 g / rho).
(** 83-87 *) Definition TemperatureFromDensityInternalEnergy (rho sie : R) : R := T0 g + sie / Cv g.
(** 89-93 *) Definition InternalEnergyFromDensityTemperature (rho temp : R) : R := Cv g * (temp - T0 g).
(** 114-118 *) Definition SpecificHeatFromDensityTemperature (rho temp : R) : R := Cv g.
(** 120-124 *) Definition SpecificHeatFromDensityInternalEnergy (rho sie : R) : R := Cv g.
(** 134-138 *) Definition GruneisenParamFromDensityTemperature (rho temp : R) : R := Gamma (cap rho).
(** 140-144 *) Definition GruneisenParamFromDensityInternalEnergy (rho sie : R) : R := Gamma (cap rho).
(** 331-351 *) Definition dPres_drho_e (rho_in sie : R) : R :=
  let rho := cap rho_in in
  if Rlt_bool rho (rho0 g) then C0 g ^ 2 + Gamma rho * sie
  else
    let eta := 1 - rho0 g / rho in
    let s := s1 g * eta + s2 g * eta ^ 2 + s3 g * eta ^ 3 in
    let ds := s1 g + 2 * s2 g * eta + 3 * s3 g * eta ^ 2 in
    let deta := rho0 g / rho ^ 2 in
    let dGam := (b g - G0 g) * deta in
    let P_H := P0 g + C0 g ^ 2 * rho0 g * eta / (1 - s) ^ 2 in
    let dP_H := C0 g ^ 2 * rho0 g / (1 - s) ^ 2 * deta * (1 + 2 * eta * ds / (1 - s)) in
    let E_H := (P_H + P0 g) * eta / rho0 g / 2 in
    let dE_H := deta * (P_H + P0 g) / rho0 g / 2 + eta / rho0 g / 2 * dP_H in
    dP_H + Gamma rho * (sie - E_H) + rho * dGam * (sie - E_H) - rho * Gamma rho * dE_H.
(** 354-371 *) Definition PressureFromDensityInternalEnergy (rho_in sie : R) : R :=
  let rho := cap rho_in in
  if Rle_bool (rho0 g) rho then
    let eta := 1 - rho0 g / rho in
    let s := s1 g * eta + s2 g * eta ^ 2 + s3 g * eta ^ 3 in
    let P_H := P0 g + C0 g ^ 2 * rho0 g * eta / (1 - s) ^ 2 in
    let E_H := (P_H + P0 g) * eta / rho0 g / 2 in
    P_H + Gamma rho * rho * (sie - E_H)
  else
    let P_H := P0 g + C0 g ^ 2 * (rho - rho0 g) in
    let E_H := 0 in
    P_H + Gamma rho * rho * (sie - E_H).
(** MinInternalEnergyFromDensity, eos_gruneisen.hpp:374-377 via the EosBase default *)
Definition MinInternalEnergyFromDensity (rho_in : R) : R := InternalEnergyFromDensityTemperature (cap rho_in) 0.
(** 386-400 *) Definition BulkModulusFromDensityInternalEnergy (rho_in sie : R) : R :=
  let rho := cap rho_in in
  if Rlt_bool rho (rho0 g) then rho * C0 g ^ 2 + G0 g * (rho * sie + PressureFromDensityInternalEnergy rho sie)
  else
    let dPdr_e := dPres_drho_e rho sie in
    let dPde_r := rho * Gamma rho in
    rho * dPdr_e + PressureFromDensityInternalEnergy rho sie / rho * dPde_r.
(** 403-408 *) Definition PressureFromDensityTemperature (rho_in temp : R) : R :=
  let rho := cap rho_in in PressureFromDensityInternalEnergy rho (InternalEnergyFromDensityTemperature rho temp).
(** 417-422 *) Definition BulkModulusFromDensityTemperature (rho_in temp : R) : R :=
  let rho := cap rho_in in BulkModulusFromDensityInternalEnergy rho (InternalEnergyFromDensityTemperature rho temp).
(** 173-173 *) Definition MinimumPressure : R := PressureFromDensityInternalEnergy 0 0.
(** the lambda dPdrho_T in MaxStableDensityAtTemperature, eos_gruneisen.hpp:460-462 *)
Definition dPdrho_T (temperature r : R) : R := dPres_drho_e r (InternalEnergyFromDensityTemperature r temperature).
(** MaxStableDensityAtTemperature, eos_gruneisen.hpp:424-477; [None] = +infinity never is returned here because with an infinite rho_max
    the slope is a NaN (infinity * 0) and the first test fails; outer [None] = abort / EOS_ERROR *)
Definition MaxStableDensityAtTemperature (temperature : R) : option R :=
  let stop := match rho_max g with Some m => Rle_bool 0 (dPdrho_T temperature m) | None => false end in
  if stop then rho_max g
  else if Rlt_bool (dPdrho_T temperature (rho0 g)) 0 then None
  else
    let rho_lower := rho0 g in
    let rho_upper := match rho_max g with Some m => Rmin m 10000 | None => 10000 end in
    match @regula_falsi RArith (dPdrho_T temperature) 0 ((rho_lower + rho_upper) / 2) rho_lower rho_upper (1 / 100000000) (1 / 100000000) with
    | RFDone SUCCESS (Some r) _ => Some r
    | _ => None
    end.
(** 175-177 *) Definition MaximumPressureAtTemperature (T : R) : option R := MaxStableDensityAtTemperature T.
(** 479-526; [None] = abort / EOS_ERROR *)
Definition DensityEnergyFromPressureTemperature (press temp : R) : option (R * R) :=
  let Pref := PressureFromDensityTemperature (rho0 g) temp in
  let bounds :=
    if Rlt_bool press Pref then Some (0, 11 / 10 * rho0 g, rho0 g, press)
    else match MaxStableDensityAtTemperature temp with
         | None => None
         | Some rho_upper =>
           let pres_max := PressureFromDensityTemperature rho_upper temp in
           let p_used := if Rlt_bool pres_max press then pres_max else press in
           let slope := (rho_upper - rho0 g) / (pres_max - Pref) in
           Some (9 / 10 * rho0 g, rho_upper, rho0 g + slope * (p_used - Pref), p_used)
         end in
  match bounds with
  | None => None
  | Some (lo, hi, guess, p_used) =>
    match @regula_falsi RArith (fun r => PressureFromDensityTemperature r temp) p_used guess lo hi (1 / 100000000) (1 / 100000000) with
    | RFDone SUCCESS (Some rho) _ => Some (rho, InternalEnergyFromDensityTemperature rho temp)
    | _ => None
    end
  end.
(** FillEos, eos_gruneisen.hpp:529-549; [None] = EOS_ERROR / abort *)
Definition FillEos (o : flags) (s : fstate) : option fstate :=
  let after_inputs :=
    if negb (f_temp o) && negb (f_press o) then
      match DensityEnergyFromPressureTemperature (s_press s) (s_temp s) with
      | Some (r, e) => Some (upd_sie (upd_rho s r) e)
      | None => None
      end
    else if f_rho o || f_sie o then None else Some s in
  match after_inputs with
  | None => None
  | Some s =>
    let rho := cap (s_rho s) in
    let s := cond_upd (f_press o) upd_press (fun s => PressureFromDensityInternalEnergy rho (s_sie s)) s in
    let s := cond_upd (f_temp o) upd_temp (fun s => TemperatureFromDensityInternalEnergy rho (s_sie s)) s in
    let s := cond_upd (f_bmod o) upd_bmod (fun s => BulkModulusFromDensityInternalEnergy rho (s_sie s)) s in
    Some (cond_upd (f_cv o) upd_cv (fun s => SpecificHeatFromDensityInternalEnergy rho (s_sie s)) s)
  end.
(** ValuesAtReferenceState, eos_gruneisen.hpp:554-567: rho temp sie press cv bmod dpde dvdt. dpde is written as the quotient [x/0]
    which Coq's total division makes 0; the C++ value is +-infinity or NaN, see C58_gruneisen_reference_dpde_refuted. *)
Definition ValuesAtReferenceState : list R :=
  let rho := rho0 g in let sie := 0 in
  let press := PressureFromDensityInternalEnergy rho sie in
  let cv := SpecificHeatFromDensityInternalEnergy rho sie in
  let bmod := BulkModulusFromDensityInternalEnergy rho sie in
  (rho :: T0 g :: sie :: press :: cv :: bmod :: PressureFromDensityInternalEnergy rho sie / sie ::
   GruneisenParamFromDensityInternalEnergy rho sie * rho * cv / bmod :: nil)%list.
End Queries.
