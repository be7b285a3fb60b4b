(** The FillEos body shared verbatim by NobleAbel (eos_noble_abel.hpp:216-242) and CarnahanStarling (eos_carnahan_starling.hpp:291-319):
    only the called scalar functions and the formula [RP] in the (rho, press) branch differ. [None] = UNDEFINED_ERROR. *)
From Coq Require Import Reals Bool.
From Verif Require Import Thermo_Spec.
Local Open Scope R_scope.
Section Fill.
Variable DE : R -> R -> R * R.   (* DensityEnergyFromPressureTemperature press temp *)
Variable ET : R -> R -> R.       (* InternalEnergyFromDensityTemperature *)
Variable RP : R -> R -> R.       (* sie from (rho, press), written inline in FillEos *)
Variables Pq Tq Bq Cq : R -> R -> R.
Definition fill_std (o : flags) (s : fstate) : option fstate :=
  if f_rho o && f_sie o && (f_press o || f_temp o) then None
  else
    let s := if f_rho o && f_sie o then let (r, e) := DE (s_press s) (s_temp s) in upd_sie (upd_rho s r) e else s in
    if f_press o && f_sie o && (f_rho o || f_temp o) then None
    else
      let s := cond_upd (f_press o && f_sie o) upd_sie (fun s => ET (s_rho s) (s_temp s)) s in
      let s := cond_upd (f_temp o && f_sie o) upd_sie (fun s => RP (s_rho s) (s_press s)) s in
      let s := cond_upd (f_press o) upd_press (fun s => Pq (s_rho s) (s_sie s)) s in
      let s := cond_upd (f_temp o) upd_temp (fun s => Tq (s_rho s) (s_sie s)) s in
      let s := cond_upd (f_bmod o) upd_bmod (fun s => Bq (s_rho s) (s_sie s)) s in
      Some (cond_upd (f_cv o) upd_cv (fun s => Cq (s_rho s) (s_sie s)) s).
End Fill.
