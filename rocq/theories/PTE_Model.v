(** Model of the five PTE systems of closure/mixed_cell_models.hpp over the exact reals (robust::ratio as in
    Robust_Model). Arrays are functions [nat -> R]; loops over materials only touch indices below [n].
    PORTABLE_REQUIRE (active only in debug builds) and the lambda indexer are not modelled. *)
From Coq Require Import ZArith Reals Bool List Lia.
From Flocq Require Import Core.
From Verif Require Import Arith Robust_Model PTE_Driver_Model.
Import ListNotations.
Local Open Scope R_scope.

(** The part of the EOS interface the closure uses (eos_variant.hpp): one record per material *)
Record meos := mkMeos {
  RhoPmin : R -> R;
  MaximumDensity : R;
  MinimumTemperature : R;
  MinimumPressure : R;
  MaximumPressureAtTemperature : R -> R;
  e_rt : R -> R -> R;          (* InternalEnergyFromDensityTemperature *)
  p_rt : R -> R -> R;          (* PressureFromDensityTemperature *)
  p_re : R -> R -> R;          (* PressureFromDensityInternalEnergy *)
  t_re : R -> R -> R;          (* TemperatureFromDensityInternalEnergy *)
  cv_rt : R -> R -> R;
  cv_re : R -> R -> R;
  de_pt : R -> R -> R -> R -> R * R; (* DensityEnergyFromPressureTemperature P T (rho, sie guess) -> (rho, sie) *)
  pref_e : bool;               (* PreferredInput() & specific_internal_energy *)
  pref_p : bool                (* PreferredInput() & pressure *)
}.

(** ** Loops and arrays *)
(** for (m = 0; m < n; ++m) acc += f(m), starting from 0 *)
Fixpoint rsum (n : nat) (f : nat -> R) : R := match n with O => 0 | S k => rsum k f + f k end.
(** for (m = 0; m < n; ++m) a[m] = f(m) *)
Definition map_n (n : nat) (f old : nat -> R) : nat -> R := fun m => if (m <? n)%nat then f m else old m.
(** a[i] = x *)
Definition upd (a : nat -> R) (i : nat) (x : R) : nat -> R := fun k => if (k =? i)%nat then x else a k.

(** mixed_cell_models.hpp:287-305 sum_neumaier: [i] counts up, [fuel] = n - i; [iskip = None] for a negative iskip *)
Fixpoint neum_loop (fuel i offset : nat) (iskip : option nat) (op : R -> R) (data : nat -> R) (sum c : R) : R :=
  match fuel with
  | O => sum + c
  | S f =>
    if match iskip with Some k => (i =? k)%nat | None => false end
    then neum_loop f (S i) offset iskip op data sum c
    else
      let x := op (data (i + offset)%nat) in
      let t := sum + x in
      let c := if Rle_bool (Rabs x) (Rabs sum) then c + ((sum - t) + x) else c + ((x - t) + sum) in
      neum_loop f (S i) offset iskip op data t c
  end.
Definition sum_neumaier (data : nat -> R) (n offset : nat) (iskip : option nat) (op : R -> R) : R :=
  neum_loop n 0 offset iskip op data 0 0.
Definition idop (x : R) : R := x.
Definition sqop (x : R) : R := x * x.

(** mixed_cell_models.hpp:91-116 EnforceMassVolumesSum: returns (rho, vfracs) *)
Definition argmax (n : nat) (f : nat -> R) (start : R) : nat * R :=
  fold_left (fun '(im, fm) m => if Rlt_bool fm (f m) then (m, f m) else (im, fm)) (seq 0 n) (0%nat, start).
Definition EnforceMassVolumesSum (n : nat) (tot_vol : R) (rho vfracs : nat -> R) : (nat -> R) * (nat -> R) :=
  let imax := fst (argmax n vfracs (- (1))) in
  let vfrac_new := fold_left (fun acc m => if (m =? imax)%nat then acc else acc - vfracs m) (seq 0 n) tot_vol in
  (upd rho imax (rho imax * ratio (vfracs imax) vfrac_new), upd vfracs imax vfrac_new).
(** mixed_cell_models.hpp:118-149 EnforceEnergiesSum: returns sies *)
Definition EnforceEnergiesSum (n : nat) (tot_rho tot_sie : R) (rhos vfracs sies : nat -> R) : nat -> R :=
  let tot_u := tot_sie * tot_rho in
  let imax := fst (argmax n (fun m => Rabs (rhos m * vfracs m * sies m)) 0) in
  let unew := fold_left (fun acc m => if (m =? imax)%nat then acc else acc - rhos m * vfracs m * sies m) (seq 0 n) tot_u in
  upd sies imax (ratio unew (rhos imax * vfracs imax)).

(** mixed_cell_models.hpp:176-278 solve_Ax_b_wscr: row scaling, then n = 1 and n = 2 explicitly; for n >= 3 the library
    QR solver is the parameter [lin] applied to the scaled system. Returns (x, success). check_nans is always true over
    the reals. When a row is zero the function returns false and b is left partially scaled; the model leaves b alone
    (dx is not read again after a failure). *)
Definition rowmax (n : nat) (a : nat -> R) (row : nat) : R :=
  fold_left (fun mx c => Rmax (Rabs (a (row * n + c)%nat)) mx) (seq 0 n) 0.
Definition solve_Ax_b (lin : nat -> (nat -> R) -> (nat -> R) -> (nat -> R)) (n : nat) (a b : nat -> R) : (nat -> R) * bool :=
  if existsb (fun row => Req_bool (rowmax n a row) 0) (seq 0 n) then (b, false)
  else
    let a' := map_n (n * n) (fun k => a k / rowmax n a (k / n)) a in
    let b' := map_n n (fun row => b row / rowmax n a row) b in
    if (n =? 1)%nat then (upd b' 0 (ratio (b' 0%nat) (a' 0%nat)), true)
    else if (n =? 2)%nat then
      let det := a' 0%nat * a' 3%nat - a' 1%nat * a' 2%nat in
      let x0 := ratio (a' 3%nat * b' 0%nat - a' 1%nat * b' 1%nat) det in
      let x1 := ratio (a' 0%nat * b' 1%nat - a' 2%nat * b' 0%nat) det in
      (upd (upd b' 0 x0) 1 x1, true)
    else (map_n n (lin n a' b') b', true).

(** ** State: the user's arrays (rho vfrac sie temp press), the solver's arrays and scalars. The arrays live in
    disjoint memory (C33), so each is a separate component.
    mixed_cell_models.hpp:772-786 (base), 1189-1193 (RhoT), 1437-1447 (PT), 1666-1669 (FixedT), 1916-1919 (FixedP),
    2181-2183 (RhoU) *)
Record pst := mkPst {
  rho : nat -> R;
  vfrac : nat -> R;
  sie : nat -> R;
  temp : nat -> R;
  press : nat -> R;
  u : nat -> R;
  rhobar : nat -> R;
  dx : nat -> R;
  res : nat -> R;
  jac : nat -> R;
  dpdv : nat -> R;
  dedv : nat -> R;
  dpdT : nat -> R;
  dtdv : nat -> R;
  dpde : nat -> R;
  dtde : nat -> R;
  vtmp : nat -> R;
  utmp : nat -> R;
  Teq : R;
  Ttmp : R;
  Peq : R;
  Ptmp : R;
  Tnorm : R;
  uscale : R;
  utot : R;
  rhotot : R;
  ms : nat
}.
(** record update functions *)
Definition set_rho (x : nat -> R) (s : pst) : pst := mkPst x (vfrac s) (sie s) (temp s) (press s) (u s) (rhobar s) (dx s) (res s) (jac s) (dpdv s) (dedv s) (dpdT s) (dtdv s) (dpde s) (dtde s) (vtmp s) (utmp s) (Teq s) (Ttmp s) (Peq s) (Ptmp s) (Tnorm s) (uscale s) (utot s) (rhotot s) (ms s).
Definition set_vfrac (x : nat -> R) (s : pst) : pst := mkPst (rho s) x (sie s) (temp s) (press s) (u s) (rhobar s) (dx s) (res s) (jac s) (dpdv s) (dedv s) (dpdT s) (dtdv s) (dpde s) (dtde s) (vtmp s) (utmp s) (Teq s) (Ttmp s) (Peq s) (Ptmp s) (Tnorm s) (uscale s) (utot s) (rhotot s) (ms s).
Definition set_sie (x : nat -> R) (s : pst) : pst := mkPst (rho s) (vfrac s) x (temp s) (press s) (u s) (rhobar s) (dx s) (res s) (jac s) (dpdv s) (dedv s) (dpdT s) (dtdv s) (dpde s) (dtde s) (vtmp s) (utmp s) (Teq s) (Ttmp s) (Peq s) (Ptmp s) (Tnorm s) (uscale s) (utot s) (rhotot s) (ms s).
Definition set_temp (x : nat -> R) (s : pst) : pst := mkPst (rho s) (vfrac s) (sie s) x (press s) (u s) (rhobar s) (dx s) (res s) (jac s) (dpdv s) (dedv s) (dpdT s) (dtdv s) (dpde s) (dtde s) (vtmp s) (utmp s) (Teq s) (Ttmp s) (Peq s) (Ptmp s) (Tnorm s) (uscale s) (utot s) (rhotot s) (ms s).
Definition set_press (x : nat -> R) (s : pst) : pst := mkPst (rho s) (vfrac s) (sie s) (temp s) x (u s) (rhobar s) (dx s) (res s) (jac s) (dpdv s) (dedv s) (dpdT s) (dtdv s) (dpde s) (dtde s) (vtmp s) (utmp s) (Teq s) (Ttmp s) (Peq s) (Ptmp s) (Tnorm s) (uscale s) (utot s) (rhotot s) (ms s).
Definition set_u (x : nat -> R) (s : pst) : pst := mkPst (rho s) (vfrac s) (sie s) (temp s) (press s) x (rhobar s) (dx s) (res s) (jac s) (dpdv s) (dedv s) (dpdT s) (dtdv s) (dpde s) (dtde s) (vtmp s) (utmp s) (Teq s) (Ttmp s) (Peq s) (Ptmp s) (Tnorm s) (uscale s) (utot s) (rhotot s) (ms s).
Definition set_rhobar (x : nat -> R) (s : pst) : pst := mkPst (rho s) (vfrac s) (sie s) (temp s) (press s) (u s) x (dx s) (res s) (jac s) (dpdv s) (dedv s) (dpdT s) (dtdv s) (dpde s) (dtde s) (vtmp s) (utmp s) (Teq s) (Ttmp s) (Peq s) (Ptmp s) (Tnorm s) (uscale s) (utot s) (rhotot s) (ms s).
Definition set_dx (x : nat -> R) (s : pst) : pst := mkPst (rho s) (vfrac s) (sie s) (temp s) (press s) (u s) (rhobar s) x (res s) (jac s) (dpdv s) (dedv s) (dpdT s) (dtdv s) (dpde s) (dtde s) (vtmp s) (utmp s) (Teq s) (Ttmp s) (Peq s) (Ptmp s) (Tnorm s) (uscale s) (utot s) (rhotot s) (ms s).
Definition set_res (x : nat -> R) (s : pst) : pst := mkPst (rho s) (vfrac s) (sie s) (temp s) (press s) (u s) (rhobar s) (dx s) x (jac s) (dpdv s) (dedv s) (dpdT s) (dtdv s) (dpde s) (dtde s) (vtmp s) (utmp s) (Teq s) (Ttmp s) (Peq s) (Ptmp s) (Tnorm s) (uscale s) (utot s) (rhotot s) (ms s).
Definition set_jac (x : nat -> R) (s : pst) : pst := mkPst (rho s) (vfrac s) (sie s) (temp s) (press s) (u s) (rhobar s) (dx s) (res s) x (dpdv s) (dedv s) (dpdT s) (dtdv s) (dpde s) (dtde s) (vtmp s) (utmp s) (Teq s) (Ttmp s) (Peq s) (Ptmp s) (Tnorm s) (uscale s) (utot s) (rhotot s) (ms s).
Definition set_dpdv (x : nat -> R) (s : pst) : pst := mkPst (rho s) (vfrac s) (sie s) (temp s) (press s) (u s) (rhobar s) (dx s) (res s) (jac s) x (dedv s) (dpdT s) (dtdv s) (dpde s) (dtde s) (vtmp s) (utmp s) (Teq s) (Ttmp s) (Peq s) (Ptmp s) (Tnorm s) (uscale s) (utot s) (rhotot s) (ms s).
Definition set_dedv (x : nat -> R) (s : pst) : pst := mkPst (rho s) (vfrac s) (sie s) (temp s) (press s) (u s) (rhobar s) (dx s) (res s) (jac s) (dpdv s) x (dpdT s) (dtdv s) (dpde s) (dtde s) (vtmp s) (utmp s) (Teq s) (Ttmp s) (Peq s) (Ptmp s) (Tnorm s) (uscale s) (utot s) (rhotot s) (ms s).
Definition set_dpdT (x : nat -> R) (s : pst) : pst := mkPst (rho s) (vfrac s) (sie s) (temp s) (press s) (u s) (rhobar s) (dx s) (res s) (jac s) (dpdv s) (dedv s) x (dtdv s) (dpde s) (dtde s) (vtmp s) (utmp s) (Teq s) (Ttmp s) (Peq s) (Ptmp s) (Tnorm s) (uscale s) (utot s) (rhotot s) (ms s).
Definition set_dtdv (x : nat -> R) (s : pst) : pst := mkPst (rho s) (vfrac s) (sie s) (temp s) (press s) (u s) (rhobar s) (dx s) (res s) (jac s) (dpdv s) (dedv s) (dpdT s) x (dpde s) (dtde s) (vtmp s) (utmp s) (Teq s) (Ttmp s) (Peq s) (Ptmp s) (Tnorm s) (uscale s) (utot s) (rhotot s) (ms s).
Definition set_dpde (x : nat -> R) (s : pst) : pst := mkPst (rho s) (vfrac s) (sie s) (temp s) (press s) (u s) (rhobar s) (dx s) (res s) (jac s) (dpdv s) (dedv s) (dpdT s) (dtdv s) x (dtde s) (vtmp s) (utmp s) (Teq s) (Ttmp s) (Peq s) (Ptmp s) (Tnorm s) (uscale s) (utot s) (rhotot s) (ms s).
Definition set_dtde (x : nat -> R) (s : pst) : pst := mkPst (rho s) (vfrac s) (sie s) (temp s) (press s) (u s) (rhobar s) (dx s) (res s) (jac s) (dpdv s) (dedv s) (dpdT s) (dtdv s) (dpde s) x (vtmp s) (utmp s) (Teq s) (Ttmp s) (Peq s) (Ptmp s) (Tnorm s) (uscale s) (utot s) (rhotot s) (ms s).
Definition set_vtmp (x : nat -> R) (s : pst) : pst := mkPst (rho s) (vfrac s) (sie s) (temp s) (press s) (u s) (rhobar s) (dx s) (res s) (jac s) (dpdv s) (dedv s) (dpdT s) (dtdv s) (dpde s) (dtde s) x (utmp s) (Teq s) (Ttmp s) (Peq s) (Ptmp s) (Tnorm s) (uscale s) (utot s) (rhotot s) (ms s).
Definition set_utmp (x : nat -> R) (s : pst) : pst := mkPst (rho s) (vfrac s) (sie s) (temp s) (press s) (u s) (rhobar s) (dx s) (res s) (jac s) (dpdv s) (dedv s) (dpdT s) (dtdv s) (dpde s) (dtde s) (vtmp s) x (Teq s) (Ttmp s) (Peq s) (Ptmp s) (Tnorm s) (uscale s) (utot s) (rhotot s) (ms s).
Definition set_Teq (x : R) (s : pst) : pst := mkPst (rho s) (vfrac s) (sie s) (temp s) (press s) (u s) (rhobar s) (dx s) (res s) (jac s) (dpdv s) (dedv s) (dpdT s) (dtdv s) (dpde s) (dtde s) (vtmp s) (utmp s) x (Ttmp s) (Peq s) (Ptmp s) (Tnorm s) (uscale s) (utot s) (rhotot s) (ms s).
Definition set_Ttmp (x : R) (s : pst) : pst := mkPst (rho s) (vfrac s) (sie s) (temp s) (press s) (u s) (rhobar s) (dx s) (res s) (jac s) (dpdv s) (dedv s) (dpdT s) (dtdv s) (dpde s) (dtde s) (vtmp s) (utmp s) (Teq s) x (Peq s) (Ptmp s) (Tnorm s) (uscale s) (utot s) (rhotot s) (ms s).
Definition set_Peq (x : R) (s : pst) : pst := mkPst (rho s) (vfrac s) (sie s) (temp s) (press s) (u s) (rhobar s) (dx s) (res s) (jac s) (dpdv s) (dedv s) (dpdT s) (dtdv s) (dpde s) (dtde s) (vtmp s) (utmp s) (Teq s) (Ttmp s) x (Ptmp s) (Tnorm s) (uscale s) (utot s) (rhotot s) (ms s).
Definition set_Ptmp (x : R) (s : pst) : pst := mkPst (rho s) (vfrac s) (sie s) (temp s) (press s) (u s) (rhobar s) (dx s) (res s) (jac s) (dpdv s) (dedv s) (dpdT s) (dtdv s) (dpde s) (dtde s) (vtmp s) (utmp s) (Teq s) (Ttmp s) (Peq s) x (Tnorm s) (uscale s) (utot s) (rhotot s) (ms s).
Definition set_Tnorm (x : R) (s : pst) : pst := mkPst (rho s) (vfrac s) (sie s) (temp s) (press s) (u s) (rhobar s) (dx s) (res s) (jac s) (dpdv s) (dedv s) (dpdT s) (dtdv s) (dpde s) (dtde s) (vtmp s) (utmp s) (Teq s) (Ttmp s) (Peq s) (Ptmp s) x (uscale s) (utot s) (rhotot s) (ms s).
Definition set_uscale (x : R) (s : pst) : pst := mkPst (rho s) (vfrac s) (sie s) (temp s) (press s) (u s) (rhobar s) (dx s) (res s) (jac s) (dpdv s) (dedv s) (dpdT s) (dtdv s) (dpde s) (dtde s) (vtmp s) (utmp s) (Teq s) (Ttmp s) (Peq s) (Ptmp s) (Tnorm s) x (utot s) (rhotot s) (ms s).
Definition set_utot (x : R) (s : pst) : pst := mkPst (rho s) (vfrac s) (sie s) (temp s) (press s) (u s) (rhobar s) (dx s) (res s) (jac s) (dpdv s) (dedv s) (dpdT s) (dtdv s) (dpde s) (dtde s) (vtmp s) (utmp s) (Teq s) (Ttmp s) (Peq s) (Ptmp s) (Tnorm s) (uscale s) x (rhotot s) (ms s).
Definition set_rhotot (x : R) (s : pst) : pst := mkPst (rho s) (vfrac s) (sie s) (temp s) (press s) (u s) (rhobar s) (dx s) (res s) (jac s) (dpdv s) (dedv s) (dpdT s) (dtdv s) (dpde s) (dtde s) (vtmp s) (utmp s) (Teq s) (Ttmp s) (Peq s) (Ptmp s) (Tnorm s) (uscale s) (utot s) x (ms s).
Definition set_ms (x : nat) (s : pst) : pst := mkPst (rho s) (vfrac s) (sie s) (temp s) (press s) (u s) (rhobar s) (dx s) (res s) (jac s) (dpdv s) (dedv s) (dpdT s) (dtdv s) (dpde s) (dtde s) (vtmp s) (utmp s) (Teq s) (Ttmp s) (Peq s) (Ptmp s) (Tnorm s) (uscale s) (utot s) (rhotot s) x.

Section Solvers.
Variable n : nat.                       (* nmat *)
Variable eos : nat -> meos.
Variable vfrac_total sie_total : R.
Variable params : MixParams RArith.
Variable lin : nat -> (nat -> R) -> (nat -> R) -> (nat -> R).

Definition mapm (f old : nat -> R) : nat -> R := map_n n f old.

(** ** PTESolverBase *)
(** mixed_cell_models.hpp:350-357 Finalize *)
Definition base_Finalize (s : pst) : pst :=
  set_press (mapm (fun m => press s m * uscale s) (press s))
  (set_u (mapm (fun m => u s m * uscale s) (u s))
  (set_temp (mapm (fun m => temp s m * Tnorm s) (temp s)) s)).
(** mixed_cell_models.hpp:359-364 Solve *)
Definition Solve (neq : nat) (s : pst) : pst * bool :=
  let b := map_n neq (res s) (dx s) in
  let '(x, ok) := solve_Ax_b lin neq (jac s) b in
  (set_dx x s, ok).
(** mixed_cell_models.hpp:388-399 InitRhoBarandRho *)
Definition InitRhoBarandRho (s : pst) : pst :=
  let rb := mapm (fun m => rho s m * vfrac s m) (rhobar s) in
  set_rhotot (sum_neumaier rb n 0 None idop) (set_rhobar rb s).
(** mixed_cell_models.hpp:401-407 NormalizeVfrac, on the volume-fraction array *)
Definition NormalizeVfrac (vf : nat -> R) : nat -> R :=
  let vsum := sum_neumaier vf n 0 None idop in
  mapm (fun m => vf m * ratio vfrac_total vsum) vf.
(** mixed_cell_models.hpp:424-498 SetVfracFromT; returns (vfrac, FAIL?) *)
Definition min_dv : R := 1 / 1000000000000.
Definition safety : R := 9 / 10.
Definition vfrac_max (T : R) (rb : nat -> R) (m : nat) : R := Rmin (safety * ratio (rb m) (RhoPmin (eos m) T)) 1.
Definition sweep_dv (vmax vf : nat -> R) (m : nat) : R := vf m - Rmin (vmax m) (vf m).
Definition n_capped (vmax vf : nat -> R) : nat :=
  length (filter (fun m => Rlt_bool min_dv (sweep_dv vmax vf m)) (seq 0 n)).
Fixpoint sweeps (fuel : nat) (vmax vf : nat -> R) : nat -> R :=
  match fuel with
  | O => vf
  | S f =>
    let vf1 := mapm (fun m => vf m - sweep_dv vmax vf m) vf in
    let remaining := rsum n (sweep_dv vmax vf) in
    if Rlt_bool (Rabs remaining) min_dv then vf1
    else
      let share := ratio remaining (INR (n - n_capped vmax vf)) in
      sweeps f vmax (mapm (fun m => if Rlt_bool min_dv (vmax m - vf1 m) then vf1 m + share else vf1 m) vf1)
  end.
Definition SetVfracFromT (T : R) (rb vf : nat -> R) : (nat -> R) * bool :=
  let vmax := vfrac_max T rb in
  let vf0 := mapm (fun m => if Rle_bool (vf m) 0 then vmax m else vf m) vf in
  if Rlt_bool (rsum n vmax) vfrac_total then (vf0, true)
  else (NormalizeVfrac (sweeps n vmax (NormalizeVfrac vf0)), false).
(** mixed_cell_models.hpp:584-597 GetPressureFromPreferred *)
Definition GetPressureFromPreferred (e : meos) (r T si : R) (do_e_lookup : bool) : R :=
  if pref_e e then p_re e r (if do_e_lookup then e_rt e r T else si) else p_rt e r T.
(** mixed_cell_models.hpp:601-620 GetSieCvFromTAndPreferred; the incoming [sie] is uninitialised in the caller, which
    only matters as the guess handed to DensityEnergyFromPressureTemperature (0 here) *)
Definition GetSieCvFromTAndPreferred (e : meos) (r P T : R) : R * R :=
  if pref_p e then
    let Pmin := MinimumPressure e in
    let Pmax := MaximumPressureAtTemperature e T in
    let Pguess := if bad_value P then 1 / 2 * (Pmin + Pmax) else Rmax Pmin (Rmin Pmax P) in
    let '(r', si) := de_pt e Pguess T r 0 in
    (si, cv_re e r' si)
  else (e_rt e r T, cv_rt e r T).
(** mixed_cell_models.hpp:501-581 GetTguess; returns (state, Tguess). [newton_T] is the lambda newton_step *)
Definition newton_T (s : pst) (T : R) : R :=
  let sc m := GetSieCvFromTAndPreferred (eos m) (Rmin (rho s m) (MaximumDensity (eos m))) (press s m) T in
  let usum := rsum n (fun m => rhobar s m * fst (sc m)) in
  let dudt := rsum n (fun m => rhobar s m * snd (sc m)) in
  T - ratio (usum - utot s * uscale s) dudt.
Fixpoint tguess_loop (fuel : nat) (s : pst) (Tg : R) : pst * R :=
  match fuel with
  | O => (s, Tg)
  | S f =>
    let Tg := if iterate_t_guess params then Rmin (temperature_limit params) (Rmax Tg (newton_T s Tg)) else Tg in
    let Tg := fold_left (fun t m => Rmax (MinimumTemperature (eos m)) t) (seq 0 n) Tg in
    let '(vf, bad) := SetVfracFromT Tg (rhobar s) (vfrac s) in
    let s := set_vfrac vf s in
    if bad then tguess_loop f s (Tg * 10)
    else
      let s := set_rho (mapm (fun m => ratio (rhobar s m) (vfrac s m)) (rho s)) s in
      if existsb (fun m => Rlt_bool (rho s m) (RhoPmin (eos m) Tg)) (seq 0 n)
      then tguess_loop f s (Tg * 10)
      else (s, Tg)
  end.
Definition GetTguess (s : pst) : pst * R :=
  let Tg := if Rlt_bool 0 (Tnorm s) then Tnorm s
            else fold_left (fun t m => Rmax t (temp s m)) (seq 0 n) (default_tguess params) in
  tguess_loop 3 s Tg.
(** mixed_cell_models.hpp:627-662 InitBase *)
Definition InitBase (s : pst) : pst :=
  let s := InitRhoBarandRho s in
  let utotal := rhotot s * sie_total in
  let s := set_uscale (Rmax (Rabs utotal) (1 / 100000000000000)) s in
  let s := set_utot (ratio utotal (uscale s)) s in
  let '(s, Tg) := GetTguess s in
  let s := set_Tnorm Tg s in
  let s := set_temp (mapm (fun _ => 1) (temp s)) s in
  let s := set_sie (mapm (fun m => e_rt (eos m) (rho s m) Tg) (sie s)) s in
  let s := set_press (mapm (fun m =>
      if pref_p (eos m) && negb (bad_value (press s m)) then ratio (press s m) (uscale s)
      else ratio (GetPressureFromPreferred (eos m) (rho s m) Tg (sie s m) false) (uscale s)) (press s)) s in
  set_u (mapm (fun m => sie s m * ratio (rhobar s m) (uscale s)) (u s)) s.
(** mixed_cell_models.hpp:664-667 ResidualNorm *)
Definition ResidualNorm (neq : nat) (s : pst) : R := 1 / 2 * sum_neumaier (res s) neq 0 None sqop.
(** mixed_cell_models.hpp:674-688 GetIdealPTE: (Pideal, Tideal) *)
Definition GetIdealPTE (s : pst) : R * R :=
  let Asum := rsum n (fun m => vfrac s m * ratio (press s m) (temp s m)) in
  let rhoBsum := rsum n (fun m => rho s m * vfrac s m * ratio (sie s m) (temp s m)) in
  let Asum := Asum * (uscale s / Tnorm s) in
  let rhoBsum := rhoBsum / Tnorm s in
  let Tideal := uscale s / rhoBsum / Tnorm s in
  (ratio (Tnorm s * Tideal * Asum) (uscale s * vfrac_total), Tideal).
(** mixed_cell_models.hpp:690-763 TryIdealPTE; [resid] is the solver's Residual(). The saved copies live in the
    jacobian (C33_ideal_guess_fits), which is rebuilt before it is read. *)
Definition TryIdealPTE (neq : nat) (resid : pst -> pst) (s : pst) : pst :=
  let '(Pideal, Tideal) := GetIdealPTE s in
  let res_norm_old := rsum neq (fun m => res s m * res s m) in
  let alpha := ratio Pideal Tideal in
  let vnew m := vfrac s m * ratio (press s m) (temp s m * alpha) in
  if existsb (fun m => Rlt_bool (Tnorm s * Tideal) 0
                       || Rlt_bool (ratio (rhobar s m) (vnew m)) (RhoPmin (eos m) (Tnorm s * Tideal))) (seq 0 n)
  then s
  else
    let s1 := set_vfrac (mapm vnew (vfrac s)) s in
    let s1 := set_rho (mapm (fun m => ratio (rhobar s1 m) (vfrac s1 m)) (rho s1)) s1 in
    let sm m := e_rt (eos m) (rho s1 m) (Tnorm s1 * Tideal) in
    let s1 := set_u (mapm (fun m => rhobar s1 m * ratio (sm m) (uscale s1)) (u s1)) s1 in
    let s1 := set_press (mapm (fun m => ratio (GetPressureFromPreferred (eos m) (rho s1 m) (Tnorm s1 * Tideal) (sm m) false) (uscale s1)) (press s1)) s1 in
    let s1 := resid s1 in
    let res_norm_new := rsum neq (fun m => res s1 m * res s1 m) in
    if Rlt_bool res_norm_old res_norm_new then s
    else
      let s1 := set_temp (mapm (fun _ => Tideal) (temp s1)) s1 in
      set_sie (mapm (fun m => uscale s1 * ratio (u s1 m) (rhobar s1 m)) (sie s1)) s1.

Definition MatIndex (neq i j : nat) : nat := (i * neq + j)%nat. (* mixed_cell_models.hpp:669-672 *)

(** ** PTESolverRhoT: neq = nmat *)
Definition rt_neq : nat := n.
(** mixed_cell_models.hpp:1010-1019 Residual *)
Definition rt_Residual (s : pst) : pst :=
  let esum := sum_neumaier (u s) n 0 None idop in
  let r0 := upd (res s) 0 (utot s - esum) in
  set_res (fst (fold_left (fun '(r, ires) m => if (m =? ms s)%nat then (r, ires)
                                              else (upd r ires (press s (ms s) - press s m), S ires)) (seq 0 n) (r0, 1%nat))) s.
(** mixed_cell_models.hpp:947-984 Init *)
Definition rt_Init (s : pst) : pst * R :=
  let s := InitBase s in
  let s := set_ms (match pte_reduced_system_exclude_idx params with
                   | Some k => k
                   | None => fst (argmax n (fun m => ratio (rhobar s m) (rhotot s)) 0)
                   end) s in
  let s := rt_Residual s in
  let s := set_Teq (temp s 0%nat) s in
  (s, ResidualNorm rt_neq s).
(** mixed_cell_models.hpp:986-1008 Fixup *)
Definition rt_Fixup (s : pst) : pst :=
  match pte_reduced_system_exclude_idx params with
  | Some _ => s
  | None => rt_Residual (set_ms (fst (argmax n (vfrac s) 0)) s)
  end.
(** mixed_cell_models.hpp:1021-1040 CheckPTE *)
Definition rt_CheckPTE (s : pst) : bool * bool :=
  let mean_p := rsum n (fun m => vfrac s m * press s m) in
  let error_p := sqrt (sum_neumaier (res s) (rt_neq - 1) 1 None sqop) in
  let error_u := Rabs (res s 0%nat) in
  ((Rlt_bool error_p (pte_rel_tolerance_p params * Rabs mean_p) || Rlt_bool error_p (pte_abs_tolerance_p params))
     && Rlt_bool error_u (pte_rel_tolerance_e params),
   (Rlt_bool error_p (pte_rel_tolerance_p_sufficient params * Rabs mean_p) || Rlt_bool error_p (pte_abs_tolerance_p_sufficient params))
     && Rlt_bool error_u (pte_rel_tolerance_e_sufficient params)).
(** the volume-fraction perturbation shared by the Jacobians (mixed_cell_models.hpp:1049-1051, 1589-1591, 1815-1817,
    2056-2058) *)
Definition jac_dv (s : pst) (m : nat) : R := (if Rlt_bool (vfrac s m) (1 / 2) then 1 else - (1)) * vfrac s m * derivative_eps params.
Definition jac_rho (s : pst) (m : nat) : R := ratio (rhobar s m) (vfrac s m + jac_dv s m).
(** mixed_cell_models.hpp:1042-1105 Jacobian *)
Definition rt_Jacobian (s : pst) : pst :=
  let e1 m := e_rt (eos m) (jac_rho s m) (Tnorm s * Teq s) in
  let p1 m := ratio (GetPressureFromPreferred (eos m) (jac_rho s m) (Tnorm s * Teq s) (e1 m) false) (uscale s) in
  let dT := Teq s * derivative_eps params in
  let e2 m := e_rt (eos m) (rho s m) (Tnorm s * (Teq s + dT)) in
  let p2 m := ratio (GetPressureFromPreferred (eos m) (rho s m) (Tnorm s * (Teq s + dT)) (e2 m) false) (uscale s) in
  let s := set_dpdv (mapm (fun m => Rmin (ratio (p1 m - press s m) (jac_dv s m)) (- Rabs (pte_max_dpdv params))) (dpdv s)) s in
  let s := set_dedv (mapm (fun m => ratio (rhobar s m * ratio (e1 m) (uscale s) - u s m) (jac_dv s m)) (dedv s)) s in
  let s := set_dpdT (mapm (fun m => ratio (p2 m - press s m) dT) (dpdT s)) s in
  let dedT_sum := rsum n (fun m => ratio (rhobar s m * ratio (e2 m) (uscale s) - u s m) dT) in
  let j := map_n (rt_neq * rt_neq) (fun _ => 0) (jac s) in
  let j := upd j 0 dedT_sum in
  let j := fst (fold_left (fun '(a, col) m => if (m =? ms s)%nat then (a, col)
                                            else (upd a col (dedv s m - dedv s (ms s)), S col)) (seq 0 n) (j, 1%nat)) in
  let j := fst (fold_left (fun '(a, row) m =>
      if (m =? ms s)%nat then (a, row)
      else
        let a := upd a (MatIndex rt_neq row 0) (dpdT s m - dpdT s (ms s)) in
        let a := fst (fold_left (fun '(a, col) mm => if (mm =? ms s)%nat then (a, col)
                   else (upd a (MatIndex rt_neq row col) (if (mm =? m)%nat then dpdv s m + dpdv s (ms s) else dpdv s (ms s)), S col))
                   (seq 0 n) (a, 1%nat)) in
        (a, S row)) (seq 0 n) (j, 1%nat)) in
  set_jac j s.
(** mixed_cell_models.hpp:1107-1151 ScaleDx. First loop: (scale, idx); second loop: note the [continue] before idx++ *)
Definition rt_scale1 (s : pst) (dalphaskip : R) : R * nat :=
  fold_left (fun '(scale, idx) m =>
     let '(mydx, idx) := if (m =? ms s)%nat then (dalphaskip, idx) else (dx s idx, S idx) in
     (if Rlt_bool (scale * mydx) (- vfrac_safety_fac params * vfrac s m)
      then Rmin scale (Rabs (vfrac_safety_fac params * ratio (vfrac s m) mydx)) else scale, idx)) (seq 0 n) (1, 1%nat).
Definition rt_alpha_max (s : pst) (Tnew : R) (m : nat) : R :=
  let rho_min := Rmax (RhoPmin (eos m) (Tnorm s * Teq s)) (RhoPmin (eos m) (Tnorm s * Tnew)) in
  Rmin 1 (ratio (rhobar s m) rho_min).
Definition rt_scale2 (s : pst) (dalphaskip Tnew scale : R) : R * nat :=
  fold_left (fun '(scale, idx) m =>
     let alpha_max := rt_alpha_max s Tnew m in
     if Rlt_bool alpha_max (vfrac s m) then (scale, idx)
     else
       let '(mydx, idx) := if (m =? ms s)%nat then (dalphaskip, idx) else (dx s idx, S idx) in
       (if Rlt_bool (1 / 2 * (alpha_max - vfrac s m)) (scale * mydx)
        then Rmin (ratio (1 / 2 * (alpha_max - vfrac s m)) mydx) scale else scale, idx)) (seq 0 n) (scale, 1%nat).
Definition rt_ScaleDx (s : pst) : pst * R :=
  let dalphaskip := - sum_neumaier (dx s) (n - 1) 1 None idop in
  let scale := fst (rt_scale1 s dalphaskip) in
  let Tnew := Teq s + scale * dx s 0%nat in
  let scale := fst (rt_scale2 s dalphaskip Tnew scale) in
  let scale := if Rlt_bool (scale * dx s 0%nat) (- (95 / 100) * Teq s)
               then Rmin scale (ratio (- (95 / 100) * Teq s) (dx s 0%nat)) else scale in
  (set_dx (map_n rt_neq (fun i => dx s i * scale) (dx s)) s, scale).
(** mixed_cell_models.hpp:1153-1187 TestUpdate *)
Definition rt_TestUpdate (scale : R) (cache_state : bool) (s : pst) : pst * R :=
  let s := if cache_state then set_vtmp (mapm (vfrac s) (vtmp s)) (set_Ttmp (Teq s) s) else s in
  let s := set_Teq (Ttmp s + scale * dx s 0%nat) s in
  let vf := fst (fold_left (fun '(v, idx) m => if (m =? ms s)%nat then (v, idx)
                                               else (upd v m (vtmp s m + scale * dx s idx), S idx)) (seq 0 n) (vfrac s, 1%nat)) in
  let vs := 1 - sum_neumaier vf n 0 (Some (ms s)) idop in
  let s := set_vfrac (upd vf (ms s) vs) s in
  let s := set_rho (mapm (fun m => ratio (rhobar s m) (vfrac s m)) (rho s)) s in
  let um m := rhobar s m * e_rt (eos m) (rho s m) (Tnorm s * Teq s) in
  let s := set_sie (mapm (fun m => ratio (um m) (rhobar s m)) (sie s)) s in
  let s := set_u (mapm (fun m => ratio (um m) (uscale s)) (u s)) s in
  let s := set_temp (mapm (fun _ => Teq s) (temp s)) s in
  let s := set_press (mapm (fun m => ratio (GetPressureFromPreferred (eos m) (rho s m) (Tnorm s * Teq s) (sie s m) false) (uscale s)) (press s)) s in
  let s := rt_Residual s in
  (s, ResidualNorm rt_neq s).
Definition RhoT_system : System RArith pst :=
  mkSystem RArith pst n params rt_Init rt_CheckPTE rt_Jacobian (Solve rt_neq) rt_ScaleDx rt_TestUpdate rt_Fixup base_Finalize.

(** ** PTESolverPT: neq = 2 *)
(** mixed_cell_models.hpp:1314-1320 Residual *)
Definition pt_Residual (s : pst) : pst :=
  let vsum := sum_neumaier (vfrac s) n 0 None idop in
  let esum := sum_neumaier (u s) n 0 None idop in
  set_res (upd (upd (res s) 0 (vfrac_total - vsum)) 1 (utot s - esum)) s.
(** mixed_cell_models.hpp:1283-1289, 1427-1430: set the state from (Peq, Teq). Reads the old rho, sie as guesses. *)
Definition pt_lookup (s : pst) (m : nat) : R * R :=
  de_pt (eos m) (Peq s * uscale s) (Teq s * Tnorm s) (rho s m) (sie s m).
Definition pt_setstate (s : pst) : pst :=
  let lk := pt_lookup s in
  let s := set_rho (mapm (fun m => fst (lk m)) (rho s)) s in
  let s := set_sie (mapm (fun m => snd (lk m)) (sie s)) s in
  let s := set_vfrac (mapm (fun m => ratio (rhobar s m) (rho s m)) (vfrac s)) s in
  let s := set_u (mapm (fun m => ratio (sie s m * rhobar s m) (uscale s)) (u s)) s in
  set_temp (mapm (fun _ => Teq s) (temp s)) s.
(** mixed_cell_models.hpp:1265-1297 Init *)
Definition pt_Init (s : pst) : pst * R :=
  let s := InitBase s in
  let s := pt_Residual s in
  let P := rsum n (fun m => Rabs (press s m) * vfrac s m) in
  let vsum := sum_neumaier (vfrac s) n 0 None idop in
  let s := set_Teq 1 (set_Peq (P / vsum) s) in
  let s := pt_setstate s in
  let s := pt_Residual s in
  (s, ResidualNorm 2 s).
(** mixed_cell_models.hpp:1299-1312 Finalize (non-null pointers) *)
Definition pt_Finalize (s : pst) : pst :=
  set_u (mapm (fun m => u s m * uscale s) (u s))
  (set_temp (mapm (fun _ => Teq s * Tnorm s) (temp s))
  (set_press (mapm (fun _ => Peq s * uscale s) (press s)) s)).
(** mixed_cell_models.hpp:1322-1334 CheckPTE *)
Definition pt_CheckPTE (s : pst) : bool * bool :=
  let error_v := Rabs (res s 0%nat) in
  let error_u := Rabs (res s 1%nat) in
  (Rlt_bool error_v (pte_rel_tolerance_v params) && Rlt_bool error_u (pte_rel_tolerance_e params),
   Rlt_bool error_u (pte_rel_tolerance_e_sufficient params) && Rlt_bool error_v (pte_rel_tolerance_v_sufficient params)).
(** mixed_cell_models.hpp:1336-1385 Jacobian *)
Definition pt_Jacobian (s : pst) : pst :=
  let dp := - Peq s * derivative_eps params in
  let dT := Teq s * derivative_eps params in
  let a m := de_pt (eos m) (uscale s * (Peq s + dp)) (Tnorm s * Teq s) (rho s m) (sie s m) in
  let b m := de_pt (eos m) (uscale s * Peq s) (Tnorm s * (Teq s + dT)) (fst (a m)) (snd (a m)) in
  let rbor2_dr_dP := rsum n (fun m => ratio (rhobar s m) (rho s m * rho s m) * ratio (fst (a m) - rho s m) dp) in
  let dudP := rsum n (fun m => ratio (ratio (rhobar s m * snd (a m)) (uscale s) - u s m) dp) in
  let rbor2_dr_dT := rsum n (fun m => ratio (rhobar s m) (rho s m * rho s m) * ratio (fst (b m) - rho s m) dT) in
  let dudT := rsum n (fun m => ratio (ratio (rhobar s m * snd (b m)) (uscale s) - u s m) dT) in
  set_jac (upd (upd (upd (upd (jac s) 0 (- rbor2_dr_dT)) 1 (- rbor2_dr_dP)) 2 dudT) 3 dudP) s.
(** mixed_cell_models.hpp:1387-1411 ScaleDx *)
Definition pt_bounded (s : pst) (Pbound delta : R) : R := ratio (ratio Pbound (uscale s) - Peq s) delta.
Definition pt_ScaleDx (s : pst) : pst * R :=
  let scale := 1 in
  let scale := if Rlt_bool (scale * dx s 0%nat) (- (95 / 100) * Teq s) then ratio (- (95 / 100) * Teq s) (dx s 0%nat) else scale in
  let scale := fold_left (fun sc m => Rmin (Rabs sc) (Rabs (95 / 100 * pt_bounded s (MinimumPressure (eos m)) (dx s 1%nat)))) (seq 0 n) scale in
  let scale := fold_left (fun sc m =>
      let Ttest := (Teq s + sc * dx s 0%nat) * Tnorm s in
      let Pmax := MaximumPressureAtTemperature (eos m) Ttest in
      Rmin (Rabs sc) (Rabs (95 / 100 * pt_bounded s Pmax (dx s 0%nat)))) (seq 0 n) scale in
  (set_dx (map_n 2 (fun i => dx s i * scale) (dx s)) s, scale).
(** mixed_cell_models.hpp:1413-1435 TestUpdate *)
Definition pt_TestUpdate (scale : R) (cache_state : bool) (s : pst) : pst * R :=
  let s := if cache_state then set_Ptmp (Peq s) (set_Ttmp (Teq s) s) else s in
  let s := set_Teq (Ttmp s + scale * dx s 0%nat) s in
  let s := set_Peq (Ptmp s + scale * dx s 1%nat) s in
  let s := pt_setstate s in
  let s := set_press (mapm (fun _ => Peq s) (press s)) s in
  let s := pt_Residual s in
  (s, ResidualNorm 2 s).
Definition PT_system : System RArith pst :=
  mkSystem RArith pst n params pt_Init pt_CheckPTE pt_Jacobian (Solve 2) pt_ScaleDx pt_TestUpdate (fun s => s) pt_Finalize.

(** ** PTESolverFixedT: neq = nmat; the constructor sets Tequil = T_true, Tnorm = 1 (mixed_cell_models.hpp:1498-1511) *)
(** mixed_cell_models.hpp:1553-1560 Residual *)
Definition ft_Residual (s : pst) : pst :=
  let vsum := sum_neumaier (vfrac s) n 0 None idop in
  let r0 := upd (res s) 0 (vfrac_total - vsum) in
  set_res (fold_left (fun r m => upd r (1 + m) (press s m - press s (m + 1)%nat)) (seq 0 (n - 1)) r0) s.
(** mixed_cell_models.hpp:1523-1551 Init; the return value of SetVfracFromT is ignored *)
Definition ft_Init (s : pst) : pst * R :=
  let s := set_Tnorm 1 s in
  let s := InitRhoBarandRho s in
  let s := set_vfrac (fst (SetVfracFromT (Teq s) (rhobar s) (vfrac s))) s in
  let s := set_rho (mapm (fun m => ratio (rhobar s m) (vfrac s m)) (rho s)) s in
  let s := set_sie (mapm (fun m => e_rt (eos m) (rho s m) (Teq s)) (sie s)) s in
  let us := rsum n (fun m => Rabs (sie s m) * rho s m) in
  let s := set_press (mapm (fun m => p_rt (eos m) (rho s m) (Teq s)) (press s)) s in
  let s := set_uscale (Rmax us (1 / 100000000000000)) s in
  let s := set_press (mapm (fun m => ratio (press s m) (uscale s)) (press s)) s in
  let s := set_u (mapm (fun m => sie s m * ratio (rhobar s m) (uscale s)) (u s)) s in
  let s := ft_Residual s in
  (s, ResidualNorm n s).
(** mixed_cell_models.hpp:1562-1581 CheckPTE *)
Definition ft_CheckPTE (s : pst) : bool * bool :=
  let mean_p := rsum n (fun m => vfrac s m * press s m) in
  let error_p := sqrt (rsum (n - 1) (fun m => res s (S m) * res s (S m))) in
  let error_v := Rabs (res s 0%nat) in
  ((Rlt_bool error_p (pte_rel_tolerance_p params * Rabs mean_p) || Rlt_bool error_p (pte_abs_tolerance_p params))
     && Rlt_bool error_v (pte_rel_tolerance_v params),
   (Rlt_bool error_p (pte_rel_tolerance_p_sufficient params * Rabs mean_p) || Rlt_bool error_p (pte_abs_tolerance_p_sufficient params))
     && Rlt_bool error_v (pte_rel_tolerance_v_sufficient params)).
(** mixed_cell_models.hpp:1583-1609 Jacobian *)
Definition ft_Jacobian (s : pst) : pst :=
  let p1 m := ratio (p_rt (eos m) (jac_rho s m) (Teq s)) (uscale s) in
  let s := set_dpdv (mapm (fun m => Rmin (ratio (p1 m - press s m) (jac_dv s m)) (- Rabs (pte_max_dpdv params))) (dpdv s)) s in
  let j := map_n (n * n) (fun _ => 0) (jac s) in
  let j := map_n n (fun _ => 1) j in
  let j := fold_left (fun a m => upd (upd a (MatIndex n (m + 1) m) (- dpdv s m)) (MatIndex n (m + 1) (m + 1)) (dpdv s (m + 1)%nat))
             (seq 0 (n - 1)) j in
  set_jac j s.
(** mixed_cell_models.hpp:1611-1640 ScaleDx *)
Definition vfrac_scale (f : R) (s : pst) (scale : R) (m : nat) : R :=
  if Rlt_bool (scale * dx s m) (- f * vfrac s m) then ratio (- f * vfrac s m) (dx s m) else scale.
Definition ft_scale2 (s : pst) (scale : R) (m : nat) : R :=
  let alpha_max := ratio (rhobar s m) (RhoPmin (eos m) (Teq s)) in
  if Rlt_bool alpha_max (vfrac s m) then scale
  else if Rlt_bool (1 / 2 * (alpha_max - vfrac s m)) (scale * dx s m)
       then ratio (1 / 2 * (alpha_max - vfrac s m)) (dx s m) else scale.
Definition ft_ScaleDx (s : pst) : pst * R :=
  let scale := fold_left (vfrac_scale (vfrac_safety_fac params) s) (seq 0 n) 1 in
  let scale := fold_left (ft_scale2 s) (seq 0 n) scale in
  (set_dx (map_n n (fun i => dx s i * scale) (dx s)) s, scale).
(** mixed_cell_models.hpp:1642-1664 TestUpdate *)
Definition ft_TestUpdate (scale : R) (cache_state : bool) (s : pst) : pst * R :=
  let s := if cache_state then set_vtmp (mapm (vfrac s) (vtmp s)) s else s in
  let s := set_vfrac (mapm (fun m => vtmp s m + scale * dx s m) (vfrac s)) s in
  let s := set_rho (mapm (fun m => ratio (rhobar s m) (vfrac s m)) (rho s)) s in
  let um m := rhobar s m * e_rt (eos m) (rho s m) (Teq s) in
  let s := set_sie (mapm (fun m => ratio (um m) (rhobar s m)) (sie s)) s in
  let s := set_u (mapm (fun m => ratio (um m) (uscale s)) (u s)) s in
  let s := set_press (mapm (fun m => ratio (p_rt (eos m) (rho s m) (Teq s)) (uscale s)) (press s)) s in
  let s := ft_Residual s in
  (s, ResidualNorm n s).
Definition FixedT_system : System RArith pst :=
  mkSystem RArith pst n params ft_Init ft_CheckPTE ft_Jacobian (Solve n) ft_ScaleDx ft_TestUpdate (fun s => s) base_Finalize.

(** ** PTESolverFixedP: neq = nmat + 1; the constructor sets Pequil = P and Tnorm = 0 (mixed_cell_models.hpp:1724-1735) *)
(** mixed_cell_models.hpp:1781-1788 Residual *)
Definition fp_Residual (s : pst) : pst :=
  let vsum := sum_neumaier (vfrac s) n 0 None idop in
  let r := mapm (fun m => ratio (Peq s) (uscale s) - press s m) (res s) in
  set_res (upd r n (vfrac_total - vsum)) s.
(** mixed_cell_models.hpp:1747-1779 Init. GetTguess runs before uscale/utotal_scale are set: whatever they hold. *)
Definition fp_Init (s : pst) : pst * R :=
  let s := InitRhoBarandRho s in
  let '(s, Tg) := GetTguess s in
  let s := set_Tnorm Tg s in
  let s := set_uscale (Rmax (Rabs (Peq s)) (1 / 100000000000000)) s in
  let s := set_temp (mapm (fun _ => 1) (temp s)) s in
  let s := set_sie (mapm (fun m => e_rt (eos m) (rho s m) Tg) (sie s)) s in
  let s := set_u (mapm (fun m => ratio (sie s m * rhobar s m) (uscale s)) (u s)) s in
  let s := set_press (mapm (fun m => ratio (p_rt (eos m) (rho s m) Tg) (uscale s)) (press s)) s in
  let s := fp_Residual s in
  let s := set_Ttmp (temp s 0%nat) (set_Teq (temp s 0%nat) s) in
  (s, ResidualNorm (n + 1) s).
(** mixed_cell_models.hpp:1790-1807 CheckPTE *)
Definition fp_CheckPTE (s : pst) : bool * bool :=
  let error_p := sqrt (rsum n (fun m => res s m * res s m)) * uscale s in
  let error_v := Rabs (res s n) in
  ((Rlt_bool error_p (pte_rel_tolerance_p params) || Rlt_bool error_p (pte_abs_tolerance_p params))
     && Rlt_bool error_v (pte_rel_tolerance_v params),
   (Rlt_bool error_p (pte_rel_tolerance_p_sufficient params) || Rlt_bool error_p (pte_abs_tolerance_p_sufficient params))
     && Rlt_bool error_v (pte_rel_tolerance_v_sufficient params)).
(** mixed_cell_models.hpp:1809-1849 Jacobian *)
Definition fp_Jacobian (s : pst) : pst :=
  let dT := Teq s * derivative_eps params in
  let p1 m := ratio (GetPressureFromPreferred (eos m) (jac_rho s m) (Tnorm s * Teq s) 0 true) (uscale s) in
  let p2 m := ratio (GetPressureFromPreferred (eos m) (rho s m) (Tnorm s * (Teq s + dT)) 0 true) (uscale s) in
  let s := set_dpdv (mapm (fun m => Rmin (ratio (p1 m - press s m) (jac_dv s m)) (- Rabs (pte_max_dpdv params))) (dpdv s)) s in
  let s := set_dpdT (mapm (fun m => ratio (p2 m - press s m) dT) (dpdT s)) s in
  let j := map_n ((n + 1) * (n + 1)) (fun _ => 0) (jac s) in
  let j := fold_left (fun a m => upd (upd a (MatIndex (n + 1) m m) (dpdv s m)) (MatIndex (n + 1) m n) (dpdT s m)) (seq 0 n) j in
  let j := fold_left (fun a m => upd a (MatIndex (n + 1) n m) 1) (seq 0 n) j in
  set_jac j s.
(** mixed_cell_models.hpp:1851-1886 ScaleDx *)
Definition fp_vscale (f : R) (s : pst) (scale : R) (m : nat) : R :=
  if Rlt_bool (scale * dx s m) (- f * vfrac s m) then - f * ratio (vfrac s m) (dx s m) else scale.
Definition fp_scale2 (s : pst) (Tnew : R) (scale : R) (m : nat) : R :=
  let rho_min := Rmax (RhoPmin (eos m) (Tnorm s * Teq s)) (RhoPmin (eos m) (Tnorm s * Tnew)) in
  let alpha_max := ratio (rhobar s m) rho_min in
  if Rlt_bool alpha_max (vfrac s m) then scale
  else if Rlt_bool (1 / 2 * (alpha_max - vfrac s m)) (scale * dx s m)
       then 1 / 2 * ratio (alpha_max - vfrac s m) (dx s m) else scale.
Definition fp_ScaleDx (s : pst) : pst * R :=
  let scale := fold_left (fp_vscale (vfrac_safety_fac params) s) (seq 0 n) 1 in
  let Tnew := Teq s + scale * dx s n in
  let scale := fold_left (fp_scale2 s Tnew) (seq 0 n) scale in
  let scale := if Rlt_bool (scale * dx s n) (- (95 / 100) * Teq s) then - (95 / 100) * ratio (Teq s) (dx s n) else scale in
  (set_dx (map_n (n + 1) (fun i => dx s i * scale) (dx s)) s, scale).
(** mixed_cell_models.hpp:1888-1914 TestUpdate *)
Definition fp_TestUpdate (scale : R) (cache_state : bool) (s : pst) : pst * R :=
  let s := if cache_state then set_vtmp (mapm (vfrac s) (vtmp s)) (set_Ttmp (Teq s) s) else s in
  let s := set_Teq (Ttmp s + scale * dx s n) s in
  let s := set_vfrac (mapm (fun m => vtmp s m + scale * dx s m) (vfrac s)) s in
  let s := set_rho (mapm (fun m => ratio (rhobar s m) (vfrac s m)) (rho s)) s in
  let um m := rhobar s m * e_rt (eos m) (rho s m) (Tnorm s * Teq s) in
  let s := set_press (mapm (fun m => ratio (p_rt (eos m) (rho s m) (Tnorm s * Teq s)) (uscale s)) (press s)) s in
  let s := set_sie (mapm (fun m => ratio (um m) (rhobar s m)) (sie s)) s in
  let s := set_u (mapm (fun m => ratio (um m) (uscale s)) (u s)) s in
  let s := set_temp (mapm (fun _ => Teq s) (temp s)) s in
  let s := fp_Residual s in
  (s, ResidualNorm (n + 1) s).
Definition FixedP_system : System RArith pst :=
  mkSystem RArith pst n params fp_Init fp_CheckPTE fp_Jacobian (Solve (n + 1)) fp_ScaleDx fp_TestUpdate (fun s => s) base_Finalize.

(** ** PTESolverRhoU: neq = 2 nmat *)
(** mixed_cell_models.hpp:2008-2020 Residual *)
Definition ru_Residual (s : pst) : pst :=
  let vsum := sum_neumaier (vfrac s) n 0 None idop in
  let esum := sum_neumaier (u s) n 0 None idop in
  let r := upd (upd (res s) 0 (vfrac_total - vsum)) 1 (utot s - esum) in
  let r := fold_left (fun r m => upd r (2 + m) (press s (m + 1)%nat - press s m)) (seq 0 (n - 1)) r in
  let r := fold_left (fun r m => upd r m (temp s (m - n)%nat - temp s (m - n - 1)%nat)) (seq (n + 1) (2 * n - (n + 1))) r in
  set_res r s.
(** mixed_cell_models.hpp:2000-2006 Init *)
Definition ru_Init (s : pst) : pst * R :=
  let s := InitBase s in
  let s := ru_Residual s in
  let s := TryIdealPTE (2 * n) ru_Residual s in
  (s, ResidualNorm (2 * n) s).
(** mixed_cell_models.hpp:2022-2048 CheckPTE *)
Definition ru_CheckPTE (s : pst) : bool * bool :=
  let mean_p := rsum n (fun m => vfrac s m * press s m) in
  let mean_t := ratio (rsum n (fun m => rhobar s m * temp s m)) (rhotot s) in
  let error_p := sqrt (rsum (n - 1) (fun m => res s (S m + 1)%nat * res s (S m + 1)%nat)) in
  let error_t := sqrt (rsum (n - 1) (fun m => res s (S m + n)%nat * res s (S m + n)%nat)) in
  ((Rlt_bool error_p (pte_rel_tolerance_p params * Rabs mean_p) || Rlt_bool error_p (pte_abs_tolerance_p params))
     && (Rlt_bool error_t (pte_rel_tolerance_t params * mean_t) || Rlt_bool error_t (pte_abs_tolerance_t params)),
   (Rlt_bool error_p (pte_rel_tolerance_p_sufficient params * Rabs mean_p) || Rlt_bool error_p (pte_abs_tolerance_p_sufficient params))
     && (Rlt_bool error_t (pte_rel_tolerance_t_sufficient params * mean_t) || Rlt_bool error_t (pte_abs_tolerance_t_sufficient params))).
(** mixed_cell_models.hpp:2050-2115 Jacobian *)
Definition ru_fill (s : pst) (j : nat -> R) : nat -> R :=
  let j := map_n (2 * n * (2 * n)) (fun _ => 0) j in
  let j := fold_left (fun a m => upd (upd a m 1) (2 * n + n + m) 1) (seq 0 n) j in
  let j := upd j (2 * 2 * n) (dpdv s 0%nat) in
  let j := upd j (n * 2 * n + n - 1) (- dpdv s (n - 1)%nat) in
  let j := upd j ((n + 1) * 2 * n) (dtdv s 0%nat) in
  let j := upd j ((2 * n - 1) * 2 * n + n - 1) (- dtdv s (n - 1)%nat) in
  let j := upd j (2 * 2 * n + n) (dpde s 0%nat) in
  let j := upd j (n * 2 * n + 2 * n - 1) (- dpde s (n - 1)%nat) in
  let j := upd j ((n + 1) * 2 * n + n) (dtde s 0%nat) in
  let j := upd j ((2 * n - 1) * 2 * n + 2 * n - 1) (- dtde s (n - 1)%nat) in
  fold_left (fun a m =>
    upd (upd (upd (upd (upd (upd (upd (upd a
      ((1 + m) * 2 * n + m) (- dpdv s m)) ((2 + m) * 2 * n + m) (dpdv s m))
      ((n + m) * 2 * n + m) (- dtdv s m)) ((n + m + 1) * 2 * n + m) (dtdv s m))
      ((1 + m) * 2 * n + n + m) (- dpde s m)) ((2 + m) * 2 * n + n + m) (dpde s m))
      ((n + m) * 2 * n + n + m) (- dtde s m)) ((n + m + 1) * 2 * n + n + m) (dtde s m))
    (seq 1 (n - 1 - 1)) j.
Definition ru_Jacobian (s : pst) : pst :=
  let t1 m := ratio (t_re (eos m) (jac_rho s m) (sie s m)) (Tnorm s) in
  let p1 m := ratio (GetPressureFromPreferred (eos m) (jac_rho s m) (Tnorm s * t1 m) (sie s m) false) (uscale s) in
  let de m := Rabs (u s m) * derivative_eps params in
  let ep m := ratio (u s m + de m) (rhobar s m) in
  let t2 m := ratio (t_re (eos m) (rho s m) (uscale s * ep m)) (Tnorm s) in
  let p2 m := ratio (GetPressureFromPreferred (eos m) (rho s m) (Tnorm s * t2 m) (uscale s * ep m) false) (uscale s) in
  let s := set_dpdv (mapm (fun m => Rmin (ratio (p1 m - press s m) (jac_dv s m)) (- Rabs (pte_max_dpdv params))) (dpdv s)) s in
  let s := set_dtdv (mapm (fun m => ratio (t1 m - temp s m) (jac_dv s m)) (dtdv s)) s in
  let s := set_dpde (mapm (fun m => ratio (p2 m - press s m) (de m)) (dpde s)) s in
  let s := set_dtde (mapm (fun m => let d := ratio (t2 m - temp s m) (de m) in
                                    if Rlt_bool (Rabs d) (min_dtde params) then derivative_eps params else d) (dtde s)) s in
  set_jac (ru_fill s (jac s)) s.
(** mixed_cell_models.hpp:2117-2151 ScaleDx: one pass of the material loop *)
Definition ru_scale_step (s : pst) (scale : R) (m : nat) : R :=
  let scale := if Rlt_bool (scale * dx s m) (- (1 / 10) * vfrac s m) then - (1 / 10) * ratio (vfrac s m) (dx s m) else scale in
  let dt := dtdv s m * dx s m + dtde s m * dx s (m + n)%nat in
  let scale := if Rlt_bool (scale * dt) (- (1 / 10) * temp s m) then - (1 / 10) * ratio (temp s m) dt else scale in
  let tt := temp s m + scale * dt in
  let rho_min := Rmax (RhoPmin (eos m) (Tnorm s * temp s m)) (RhoPmin (eos m) (Tnorm s * tt)) in
  let alpha_max := ratio (rhobar s m) rho_min in
  if Rlt_bool alpha_max (vfrac s m) then scale
  else if Rlt_bool (1 / 2 * (alpha_max - vfrac s m)) (scale * dx s m)
       then 1 / 2 * ratio (alpha_max - vfrac s m) (dx s m) else scale.
Definition ru_ScaleDx (s : pst) : pst * R :=
  let scale := fold_left (ru_scale_step s) (seq 0 n) 1 in
  (set_dx (map_n (2 * n) (fun i => dx s i * scale) (dx s)) s, scale).
(** mixed_cell_models.hpp:2153-2179 TestUpdate *)
Definition ru_TestUpdate (scale : R) (cache_state : bool) (s : pst) : pst * R :=
  let s := if cache_state then set_utmp (mapm (u s) (utmp s)) (set_vtmp (mapm (vfrac s) (vtmp s)) s) else s in
  let s := set_vfrac (mapm (fun m => vtmp s m + scale * dx s m) (vfrac s)) s in
  let s := set_rho (mapm (fun m => ratio (rhobar s m) (vfrac s m)) (rho s)) s in
  let s := set_u (mapm (fun m => utmp s m + scale * dx s (n + m)%nat) (u s)) s in
  let s := set_sie (mapm (fun m => uscale s * ratio (u s m) (rhobar s m)) (sie s)) s in
  let s := set_temp (mapm (fun m => ratio (t_re (eos m) (rho s m) (sie s m)) (Tnorm s)) (temp s)) s in
  let s := set_press (mapm (fun m => ratio (GetPressureFromPreferred (eos m) (rho s m) (Tnorm s * temp s m) (sie s m) false) (uscale s)) (press s)) s in
  let s := ru_Residual s in
  (s, ResidualNorm (2 * n) s).
Definition RhoU_system : System RArith pst :=
  mkSystem RArith pst n params ru_Init ru_CheckPTE ru_Jacobian (Solve (2 * n)) ru_ScaleDx ru_TestUpdate (fun s => s) base_Finalize.
End Solvers.
