(** Model of ApproxTemperatureFromRhoMatU (closure/mixed_cell_models.hpp:790-847), over the exact reals.
    FastMath::lg and FastMath::pow2 are the parameters [lg], [pow2] (what the variants satisfy is C05).
    Each material is its InternalEnergyFromDensityTemperature with its lambda already applied. *)
From Coq Require Import Reals Bool List.
From Flocq Require Import Core.
From Verif Require Import Robust_Model.
Import ListNotations.
Local Open Scope R_scope.

Section ApproxT.
Variables lg pow2 : R -> R.
(** one entry per material: density, volume fraction, energy(rho, T) *)
Record mat := mkMat { m_rho : R; m_vfrac : R; m_sie : R -> R -> R }.
Variable mats : list mat.

(** :796-797 *)
Definition minimum_temperature : R := / 10 ^ 9.
Definition maximum_temperature : R := 10 ^ 9.
(** :803-810 *)
Definition ufunc (T : R) : R := fold_left (fun usum m => usum + m_rho m * m_vfrac m * m_sie m (m_rho m) T) mats 0.

(** bracket: log temperatures and the energies at them *)
Record bracket := mkB { lTlo : R; lThi : R; ulo : R; uhi : R }.
(** the loop body, :833-842 *)
Definition bisect (u_tot : R) (b : bracket) : bracket :=
  let lT := 1 / 2 * (lTlo b + lThi b) in
  let uT := ufunc (pow2 lT) in
  if Rlt_bool uT u_tot then mkB lT (lThi b) uT (uhi b) else mkB (lTlo b) lT (ulo b) uT.
(** :828-843, [n] iterations left *)
Fixpoint loop (n : nat) (u_tot : R) (b : bracket) : bracket :=
  match n with
  | O => b
  | S n' => if Rlt_bool (1 / 100) (lThi b - lTlo b) then loop n' u_tot (bisect u_tot b) else b
  end.
(** :829 *)
Definition max_iter : nat := 10.
(** :816-827 *)
Definition start (u_tot Tguess : R) : bracket :=
  let b := mkB (lg minimum_temperature) (lg maximum_temperature) (ufunc minimum_temperature) (ufunc maximum_temperature) in
  if (Rlt_bool minimum_temperature Tguess && Rlt_bool Tguess maximum_temperature)%bool then
    let ug := ufunc Tguess in
    if Rlt_bool ug u_tot then mkB (lg Tguess) (lThi b) ug (uhi b) else mkB (lTlo b) (lg Tguess) (ulo b) ug
  else b.
(** :812-815, 845-846 *)
Definition ApproxTemperatureFromRhoMatU (u_tot Tguess : R) : R :=
  if Rlt_bool u_tot (ufunc minimum_temperature) then minimum_temperature
  else if Rlt_bool (ufunc maximum_temperature) u_tot then maximum_temperature
  else
    let b := loop max_iter u_tot (start u_tot Tguess) in
    let alpha := ratio (u_tot - ulo b) (uhi b - ulo b) in
    pow2 ((1 - alpha) * lTlo b + alpha * lThi b).
End ApproxT.
