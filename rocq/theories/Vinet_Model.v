(** Model of singularity-eos/eos/eos_vinet.hpp (class Vinet), over exact reals.
    Arrays are functions on indices; the number of expansion coefficients (the constant 39 = PressureCoeffsd2tod40Size in the code)
    is the parameter [N] of the model, so every theorem holds for every array size. *)
From Coq Require Import Reals Bool List Arith.
From Flocq Require Import Core.
From Verif Require Import Robust_Model Thermo_Spec.
Local Open Scope R_scope.

(** for (int ind = lo + cnt - 1; ind >= lo; ind--) a = body(ind, a) *)
Fixpoint downto {A : Type} (cnt lo : nat) (body : nat -> A -> A) (a : A) : A :=
  match cnt with O => a | S c => downto c lo body (body (lo + c)%nat a) end.
(** std::cbrt *)
Definition cbrt (x : R) : R := if Rlt_bool 0 x then exp (ln x / 3) else if Rlt_bool x 0 then - exp (ln (- x) / 3) else 0.

(** members, eos_vinet.hpp:162-171; [d] = _d2tod40, [VIP] = _VIP *)
Record vinet := mkVinet { rho0 : R; T0 : R; B0 : R; BP0 : R; A0 : R; Cv0 : R; E0 : R; S0 : R; Abar : R; Zbar : R;
  VIP : nat -> R; d : nat -> R }.
(** CheckParams, eos_vinet.hpp:176-197 *)
Definition CheckParams (g : vinet) : bool :=
  negb (Rlt_bool (rho0 g) 0) && negb (Rlt_bool (T0 g) 0) && negb (Rlt_bool (B0 g) 0) && negb (Rlt_bool (BP0 g) 1) &&
  negb (Rlt_bool (A0 g) 0) && negb (Rlt_bool (Cv0 g) 0) && Rlt_bool 0 (Abar g) && Rlt_bool 0 (Zbar g).
(** array store *)
Definition store (a : nat -> R) (i : nat) (v : R) : nat -> R := fun k => if Nat.eqb k i then v else a k.
(** InitializeVinet, eos_vinet.hpp:199-226: the values put into _VIP (indices 0 .. N+3) *)
Definition InitializeVIP (N : nat) (rho0 T0 B0 BP0 A0 Cv0 : R) (d2 : nat -> R) : nat -> R :=
  let eta0 := 3 / 2 * (BP0 - 1) in
  let init := fun ind : nat => match ind with
    | 0%nat => ratio B0 rho0 + ratio (A0 * A0 * B0 * B0 * T0) (rho0 * rho0 * Cv0)
    | 1%nat => eta0
    | 2%nat => 1
    | 3%nat => 0
    | _ => d2 (ind - 4)%nat
    end in
  downto (N + 1) 2 (fun ind V => store V ind (V ind - INR ind / V 1%nat * V (ind + 1)%nat)) init.
(** constructor, eos_vinet.hpp:43-50 *)
Definition make (N : nat) (rho0 T0 B0 BP0 A0 Cv0 E0 S0 : R) (d2 : nat -> R) (A Z : R) : option vinet :=
  let g := mkVinet rho0 T0 B0 BP0 A0 Cv0 E0 S0 A Z (InitializeVIP N rho0 T0 B0 BP0 A0 Cv0 d2) d2 in
  if CheckParams g then Some g else None.

Section Queries.
Variable N : nat.
Variable g : vinet.
(** Vinet_F_DT_func, eos_vinet.hpp:228-292. The fused loop over the three accumulators is written as three loops. *)
Record vout := mkOut { o_energy : R; o_pressure : R; o_dpdrho : R; o_dpdt : R; o_dedt : R; o_dedrho : R; o_entropy : R; o_soundspeed : R }.
Definition Vinet_F_DT_func (rho T : R) : vout :=
  let x := cbrt (ratio (rho0 g) rho) in
  let x2inv := ratio 1 (x * x) in
  let onemx := 1 - x in
  let etatimes1mx := VIP g 1%nat * onemx in
  let expetatimes1mx := exp etatimes1mx in
  let sumP := downto N 2 (fun ind s => d g (ind - 2)%nat + onemx * s) 0 in
  let sumB := downto N 2 (fun ind s => d g (ind - 2)%nat * INR ind + onemx * s) 0 in
  let sumE := downto N 2 (fun ind s => VIP g (2 + ind)%nat + onemx * s) 0 in
  let sumE := downto 2 0 (fun ind s => VIP g (2 + ind)%nat + onemx * s) sumE in
  let sumP := 1 + sumP * (onemx * onemx) in
  let sumB := sumB * onemx in
  let sumE := VIP g 1%nat * onemx * sumE in
  let energy := 9 * ratio (B0 g) (VIP g 1%nat * VIP g 1%nat * rho0 g) * (VIP g 2%nat - expetatimes1mx * (VIP g 2%nat - sumE)) -
                (A0 g * B0 g) * (ratio (T0 g) (rho0 g) - ratio (T0 g) rho) in
  let pressure := 3 * B0 g * x2inv * onemx * expetatimes1mx * sumP in
  let temp := (1 + onemx * (VIP g 1%nat * x + 1)) * sumP + x * onemx * sumB in
  let temp := ratio (B0 g) (rho0 g) * x * expetatimes1mx * temp in
  let energy := energy + Cv0 g * (T - T0 g) + E0 g in
  let pressure := pressure + (A0 g * B0 g) * (T - T0 g) in
  let dpdrho := temp in
  let dpdt := A0 g * B0 g in
  let dedt := Cv0 g in
  let dedrho := ratio (pressure - T * (A0 g * B0 g)) (rho * rho) in
  let entropy := if Rlt_bool T 0 then 0 else
    (A0 g * B0 g) * (ratio 1 rho - ratio 1 (rho0 g)) + Cv0 g * ln (ratio T (T0 g)) + S0 g in
  let soundspeed := sqrt (Rmax 0 (dpdrho + T * ratio (dpdt * dpdt) (rho * rho * Cv0 g))) in
  mkOut energy pressure dpdrho dpdt dedt dedrho entropy soundspeed.
(** 294-299 *) Definition InternalEnergyFromDensityTemperature (rho temp : R) : R := o_energy (Vinet_F_DT_func rho temp).
(** 301-306 *) Definition PressureFromDensityTemperature (rho temp : R) : R := o_pressure (Vinet_F_DT_func rho temp).
(** 308-313 *) Definition EntropyFromDensityTemperature (rho temp : R) : R := o_entropy (Vinet_F_DT_func rho temp).
(** 315-320 *) Definition TExpansionCoeffFromDensityTemperature (rho temp : R) : R :=
  let o := Vinet_F_DT_func rho temp in ratio (o_dpdt o) (o_dpdrho o * rho).
(** 322-327 *) Definition TBulkModulusFromDensityTemperature (rho temp : R) : R := o_dpdrho (Vinet_F_DT_func rho temp) * rho.
(** 329-334 *) Definition BulkModulusFromDensityTemperature (rho temp : R) : R :=
  let o := Vinet_F_DT_func rho temp in o_soundspeed o * o_soundspeed o * rho.
(** 336-343 *) Definition TemperatureFromDensityInternalEnergy (rho sie : R) : R :=
  ratio (sie - o_energy (Vinet_F_DT_func rho (T0 g))) (Cv0 g) + T0 g.
(** 345-352 *) Definition PressureFromDensityInternalEnergy (rho sie : R) : R :=
  o_pressure (Vinet_F_DT_func rho (TemperatureFromDensityInternalEnergy rho sie)).
(** 354-361 *) Definition EntropyFromDensityInternalEnergy (rho sie : R) : R :=
  o_entropy (Vinet_F_DT_func rho (TemperatureFromDensityInternalEnergy rho sie)).
(** 363-370 *) Definition BulkModulusFromDensityInternalEnergy (rho sie : R) : R :=
  let o := Vinet_F_DT_func rho (TemperatureFromDensityInternalEnergy rho sie) in o_soundspeed o * o_soundspeed o * rho.
(** 80-84 *) Definition SpecificHeatFromDensityTemperature (rho temp : R) : R := Cv0 g.
(** 86-90 *) Definition SpecificHeatFromDensityInternalEnergy (rho sie : R) : R := Cv0 g.
(** 110-114 *) Definition GruneisenParamFromDensityTemperature (rho temp : R) : R := ratio (A0 g * B0 g) (Cv0 g * rho).
(** 116-120 *) Definition GruneisenParamFromDensityInternalEnergy (rho sie : R) : R := ratio (A0 g * B0 g) (Cv0 g * rho).
(** 135-135 *) Definition MinimumDensity : R := cbrt (10 * EPS) * rho0 g.
(** FillEos, eos_vinet.hpp:375-395; [None] = EOS_ERROR *)
Definition FillEos (o : flags) (s : fstate) : option fstate :=
  if f_rho o then None
  else if f_temp o && f_sie o then None
  else
    let s := if negb (f_sie o) then upd_temp s (TemperatureFromDensityInternalEnergy (s_rho s) (s_sie s)) else s in
    let V := Vinet_F_DT_func (s_rho s) (s_temp s) in
    let s := cond_upd (f_sie o) upd_sie (fun s => o_energy V) s in
    let s := cond_upd (f_press o) upd_press (fun s => o_pressure V) s in
    let s := cond_upd (f_cv o) upd_cv (fun s => o_dedt V) s in
    Some (cond_upd (f_bmod o) upd_bmod (fun s => o_soundspeed V * o_soundspeed V * s_rho s) s).
(** ValuesAtReferenceState, eos_vinet.hpp:400-420: rho temp sie press cv bmod dpde dvdt *)
Definition ValuesAtReferenceState : list R :=
  let tbmod := B0 g in
  (rho0 g :: T0 g :: E0 g :: PressureFromDensityTemperature (rho0 g) (T0 g) :: Cv0 g ::
   BulkModulusFromDensityTemperature (rho0 g) (T0 g) :: ratio (A0 g * tbmod) (Cv0 g) :: ratio (A0 g) (rho0 g) :: nil)%list.
End Queries.
