(** Model of the constructors the C and Fortran interfaces offer for the analytic EOS, from the Fortran argument list to the
    object stored in the EOS array: init_sg_X_f (eos/singularity_eos.f90:440-632), init_sg_X (eos/singularity_eos.cpp:67-303),
    the modifiers put around it (eos/singularity_eos_init_utils.hpp:24-86) and the pressure query that is later sent to it.
    Arguments are positional, as in the code. Reals are exact. Simplified: assert(matindex >= 0) and an index beyond the array
    are both "no result"; the modifier arrays are functions from the index (the wrappers copy arrays of 4 and 6 elements, and the
    caller's must have that size); GetOnDevice copies the object. *)
From Coq Require Import Reals ZArith List Bool.
From Flocq Require Import Core.
From Verif Require Import Arith Robust_Model Vector_Model Bindings_Model.
From Verif Require Ideal_Model Stiff_Model NobleAbel_Model Carnahan_Model JWL_Model Gruneisen_Model DavisProducts_Model DavisReactants_Model
  SAP_Model Mods_Model.
Import ListNotations.
Local Open Scope R_scope.

(** the alternatives of the variant that these constructors fill *)
Inductive material :=
| IdealGas (g : Ideal_Model.ideal) | Gruneisen (g : Gruneisen_Model.grun) | JWL (g : JWL_Model.jwl)
| DavisProducts (g : DavisProducts_Model.products) | DavisReactants (g : DavisReactants_Model.reactants) | SAP_Polynomial (g : SAP_Model.sap)
| StiffGas (g : Stiff_Model.stiff) | NobleAbel (g : NobleAbel_Model.noble) | CarnahanStarling (g : Carnahan_Model.carnahan).
Definition material_pressure (m : material) : R -> R -> R :=
  match m with
  | IdealGas g => Ideal_Model.PressureFromDensityInternalEnergy g | Gruneisen g => Gruneisen_Model.PressureFromDensityInternalEnergy g
  | JWL g => JWL_Model.PressureFromDensityInternalEnergy g | DavisProducts g => DavisProducts_Model.PressureFromDensityInternalEnergy g
  | DavisReactants g => DavisReactants_Model.PressureFromDensityInternalEnergy g | SAP_Polynomial g => SAP_Model.PressureFromDensityInternalEnergy g
  | StiffGas g => Stiff_Model.PressureFromDensityInternalEnergy g | NobleAbel g => NobleAbel_Model.PressureFromDensityInternalEnergy g
  | CarnahanStarling g => Carnahan_Model.PressureFromDensityInternalEnergy g
  end.
Definition material_check (m : material) : bool :=
  match m with
  | IdealGas g => Ideal_Model.CheckParams g | Gruneisen g => Gruneisen_Model.CheckParams g | JWL g => JWL_Model.CheckParams g
  | DavisProducts g => DavisProducts_Model.CheckParams g | DavisReactants g => DavisReactants_Model.CheckParams g | SAP_Polynomial g => SAP_Model.CheckParams g
  | StiffGas g => Stiff_Model.CheckParams g | NobleAbel g => NobleAbel_Model.CheckParams g | CarnahanStarling g => Carnahan_Model.CheckParams g
  end.

(** an element of the EOS array: a material inside modifiers *)
Inductive eos := Plain (m : material) | Shifted (t : eos) (shift : R) | Scaled (t : eos) (scale : R) | BilinearRamp (t : eos) (p : Mods_Model.ramp).
(** shifted_eos.hpp:58-61, scaled_eos.hpp:59-66, ramps_eos.hpp:96-104: a modifier checks its parameter and the EOS inside
    (the isnan tests cannot fail for real numbers) *)
Fixpoint CheckParams (e : eos) : bool :=
  match e with
  | Plain m => material_check m
  | Shifted t _ => CheckParams t
  | Scaled t scale => Rlt_bool 0 (Rabs scale) && Rlt_bool 0 (Rabs (1 / scale)) && CheckParams t
  | BilinearRamp t p => Mods_Model.ramp_check p && CheckParams t
  end.
(** shifted_eos.hpp:77-81, scaled_eos.hpp:82-86 (inv_scale_ = 1/scale), ramps_eos.hpp:148-157 *)
Fixpoint PressureFromDensityInternalEnergy (e : eos) (rho sie : R) : R :=
  match e with
  | Plain m => material_pressure m rho sie
  | Shifted t shift => PressureFromDensityInternalEnergy t rho (sie - shift)
  | Scaled t scale => PressureFromDensityInternalEnergy t (scale * rho) (1 / scale * sie)
  | BilinearRamp t p => Mods_Model.ramp_P p rho (PressureFromDensityInternalEnergy t rho sie)
  end.
Definition material_temperature (m : material) : R -> R -> R :=
  match m with
  | IdealGas g => Ideal_Model.TemperatureFromDensityInternalEnergy g | Gruneisen g => Gruneisen_Model.TemperatureFromDensityInternalEnergy g
  | JWL g => JWL_Model.TemperatureFromDensityInternalEnergy g | DavisProducts g => DavisProducts_Model.TemperatureFromDensityInternalEnergy g
  | DavisReactants g => DavisReactants_Model.TemperatureFromDensityInternalEnergy g | SAP_Polynomial _ => SAP_Model.TemperatureFromDensityInternalEnergy
  | StiffGas g => Stiff_Model.TemperatureFromDensityInternalEnergy g | NobleAbel g => NobleAbel_Model.TemperatureFromDensityInternalEnergy g
  | CarnahanStarling g => Carnahan_Model.TemperatureFromDensityInternalEnergy g
  end.
(** shifted_eos.hpp:67-70, scaled_eos.hpp:71-75, ramps_eos.hpp:139-142 *)
Fixpoint TemperatureFromDensityInternalEnergy (e : eos) (rho sie : R) : R :=
  match e with
  | Plain m => material_temperature m rho sie
  | Shifted t shift => TemperatureFromDensityInternalEnergy t rho (sie - shift)
  | Scaled t scale => TemperatureFromDensityInternalEnergy t (scale * rho) (1 / scale * sie)
  | BilinearRamp t p => TemperatureFromDensityInternalEnergy t rho sie
  end.
(** the EOS as the C query functions see it (none of these uses lambda) *)
Definition as_ceos (e : eos) : @ceos R := mkCE (fun rho sie lam => (PressureFromDensityInternalEnergy e rho sie, lam)) 0.

(** modifier constructors: abort when CheckParams fails *)
Definition mk_checked (e : eos) : option eos := if CheckParams e then Some e else None.
Definition bind {A B} (x : option A) (f : A -> option B) : option B := match x with Some a => f a | None => None end.
(** applyShiftAndScale, singularity_eos_init_utils.hpp:24-39 *)
Definition applyShiftAndScale (e : eos) (scaled shifted : bool) (scale shift : R) : option eos :=
  if shifted && scaled then bind (mk_checked (Shifted e shift)) (fun a => mk_checked (Scaled a scale))
  else if shifted then mk_checked (Shifted e shift)
  else if scaled then mk_checked (Scaled e scale)
  else Some e.
(** applyWrappedShiftAndScale with W = BilinearRampEOS, 41-60 *)
Definition applyWrappedShiftAndScale (e : eos) (scaled shifted : bool) (scale shift r0 a b c : R) : option eos :=
  let W t := mk_checked (BilinearRamp t (Mods_Model.ramp_ctor r0 a b c)) in
  if shifted && scaled then bind (mk_checked (Shifted e shift)) (fun x => bind (mk_checked (Scaled x scale)) W)
  else if shifted then bind (mk_checked (Shifted e shift)) W
  else if scaled then bind (mk_checked (Scaled e scale)) W
  else W e.
(** applyShiftAndScaleAndBilinearRamp, 62-73 *)
Definition applyAll (e : eos) (scaled shifted ramped : bool) (scale shift r0 a b c : R) : option eos :=
  if ramped then applyWrappedShiftAndScale e scaled shifted scale shift r0 a b c else applyShiftAndScale e scaled shifted scale shift.

Section Init.
(** pAlpha2BilinearRampParams (ramps_eos.hpp:43-77): from the EOS, alpha0, Pe, Pc to r0, a, b, c *)
Variable palpha : eos -> R -> R -> R -> R * R * R * R.

(** the body shared by all init_sg_X, e.g. singularity_eos.cpp:69-77: return value, EOS array, caller's vals afterwards *)
Definition init (matindex : Z) (eos_ : list eos) (A : option material) (enabled : nat -> Z) (vals : nat -> R) : option (Z * list eos * (nat -> R)) :=
  if (matindex <? 0)%Z || (Z.of_nat (length eos_) <=? matindex)%Z then None
  else bind A (fun A =>
    let on i := (enabled i =? 1)%Z in
    bind (applyShiftAndScale (Plain A) (on 0%nat) (on 1%nat) (vals 0%nat) (vals 1%nat)) (fun eosi =>
    let vals' := if on 3%nat then
        let '(r0, a, b, c) := palpha eosi (vals 2%nat) (vals 3%nat) (vals 4%nat) in
        fun i => match i with 2 => r0 | 3 => a | 4 => b | 5 => c | _ => vals i end%nat
      else vals in
    bind (applyAll (Plain A) (on 0%nat) (on 1%nat) (on 2%nat || on 3%nat) (vals' 0%nat) (vals' 1%nat) (vals' 2%nat) (vals' 3%nat) (vals' 4%nat) (vals' 5%nat)) (fun e =>
    Some (0%Z, firstn (Z.to_nat matindex) eos_ ++ e :: skipn (S (Z.to_nat matindex)) eos_, vals')))).

(** MeanAtomicProperties(), eos_base.hpp: 1 and 1; ROOM_TEMPERATURE and ATMOSPHERIC_PRESSURE, constants.hpp: 293 and 1e6 *)
(** singularity_eos.cpp:67-78 with eos_ideal.hpp:42-47 *)
Definition init_sg_IdealGas (matindex : Z) (eos_ : list eos) (gm1 Cv : R) (enabled : nat -> Z) (vals : nat -> R) :=
  init matindex eos_ (option_map IdealGas (Ideal_Model.make_default gm1 Cv 1 1)) enabled vals.
(** 84-98 with eos_gruneisen.hpp:61-66 *)
Definition init_sg_Gruneisen (matindex : Z) (eos_ : list eos) (C0 s1 s2 s3 G0 b rho0 T0 P0 Cv : R) (enabled : nat -> Z) (vals : nat -> R) :=
  init matindex eos_ (option_map Gruneisen (Gruneisen_Model.make_auto C0 s1 s2 s3 G0 b rho0 T0 P0 Cv 1 1)) enabled vals.
(** 109-121 with eos_jwl.hpp:42-51 *)
Definition init_sg_JWL (matindex : Z) (eos_ : list eos) (A B R1 R2 w rho0 Cv : R) (enabled : nat -> Z) (vals : nat -> R) :=
  init matindex eos_ (option_map JWL (JWL_Model.make A B R1 R2 w rho0 Cv 1 1)) enabled vals.
(** 129-142 with eos_davis.hpp:215-221 (the checks on n and Cv are made in debug builds only: the others store the EOS anyway) *)
Definition init_sg_DavisProducts (matindex : Z) (eos_ : list eos) (a b k n vc pc Cv : R) (enabled : nat -> Z) (vals : nat -> R) :=
  init matindex eos_ (Some (DavisProducts (DavisProducts_Model.ctor a b k n vc pc Cv 1 1))) enabled vals.
(** 150-167 with eos_davis.hpp:44-52 (checks in debug builds only) *)
Definition init_sg_DavisReactants (matindex : Z) (eos_ : list eos) (rho0 e0 P0 T0 A B C G0 Z_ alpha Cv0 : R) (enabled : nat -> Z) (vals : nat -> R) :=
  init matindex eos_ (Some (DavisReactants (DavisReactants_Model.ctor rho0 e0 P0 T0 A B C G0 Z_ alpha Cv0 1 1))) enabled vals.
(** 178-201 with eos_sap_polynomial.hpp:40-47 *)
Definition init_sg_SAP_Polynomial (matindex : Z) (eos_ : list eos) (rho0 a0 a1 a2c a2e a3 b0 b1 b2c b2e b3 : R) (enabled : nat -> Z) (vals : nat -> R) :=
  let g := SAP_Model.mkSap a0 a1 a2c a2e a3 b0 b1 b2c b2e b3 rho0 1 1 in
  init matindex eos_ (if SAP_Model.CheckParams g then Some (SAP_Polynomial g) else None) enabled vals.
(** 203-222 with eos_stiff.hpp:40-51 *)
Definition init_sg_StiffGas (matindex : Z) (eos_ : list eos) (gm1 Cv Pinf qq : R) (enabled : nat -> Z) (vals : nat -> R) :=
  init matindex eos_ (option_map StiffGas (Stiff_Model.make gm1 Cv Pinf qq 0 293 1000000 1 1)) enabled vals.
(** 229-248 with eos_noble_abel.hpp:40-51 *)
Definition init_sg_NobleAbel (matindex : Z) (eos_ : list eos) (gm1 Cv bb qq : R) (enabled : nat -> Z) (vals : nat -> R) :=
  init matindex eos_ (option_map NobleAbel (NobleAbel_Model.make gm1 Cv bb qq 0 293 1000000 1 1)) enabled vals.
(** 255-275 with eos_carnahan_starling.hpp:42-54 *)
Definition init_sg_CarnahanStarling (matindex : Z) (eos_ : list eos) (gm1 Cv bb qq : R) (enabled : nat -> Z) (vals : nat -> R) :=
  init matindex eos_ (option_map CarnahanStarling (Carnahan_Model.make gm1 Cv bb qq 0 293 1000000 1 1)) enabled vals.

(** ** Fortran *)
(** the local copies sg_mods_enabled_use, sg_mods_values_use, e.g. singularity_eos.f90:448-456 *)
Definition enabled_use (e : option (nat -> Z)) : nat -> Z := f_mods (fun _ => 0%Z) e.
Definition values_use (v : option (nat -> R)) : nat -> R := f_mods (fun _ => 0) v.
(** what the caller gets back: error code, EOS array; the local copies are dropped, so the caller's arrays stay as they are *)
Definition returned (r : option (Z * list eos * (nat -> R))) (given : option (nat -> R)) : option (Z * list eos * option (nat -> R)) :=
  option_map (fun r => (fst (fst r), snd (fst r), given)) r.
(** singularity_eos.f90:440-459 *)
Definition init_sg_IdealGas_f matindex eos_ gm1 Cv e v :=
  returned (init_sg_IdealGas (matindex - 1) eos_ gm1 Cv (enabled_use e) (values_use v)) v.
(** 461-483 *)
Definition init_sg_Gruneisen_f matindex eos_ C0 s1 s2 s3 G0 b rho0 T0 P0 Cv e v :=
  returned (init_sg_Gruneisen (matindex - 1) eos_ C0 s1 s2 s3 G0 b rho0 T0 P0 Cv (enabled_use e) (values_use v)) v.
(** 485-504 *)
Definition init_sg_JWL_f matindex eos_ A B R1 R2 w rho0 Cv e v :=
  returned (init_sg_JWL (matindex - 1) eos_ A B R1 R2 w rho0 Cv (enabled_use e) (values_use v)) v.
(** 506-527 *)
Definition init_sg_DavisProducts_f matindex eos_ a b k n vc pc Cv e v :=
  returned (init_sg_DavisProducts (matindex - 1) eos_ a b k n vc pc Cv (enabled_use e) (values_use v)) v.
(** 529-551 *)
Definition init_sg_DavisReactants_f matindex eos_ rho0 e0 P0 T0 A B C G0 Z alpha Cv0 e v :=
  returned (init_sg_DavisReactants (matindex - 1) eos_ rho0 e0 P0 T0 A B C G0 Z alpha Cv0 (enabled_use e) (values_use v)) v.
(** 553-575 *)
Definition init_sg_SAP_Polynomial_f matindex eos_ rho0 a0 a1 a2c a2e a3 b0 b1 b2c b2e b3 e v :=
  returned (init_sg_SAP_Polynomial (matindex - 1) eos_ rho0 a0 a1 a2c a2e a3 b0 b1 b2c b2e b3 (enabled_use e) (values_use v)) v.
(** 577-597 *)
Definition init_sg_StiffGas_f matindex eos_ gm1 Cv Pinf qq e v :=
  returned (init_sg_StiffGas (matindex - 1) eos_ gm1 Cv Pinf qq (enabled_use e) (values_use v)) v.
(** 599-619 *)
Definition init_sg_NobleAbel_f matindex eos_ gm1 Cv bb qq e v :=
  returned (init_sg_NobleAbel (matindex - 1) eos_ gm1 Cv bb qq (enabled_use e) (values_use v)) v.
(** 621-632: the modifier arrays are not optional and the caller's own arrays are handed to C *)
Definition init_sg_CarnahanStarling_f matindex eos_ gm1 Cv bb qq (e : nat -> Z) (v : nat -> R) : option (Z * list eos * (nat -> R)) :=
  init_sg_CarnahanStarling (matindex - 1) eos_ gm1 Cv bb qq e v.
End Init.
