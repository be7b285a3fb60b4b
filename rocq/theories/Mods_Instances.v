(** Concrete wrapped EOS for the modifier theorems: the models of IdealGas, StiffGas and Vinet as [Mods_Spec.EOS] records.
    Bounds are the EosBase defaults (eos_base.hpp:535-557).  [ep], [ptd]: methods the class inherits from EosBase as root find /
    finite differences (BaseDefaults_Model.v), irrelevant here and left as parameters. *)
From Coq Require Import Reals Bool List.
From Verif Require Import Robust_Model Thermo_Spec Mods_Spec.
From Verif Require Ideal_Model Stiff_Model Vinet_Model.
Import ListNotations.
Local Open Scope R_scope.

Definition big : R := 10 ^ 100.
Definition ref_of (v : list R) : rstate :=
  let n k := nth k v 0 in mkRef (n 0%nat) (n 1%nat) (n 2%nat) (n 3%nat) (n 4%nat) (n 5%nat) (n 6%nat) (n 7%nat).
Definition two (f : R -> R -> R) : R -> R -> unit -> R := fun a b _ => f a b.

(** IdealGas, eos_ideal.hpp; PreferredInput 227-229 *)
Definition ideal_EOS (g : Ideal_Model.ideal) : EOS unit := {|
  qT_e := two (Ideal_Model.TemperatureFromDensityInternalEnergy g); qE_T := two (Ideal_Model.InternalEnergyFromDensityTemperature g);
  qP_T := two (Ideal_Model.PressureFromDensityTemperature g); qP_e := two (Ideal_Model.PressureFromDensityInternalEnergy g);
  qEmin := fun rho _ => Ideal_Model.MinInternalEnergyFromDensity rho;
  qS_T := two (Ideal_Model.EntropyFromDensityTemperature g); qS_e := two (Ideal_Model.EntropyFromDensityInternalEnergy g);
  qC_T := two (Ideal_Model.SpecificHeat g); qC_e := two (Ideal_Model.SpecificHeat g);
  qB_T := two (Ideal_Model.BulkModulusFromDensityTemperature g); qB_e := two (Ideal_Model.BulkModulusFromDensityInternalEnergy g);
  qG_T := two (Ideal_Model.GruneisenParam g); qG_e := two (Ideal_Model.GruneisenParam g);
  qE_P := fun rho P _ _ => Ideal_Model.InternalEnergyFromDensityPressure g rho P;
  qDE := fun P T _ _ => Ideal_Model.DensityEnergyFromPressureTemperature g P T;
  qPTD := fun rho e P T _ => let '(a, b, c, d) := Ideal_Model.PTDerivatives g rho e P T in mkPtd a b c d;
  qFill := fun o _ s => Ideal_Model.FillEos g o s;
  qPref := mkF true true true true false false;
  qRef := fun _ => ref_of (Ideal_Model.ValuesAtReferenceState g);
  qRhoMin := 0; qTMin := 0; qRhoMax := big; qPMin := 0; qPMaxT := fun _ => big; qRhoPmin := fun _ => 0;
  qAbar := fun _ _ _ => Ideal_Model.Abar g; qZbar := fun _ _ _ => Ideal_Model.Zbar g |}.

(** StiffGas, eos_stiff.hpp; PreferredInput 199-200 *)
Definition stiff_EOS (ep : R -> R -> R -> R) (pd : R -> R -> R -> R -> ptd) (g : Stiff_Model.stiff) : EOS unit := {|
  qT_e := two (Stiff_Model.TemperatureFromDensityInternalEnergy g); qE_T := two (Stiff_Model.InternalEnergyFromDensityTemperature g);
  qP_T := two (Stiff_Model.PressureFromDensityTemperature g); qP_e := two (Stiff_Model.PressureFromDensityInternalEnergy g);
  qEmin := fun rho _ => Stiff_Model.MinInternalEnergyFromDensity g rho;
  qS_T := two (Stiff_Model.EntropyFromDensityTemperature g); qS_e := two (Stiff_Model.EntropyFromDensityInternalEnergy g);
  qC_T := two (Stiff_Model.SpecificHeat g); qC_e := two (Stiff_Model.SpecificHeat g);
  qB_T := two (Stiff_Model.BulkModulusFromDensityTemperature g); qB_e := two (Stiff_Model.BulkModulusFromDensityInternalEnergy g);
  qG_T := two (Stiff_Model.GruneisenParam g); qG_e := two (Stiff_Model.GruneisenParam g);
  qE_P := fun rho P e _ => ep rho P e;
  qDE := fun P T _ _ => Stiff_Model.DensityEnergyFromPressureTemperature g P T;
  qPTD := fun rho e P T _ => pd rho e P T;
  qFill := fun o _ s => Stiff_Model.FillEos g o s;
  qPref := mkF true false true false false false;
  qRef := fun _ => ref_of (Stiff_Model.ValuesAtReferenceState g 0);
  qRhoMin := 0; qTMin := 0; qRhoMax := big; qPMin := 0; qPMaxT := fun _ => big; qRhoPmin := fun _ => 0;
  qAbar := fun _ _ _ => Stiff_Model.Abar g; qZbar := fun _ _ _ => Stiff_Model.Zbar g |}.

(** Vinet, eos_vinet.hpp; PreferredInput 164-165; MinimumDensity 135; MinInternalEnergyFromDensity is the EosBase default
    (energy at T = 0, eos_base.hpp:606-612); [de]: the EosBase root find (BaseDefaults_Model.v) *)
Definition vinet_EOS (ep : R -> R -> R -> R) (de : R -> R -> R * R -> R * R) (pd : R -> R -> R -> R -> ptd) (N : nat) (g : Vinet_Model.vinet) : EOS unit := {|
  qT_e := two (Vinet_Model.TemperatureFromDensityInternalEnergy N g); qE_T := two (Vinet_Model.InternalEnergyFromDensityTemperature N g);
  qP_T := two (Vinet_Model.PressureFromDensityTemperature N g); qP_e := two (Vinet_Model.PressureFromDensityInternalEnergy N g);
  qEmin := fun rho _ => Vinet_Model.InternalEnergyFromDensityTemperature N g rho 0;
  qS_T := two (Vinet_Model.EntropyFromDensityTemperature N g); qS_e := two (Vinet_Model.EntropyFromDensityInternalEnergy N g);
  qC_T := two (Vinet_Model.SpecificHeatFromDensityTemperature g); qC_e := two (Vinet_Model.SpecificHeatFromDensityInternalEnergy g);
  qB_T := two (Vinet_Model.BulkModulusFromDensityTemperature N g); qB_e := two (Vinet_Model.BulkModulusFromDensityInternalEnergy N g);
  qG_T := two (Vinet_Model.GruneisenParamFromDensityTemperature g); qG_e := two (Vinet_Model.GruneisenParamFromDensityInternalEnergy g);
  qE_P := fun rho P e _ => ep rho P e;
  qDE := fun P T _ x => de P T x;
  qPTD := fun rho e P T _ => pd rho e P T;
  qFill := fun o _ s => Vinet_Model.FillEos N g o s;
  qPref := mkF true true false false false false;
  qRef := fun _ => ref_of (Vinet_Model.ValuesAtReferenceState N g);
  qRhoMin := Vinet_Model.MinimumDensity g; qTMin := 0; qRhoMax := big; qPMin := 0; qPMaxT := fun _ => big; qRhoPmin := fun _ => 0;
  qAbar := fun _ _ _ => Vinet_Model.Abar g; qZbar := fun _ _ _ => Vinet_Model.Zbar g |}.
