(** Model of the bulk modulus query of an EOS stored by the C and Fortran constructors (Init_Model): the query of the class inside the
    modifiers, reached through Variant::BulkModulusFromDensityInternalEnergy (eos/eos_variant.hpp) from
    get_sg_BulkModulusFromDensityInternalEnergy (eos/singularity_eos.cpp:416-426). Reals are exact, as in Init_Model. *)
From Coq Require Import Reals.
From Verif Require Import Vector_Model Bindings_Model Init_Model.
From Verif Require Ideal_Model Stiff_Model NobleAbel_Model Carnahan_Model JWL_Model Gruneisen_Model DavisProducts_Model DavisReactants_Model
  SAP_Model Mods_Model.
Local Open Scope R_scope.

(** the class's own query, cited in the class models *)
Definition material_bulk (m : material) : R -> R -> R :=
  match m with
  | IdealGas g => Ideal_Model.BulkModulusFromDensityInternalEnergy g | Gruneisen g => Gruneisen_Model.BulkModulusFromDensityInternalEnergy g
  | JWL g => JWL_Model.BulkModulusFromDensityInternalEnergy g | DavisProducts g => DavisProducts_Model.BulkModulusFromDensityInternalEnergy g
  | DavisReactants g => DavisReactants_Model.BulkModulusFromDensityInternalEnergy g | SAP_Polynomial g => SAP_Model.BulkModulusFromDensityInternalEnergy g
  | StiffGas g => Stiff_Model.BulkModulusFromDensityInternalEnergy g | NobleAbel g => NobleAbel_Model.BulkModulusFromDensityInternalEnergy g
  | CarnahanStarling g => Carnahan_Model.BulkModulusFromDensityInternalEnergy g
  end.
(** shifted_eos.hpp:98-101, scaled_eos.hpp:105-109, ramps_eos.hpp:174-181 *)
Fixpoint BulkModulusFromDensityInternalEnergy (e : eos) (rho sie : R) : R :=
  match e with
  | Plain m => material_bulk m rho sie
  | Shifted t shift => BulkModulusFromDensityInternalEnergy t rho (sie - shift)
  | Scaled t scale => BulkModulusFromDensityInternalEnergy t (scale * rho) (1 / scale * sie)
  | BilinearRamp t p => Mods_Model.ramp_B p rho (PressureFromDensityInternalEnergy t rho sie) (BulkModulusFromDensityInternalEnergy t rho sie)
  end.
(** the EOS as get_sg_BulkModulusFromDensityInternalEnergy(_f) sees it (singularity_eos.cpp:416-428, singularity_eos.f90:800-816;
    Bindings_Model.get_sg and get_sg_f: the bodies differ from the pressure query's in the name of the method only); none of these classes uses lambda *)
Definition as_ceos_bulk (e : eos) : @ceos R := mkCE (fun rho sie lam => (BulkModulusFromDensityInternalEnergy e rho sie, lam)) 0.
