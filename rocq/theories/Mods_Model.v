(** Model of the EOS modifiers' scalar API: ShiftedEOS, ScaledEOS, UnitSystem, FlooredEnergy, RelativisticEOS, ZSplit and
    BilinearRampEOS (singularity-eos/eos/modifiers/).  A modifier is a function from the record of the wrapped class's scalar
    methods to the record of its own.
    Simplifications: real arithmetic (robust::ratio as in Robust_Model); the lambda is an abstract value passed through
    unchanged, [null] being the default argument; PORTABLE_ALWAYS_REQUIRE failures are the [check] functions; the vector
    overloads are modelled in Vector_Model.v. *)
From Coq Require Import Reals Bool List.
From Flocq Require Import Core.
From Verif Require Import Robust_Model Thermo_Spec Mods_Spec RootFinding_Model Arith.
Import ListNotations.
Local Open Scope R_scope.

Section Mods.
Context {L : Type}.
Variable null : L.

(** t_.PreferredInput() == (density | temperature), (density | specific_internal_energy): constants.hpp:22-29 *)
Definition flags_eqb (a b : flags) : bool :=
  Bool.eqb (f_rho a) (f_rho b) && Bool.eqb (f_temp a) (f_temp b) && Bool.eqb (f_sie a) (f_sie b) &&
  Bool.eqb (f_press a) (f_press b) && Bool.eqb (f_cv a) (f_cv b) && Bool.eqb (f_bmod a) (f_bmod b).
Definition pref_rhoT : flags := mkF true true false false false false.
Definition pref_rhoE : flags := mkF true false true false false false.

(** ** ShiftedEOS, shifted_eos.hpp:40-428 *)
(** FillEos, shifted_eos.hpp:151-167: in the (density, temperature) case the inner call works on the caller's energy and the
    shift is added afterwards whatever was requested; in the (density, energy) case the inner call works on a local copy
    that is never copied back; any other PreferredInput is EOS_ERROR *)
Definition shifted_Fill (t : EOS L) (shift : R) (o : flags) (l : L) (s : fstate) : option fstate :=
  if flags_eqb (qPref t) pref_rhoT then
    match qFill t o l s with Some s' => Some (upd_sie s' (s_sie s' + shift)) | None => None end
  else if flags_eqb (qPref t) pref_rhoE then
    match qFill t o l (upd_sie s (s_sie s - shift)) with Some s' => Some (upd_sie s' (s_sie s)) | None => None end
  else None.
Definition Shifted (shift : R) (t : EOS L) : EOS L := {|
  (** 67-70 *) qT_e := fun rho sie l => qT_e t rho (sie - shift) l;
  (** 72-76 *) qE_T := fun rho T l => qE_T t rho T l + shift;
  (** 108-111 *) qP_T := fun rho T l => qP_T t rho T l;
  (** 78-81 *) qP_e := fun rho sie l => qP_e t rho (sie - shift) l;
  (** 84-86 *) qEmin := fun rho l => qEmin t rho l + shift;
  (** 113-116 *) qS_T := fun rho T l => qS_T t rho T l;
  (** 88-91 *) qS_e := fun rho sie l => qS_e t rho (sie - shift) l;
  (** 118-121 *) qC_T := fun rho T l => qC_T t rho T l;
  (** 93-96 *) qC_e := fun rho sie l => qC_e t rho (sie - shift) l;
  (** 123-126 *) qB_T := fun rho T l => qB_T t rho T l;
  (** 98-101 *) qB_e := fun rho sie l => qB_e t rho (sie - shift) l;
  (** 128-131 *) qG_T := fun rho T l => qG_T t rho T l;
  (** 103-106 *) qG_e := fun rho sie l => qG_e t rho (sie - shift) l;
  (** 134-139 *) qE_P := fun rho P sie l => qE_P t rho P (sie - shift) l + shift;
  (** 399-403 *) qDE := fun P T l g => let (rho, sie) := qDE t P T l g in (rho, sie + shift);
  (** 143-148 *) qPTD := fun rho sie P T l => qPTD t rho (sie - shift) P T l;
  qFill := shifted_Fill t shift;
  qPref := qPref t;
  (** 406-412 *) qRef := fun l => let r := qRef t l in
    mkRef (r_rho r) (r_temp r) (r_sie r + shift) (r_press r) (r_cv r) (r_bmod r) (r_dpde r) (r_dvdt r);
  (** SG_ADD_MODIFIER_INTROSPECTION_METHODS, eos_base.hpp:134-152 *)
  qRhoMin := qRhoMin t; qTMin := qTMin t; qRhoMax := qRhoMax t; qPMin := qPMin t; qPMaxT := qPMaxT t; qRhoPmin := qRhoPmin t;
  (** 415-419 *) qAbar := qAbar t; qZbar := qZbar t |}.

(** ** ScaledEOS, scaled_eos.hpp:40-297 *)
(** CheckParams 59-66: scale <> 0 and 1/scale <> 0 (a negative scale is accepted) *)
Definition Scaled_check (scale : R) : bool := negb (Req_bool scale 0) && negb (Req_bool (1 / scale) 0).
(** FillEos, 162-180: the scaled density (and, in the (density, energy) case, the scaled energy) are local copies, never
    copied back; in the (density, temperature) case the caller's energy is multiplied by the scale whatever was requested *)
Definition scaled_Fill (t : EOS L) (scale : R) (o : flags) (l : L) (s : fstate) : option fstate :=
  if flags_eqb (qPref t) pref_rhoT then
    match qFill t o l (upd_rho s (scale * s_rho s)) with
    | Some s' => Some (upd_sie (upd_rho s' (s_rho s)) (scale * s_sie s'))
    | None => None end
  else if flags_eqb (qPref t) pref_rhoE then
    match qFill t o l (upd_sie (upd_rho s (scale * s_rho s)) (1 / scale * s_sie s)) with
    | Some s' => Some (upd_sie (upd_rho s' (s_rho s)) (s_sie s))
    | None => None end
  else None.
Definition Scaled (scale : R) (t : EOS L) : EOS L := {|
  (** 71-75 *) qT_e := fun rho sie l => qT_e t (scale * rho) (1 / scale * sie) l;
  (** 77-81 *) qE_T := fun rho T l => scale * qE_T t rho T l;
  (** 117-120 *) qP_T := fun rho T l => qP_T t (scale * rho) T l;
  (** 83-86 *) qP_e := fun rho sie l => qP_e t (scale * rho) (1 / scale * sie) l;
  (** 89-91 *) qEmin := fun rho l => qEmin t (scale * rho) l;
  (** 122-125 *) qS_T := fun rho T l => scale * qS_T t (scale * rho) T l;
  (** 93-97 *) qS_e := fun rho sie l => scale * qS_e t (scale * rho) (1 / scale * sie) l;
  (** 127-130 *) qC_T := fun rho T l => qC_T t (scale * rho) T l;
  (** 99-103 *) qC_e := fun rho sie l => qC_e t (scale * rho) (1 / scale * sie) l;
  (** 132-135 *) qB_T := fun rho T l => qB_T t (scale * rho) T l;
  (** 105-109 *) qB_e := fun rho sie l => qB_e t (scale * rho) (1 / scale * sie) l;
  (** 137-140 *) qG_T := fun rho T l => qG_T t (scale * rho) T l;
  (** 111-115 *) qG_e := fun rho sie l => qG_e t (scale * rho) (1 / scale * sie) l;
  (** 143-146 *) qE_P := fun rho P sie l => qE_P t (scale * rho) P sie l;
  (** 246-251 *) qDE := fun P T l g => let (rho, sie) := qDE t P T l g in (rho * (1 / scale), sie * scale);
  (** 150-159 *) qPTD := fun rho sie P T l => let d := qPTD t (scale * rho) (1 / scale * sie) P T l in
    mkPtd (d_edP d * scale) (d_rdP d * (1 / scale)) (d_edT d * scale) (d_rdT d * (1 / scale));
  qFill := scaled_Fill t scale;
  qPref := qPref t;
  (** 183-190 *) qRef := fun l => let r := qRef t l in
    mkRef (r_rho r * (1 / scale)) (r_temp r) (r_sie r * scale) (r_press r) (r_cv r) (r_bmod r) (r_dpde r) (r_dvdt r);
  (** 253-269 *)
  qRhoMin := 1 / scale * qRhoMin t; qTMin := qTMin t; qRhoMax := 1 / scale * qRhoMax t; qPMin := qPMin t; qPMaxT := qPMaxT t;
  qRhoPmin := fun T => 1 / scale * qRhoPmin t T;
  (** 277-282 *) qAbar := fun rho T l => 1 / scale * qAbar t (scale * rho) T l; qZbar := fun rho T l => qZbar t (scale * rho) T l |}.

(** ** UnitSystem, eos_unitsystem.hpp:48-392 *)
Record units := mkUnits { u_rho : R; u_sie : R; u_temp : R }.
(** constructors 62-93: thermal units, or length/time units *)
Definition thermal_units (rho_unit sie_unit temp_unit : R) : units := mkUnits rho_unit sie_unit temp_unit.
Definition length_time_units (time_unit mass_unit length_unit temp_unit : R) : units :=
  thermal_units ((length_unit * length_unit * length_unit) / mass_unit) ((time_unit * time_unit) / (length_unit * length_unit)) temp_unit.
(** CheckParams 96-101 *)
Definition Units_check (u : units) : bool := Rlt_bool 0 (u_rho u) && Rlt_bool 0 (u_sie u) && Rlt_bool 0 (u_temp u).
(** derived units and inverses, initialised at 64-78 *)
Definition u_press u := u_rho u * u_sie u.
Definition u_entropy u := u_sie u / u_temp u.
Definition inv_rho u := 1 / u_rho u.
Definition inv_sie u := 1 / u_sie u.
Definition inv_temp u := 1 / u_temp u.
Definition inv_press u := 1 / u_press u.
Definition inv_entropy u := 1 / u_entropy u.
Definition inv_dpde u := u_sie u / u_press u.
Definition inv_dvdt u := u_rho u * u_temp u.
Definition u_cv u := u_sie u / u_temp u.
Definition u_bmod u := u_press u.
Definition inv_cv u := u_temp u / u_sie u.
Definition inv_bmod u := 1 / u_press u.
(** FillEos 236-256 *)
Definition units_Fill (t : EOS L) (u : units) (o : flags) (l : L) (s : fstate) : option fstate :=
  match qFill t o l (mkS (s_rho s * u_rho u) (s_temp s * u_temp u) (s_sie s * u_sie u) (s_press s * u_press u)
                         (s_cv s * u_cv u) (s_bmod s * u_bmod u)) with
  | Some s' => Some (mkS (s_rho s' * inv_rho u) (s_temp s' * inv_temp u) (s_sie s' * inv_sie u) (s_press s' * inv_press u)
                         (s_cv s' * inv_cv u) (s_bmod s' * inv_bmod u))
  | None => None end.
Definition Units (u : units) (t : EOS L) : EOS L := {|
  (** 110-115 *) qT_e := fun rho sie l => inv_temp u * qT_e t (rho * u_rho u) (sie * u_sie u) l;
  (** 117-122 *) qE_T := fun rho T l => inv_sie u * qE_T t (rho * u_rho u) (T * u_temp u) l;
  (** 165-170 *) qP_T := fun rho T l => inv_press u * qP_T t (rho * u_rho u) (T * u_temp u) l;
  (** 124-129 *) qP_e := fun rho sie l => inv_press u * qP_e t (rho * u_rho u) (sie * u_sie u) l;
  (** 132-135 *) qEmin := fun rho l => inv_sie u * qEmin t (rho * u_rho u) l;
  (** 172-177 *) qS_T := fun rho T l => inv_entropy u * qS_T t (rho * u_rho u) (T * u_temp u) l;
  (** 137-142 *) qS_e := fun rho sie l => inv_entropy u * qS_e t (rho * u_rho u) (sie * u_sie u) l;
  (** 179-184 *) qC_T := fun rho T l => inv_cv u * qC_T t (rho * u_rho u) (T * u_temp u) l;
  (** 144-149 *) qC_e := fun rho sie l => inv_cv u * qC_e t (rho * u_rho u) (sie * u_sie u) l;
  (** 186-191 *) qB_T := fun rho T l => inv_bmod u * qB_T t (rho * u_rho u) (T * u_temp u) l;
  (** 151-156 *) qB_e := fun rho sie l => inv_bmod u * qB_e t (rho * u_rho u) (sie * u_sie u) l;
  (** 193-198 *) qG_T := fun rho T l => qG_T t (rho * u_rho u) (T * u_temp u) l;
  (** 158-163 *) qG_e := fun rho sie l => qG_e t (rho * u_rho u) (sie * u_sie u) l;
  (** 201-206 *) qE_P := fun rho P sie l => qE_P t (u_rho u * rho) (u_press u * P) (sie * u_sie u) l * inv_sie u;
  (** 210-218 *) qDE := fun P T l g => let (rho, sie) := qDE t (P * u_press u) (T * u_temp u) l (fst g * u_rho u, snd g * u_sie u) in
    (rho * inv_rho u, sie * inv_sie u);
  (** 222-233 *) qPTD := fun rho sie P T l => let d := qPTD t (rho * u_rho u) (sie * u_sie u) (P * u_press u) (T * u_temp u) l in
    mkPtd (d_edP d * ratio (u_press u) (u_sie u)) (d_rdP d * ratio (u_press u) (u_rho u))
          (d_edT d * ratio (u_temp u) (u_sie u)) (d_rdT d * ratio (u_temp u) (u_rho u));
  qFill := units_Fill t u;
  qPref := qPref t;
  (** 259-272 *) qRef := fun l => let r := qRef t l in
    mkRef (r_rho r * inv_rho u) (r_temp r * inv_temp u) (r_sie r * inv_sie u) (r_press r * inv_press u) (r_cv r * inv_cv u)
          (r_bmod r * inv_bmod u) (r_dpde r * inv_dpde u) (r_dvdt r * inv_dvdt u);
  (** 274-292 *)
  qRhoMin := inv_rho u * qRhoMin t; qTMin := inv_temp u * qTMin t; qRhoMax := inv_rho u * qRhoMax t;
  qPMin := inv_press u * qPMin t; qPMaxT := fun T => inv_press u * qPMaxT t (u_temp u * T);
  qRhoPmin := fun T => inv_rho u * qRhoPmin t (T * u_temp u);
  (** 295-300 *) qAbar := fun rho T l => qAbar t (rho * u_rho u) (T * u_temp u) l; qZbar := fun rho T l => qZbar t (rho * u_rho u) (T * u_temp u) l |}.

(** ** FlooredEnergy, floored_energy.hpp:34-408 *)
(** the floor, e.g. floored_energy.hpp:56: t_.MinInternalEnergyFromDensity(rho), called without the lambda *)
Definition floor_e (t : EOS L) (rho : R) : R := qEmin t rho null.
(** FillEos 144-153: when energy is an input the code passes std::max(energy, min_sie), a const reference, for the Real&
    parameter of the wrapped FillEos: that branch does not compile, so an instantiated FillEos does not exist. [None]. *)
Definition Floored (t : EOS L) : EOS L := {|
  (** 55-59 *) qT_e := fun rho sie l => qT_e t rho (Rmax sie (floor_e t rho)) l;
  (** 61-64 *) qE_T := fun rho T l => qE_T t rho T l;
  (** 102-105 *) qP_T := fun rho T l => qP_T t rho T l;
  (** 66-70 *) qP_e := fun rho sie l => qP_e t rho (Rmax sie (floor_e t rho)) l;
  (** 73-75 *) qEmin := fun rho l => qEmin t rho l;
  (** 107-110 *) qS_T := fun rho T l => qS_T t rho T l;
  (** 77-81 *) qS_e := fun rho sie l => qS_e t rho (Rmax sie (floor_e t rho)) l;
  (** 112-115 *) qC_T := fun rho T l => qC_T t rho T l;
  (** 83-87 *) qC_e := fun rho sie l => qC_e t rho (Rmax sie (floor_e t rho)) l;
  (** 117-120 *) qB_T := fun rho T l => qB_T t rho T l;
  (** 89-93 *) qB_e := fun rho sie l => qB_e t rho (Rmax sie (floor_e t rho)) l;
  (** 122-125 *) qG_T := fun rho T l => qG_T t rho T l;
  (** 95-100 *) qG_e := fun rho sie l => qG_e t rho (Rmax sie (floor_e t rho)) l;
  (** 128-131 *) qE_P := fun rho P sie l => qE_P t rho P sie l;
  (** 385-388 *) qDE := fun P T l g => qDE t P T l g;
  (** 135-141 *) qPTD := fun rho sie P T l => qPTD t rho (Rmax sie (floor_e t rho)) P T l;
  qFill := fun _ _ _ => None;
  qPref := qPref t;
  (** 391-396 *) qRef := fun l => qRef t l;
  qRhoMin := qRhoMin t; qTMin := qTMin t; qRhoMax := qRhoMax t; qPMin := qPMin t; qPMaxT := qPMaxT t; qRhoPmin := qRhoPmin t;
  qAbar := qAbar t; qZbar := qZbar t |}.

(** ** RelativisticEOS, relativistic_eos.hpp:36-215 *)
(** CheckParams 59-65 *)
Definition Relativistic_check (cl : R) : bool := Rlt_bool 0 cl && Rlt_bool 0 (cl * cl).
(** relativistic_eos.hpp:101-107, 129-136 *)
Definition rel_bmod (cl rho sie P bmod : R) : R := Rmax 0 (ratio bmod (Rabs (cl * cl + sie + ratio P rho))).
Definition Relativistic (cl : R) (t : EOS L) : EOS L := {|
  (** 71-74 *) qT_e := qT_e t; (** 76-79 *) qE_T := qE_T t; (** 114-117 *) qP_T := qP_T t; (** 81-84 *) qP_e := qP_e t;
  (** 87-89 *) qEmin := qEmin t; (** 119-122 *) qS_T := qS_T t; (** 91-94 *) qS_e := qS_e t;
  (** 124-127 *) qC_T := qC_T t; (** 96-99 *) qC_e := qC_e t;
  (** 129-136 *) qB_T := fun rho T l => rel_bmod cl rho (qE_T t rho T l) (qP_T t rho T l) (qB_T t rho T l);
  (** 101-107 *) qB_e := fun rho sie l => rel_bmod cl rho sie (qP_e t rho sie l) (qB_e t rho sie l);
  (** 138-141 *) qG_T := qG_T t; (** 109-112 *) qG_e := qG_e t; (** 144-147 *) qE_P := qE_P t;
  (** 182-185 *) qDE := qDE t; (** 150-155 *) qPTD := qPTD t;
  (** 157-161 *) qFill := qFill t;
  qPref := qPref t; (** 188-193 *) qRef := qRef t;
  qRhoMin := qRhoMin t; qTMin := qTMin t; qRhoMax := qRhoMax t; qPMin := qPMin t; qPMaxT := qPMaxT t; qRhoPmin := qRhoPmin t;
  qAbar := qAbar t; qZbar := qZbar t |}.

(** ** ZSplit, zsplit_eos.hpp:34-311 *)
Inductive zcomp := Electrons | Ions.
(** GetScale_, GetInvScale_ 294-310; [Zion l] is the mean ionisation state found in the lambda, clipped at 0 (287-291) *)
Definition zscale (c : zcomp) (Z : R) : R := match c with Electrons => ratio Z (Z + 1) | Ions => ratio 1 (Z + 1) end.
Definition ziscale (c : zcomp) (Z : R) : R := match c with Electrons => ratio (Z + 1) Z | Ions => Z + 1 end.
Variable ion : L -> R.   (* IndexerUtils::SafeMustGet<MeanIonizationState>(lambda, T::nlambda()) *)
Definition Zion (l : L) : R := Rmax 0 (ion l).
Definition ZSplit (c : zcomp) (t : EOS L) : EOS L := {|
  (** 62-66 *) qT_e := fun rho sie l => qT_e t rho (sie * ziscale c (Zion l)) l;
  (** 68-73 *) qE_T := fun rho T l => zscale c (Zion l) * qE_T t rho T l;
  (** 76-81 *) qP_T := fun rho T l => zscale c (Zion l) * qP_T t rho T l;
  (** 83-90 *) qP_e := fun rho sie l => zscale c (Zion l) * qP_e t rho (ziscale c (Zion l) * sie) l;
  (** 94-98 *) qEmin := fun rho l => zscale c (Zion l) * qEmin t rho l;
  (** 101-105 *) qS_T := fun rho T l => zscale c (Zion l) * qS_T t rho T l;
  (** 107-112 *) qS_e := fun rho sie l => zscale c (Zion l) * qS_e t rho (ziscale c (Zion l) * sie) l;
  (** 120-125 *) qC_T := fun rho T l => zscale c (Zion l) * qC_T t rho T l;
  (** 127-133 *) qC_e := fun rho sie l => zscale c (Zion l) * qC_e t rho (ziscale c (Zion l) * sie) l;
  (** 142-147 *) qB_T := fun rho T l => zscale c (Zion l) * qB_T t rho T l;
  (** 149-155 *) qB_e := fun rho sie l => zscale c (Zion l) * qB_e t rho (ziscale c (Zion l) * sie) l;
  (** 158-163 *) qG_T := fun rho T l => qG_T t rho T l;
  (** 165-170 *) qG_e := fun rho sie l => qG_e t rho (ziscale c (Zion l) * sie) l;
  (** 174-181 *) qE_P := fun rho P sie l => qE_P t rho P (sie * ziscale c (Zion l)) l * zscale c (Zion l);
  (** 245-251 *) qDE := fun P T l g => let (rho, sie) := qDE t (ziscale c (Zion l) * P) T l g in (rho, sie * zscale c (Zion l));
  (** 185-196 *) qPTD := fun rho sie P T l => let d := qPTD t rho (sie * ziscale c (Zion l)) (P * ziscale c (Zion l)) T l in
    mkPtd (d_edP d) (d_rdP d * ziscale c (Zion l)) (d_edT d * zscale c (Zion l)) (d_rdT d);
  (** 200-227: the inner call passes seven arguments, omitting bmod: [output] would have to bind to Real &bmod, so an
      instantiated FillEos does not compile. [None]. *)
  qFill := fun _ _ _ => None;
  qPref := qPref t;
  (** 230-241: the lambda is not passed to the wrapped ValuesAtReferenceState *)
  qRef := fun l => let r := qRef t null in
    mkRef (r_rho r) (r_temp r) (r_sie r * zscale c (Zion l)) (r_press r * zscale c (Zion l)) (r_cv r * zscale c (Zion l))
          (r_bmod r * zscale c (Zion l)) (r_dpde r) (r_dvdt r);
  (** SG_ADD_MODIFIER_INTROSPECTION_METHODS, eos_base.hpp:134-152 *)
  qRhoMin := qRhoMin t; qTMin := qTMin t; qRhoMax := qRhoMax t; qPMin := qPMin t; qPMaxT := qPMaxT t; qRhoPmin := qRhoPmin t;
  qAbar := qAbar t; qZbar := qZbar t |}.

(** ** BilinearRampEOS, ramps_eos.hpp:81-546 *)
Record ramp := mkRamp { p_r0 : R; p_a : R; p_b : R; p_c : R; p_rmid : R; p_Pmid : R }.
(** constructor 86-91 *)
Definition ramp_ctor (r0 a b c : R) : ramp :=
  let rmid := r0 * (a - b * c) / (a - b) in mkRamp r0 a b c rmid (a * (rmid / r0 - 1)).
(** CheckParams 96-104 (the isnan tests cannot fail for real numbers) *)
Definition ramp_check (p : ramp) : bool :=
  Rlt_bool 0 (p_r0 p) && Rlt_bool 0 (p_a p) && Rle_bool 0 (p_b p) && negb (Req_bool (p_a p) (p_b p)).
(** get_ramp_pressure 117-123 *)
Definition get_ramp_pressure (p : ramp) (rho : R) : R :=
  let r_r0 := ratio rho (p_r0 p) in
  if Rlt_bool rho (p_r0 p) then 0
  else if Rlt_bool rho (p_rmid p) then p_a p * (r_r0 - 1) else p_b p * (r_r0 - p_c p).
(** get_ramp_density 126-130 *)
Definition get_ramp_density (p : ramp) (P : R) : R :=
  if Rlt_bool P (p_Pmid p) then p_r0 p * (ratio P (p_a p) + 1) else p_r0 p * (ratio P (p_b p) + p_c p).
(** get_ramp_dpdrho 133-136 *)
Definition get_ramp_dpdrho (p : ramp) (rho : R) : R :=
  if Rlt_bool rho (p_rmid p) then ratio (p_a p) (p_r0 p) else ratio (p_b p) (p_r0 p).
(** ramps_eos.hpp:149-157, 188-193 *)
Definition ramp_P (p : ramp) (rho p_eos : R) : R :=
  let p_ramp := get_ramp_pressure p rho in if Rlt_bool p_eos p_ramp then p_ramp else p_eos.
(** ramps_eos.hpp:174-181, 205-212 *)
Definition ramp_B (p : ramp) (rho p_eos b_eos : R) : R :=
  let p_ramp := get_ramp_pressure p rho in if Rlt_bool p_eos p_ramp then rho * get_ramp_dpdrho p rho else b_eos.
(** FillEos 223-250 *)
Definition ramp_Fill (t : EOS L) (p : ramp) (o : flags) (l : L) (s : fstate) : option fstate :=
  let ramp_out := mkF (f_rho o) (f_temp o) (f_sie o) false (f_cv o) (f_bmod o) in
  let s1 := if f_press o then
              if negb (f_sie o) then upd_press s (ramp_P p (s_rho s) (qP_e t (s_rho s) (s_sie s) l))
              else if negb (f_temp o) then upd_press s (ramp_P p (s_rho s) (qP_T t (s_rho s) (s_temp s) l))
              else s
            else s in
  match qFill t ramp_out l s1 with
  | None => None
  | Some s2 =>
      let rho_ramp := if f_rho o then get_ramp_density p (s_press s2) else s_rho s2 in
      let rho' := if Rlt_bool rho_ramp (s_rho s2) then rho_ramp else s_rho s2 in
      let s3 := upd_rho s2 rho' in
      Some (upd_bmod s3 (ramp_B p (s_rho s3) (qP_e t (s_rho s3) (s_sie s3) l) (qB_e t (s_rho s3) (s_sie s3) l)))
  end.
(** [ep_base], [ptd_base]: InternalEnergyFromDensityPressure and PTDerivativesFromPreferred are inherited from EosBase
    (ramps_eos.hpp:223), a root find and a finite-difference approximation modelled in BaseDefaults_Model.v; left abstract here *)
Definition Ramp (p : ramp) (ep_base : R -> R -> R -> L -> R) (ptd_base : R -> R -> R -> R -> L -> ptd) (t : EOS L) : EOS L := {|
  (** 139-142 *) qT_e := qT_e t; (** 144-147 *) qE_T := qE_T t;
  (** 188-193 *) qP_T := fun rho T l => ramp_P p rho (qP_T t rho T l);
  (** 149-157 *) qP_e := fun rho sie l => ramp_P p rho (qP_e t rho sie l);
  (** 160-162 *) qEmin := qEmin t; (** 195-198 *) qS_T := qS_T t; (** 164-167 *) qS_e := qS_e t;
  (** 200-203 *) qC_T := qC_T t; (** 169-172 *) qC_e := qC_e t;
  (** 205-212 *) qB_T := fun rho T l => ramp_B p rho (qP_T t rho T l) (qB_T t rho T l);
  (** 174-181 *) qB_e := fun rho sie l => ramp_B p rho (qP_e t rho sie l) (qB_e t rho sie l);
  (** 214-218 *) qG_T := qG_T t; (** 183-186 *) qG_e := qG_e t;
  qE_P := ep_base;
  (** 522-525 *) qDE := qDE t;
  qPTD := ptd_base;
  qFill := ramp_Fill t p;
  qPref := qPref t;
  (** 528-533 *) qRef := qRef t;
  (** 252-270 *)
  qRhoMin := qRhoMin t; qTMin := qTMin t; qRhoMax := qRhoMax t; qPMin := qPMin t; qPMaxT := qPMaxT t; qRhoPmin := qRhoPmin t;
  qAbar := qAbar t; qZbar := qZbar t |}.
(** pAlpha2BilinearRampParams 44-77, the arithmetic after the two root finds: rmid and r1 are what findRoot returned *)
Definition palpha_r0 (rho0 alpha0 : R) : R := ratio rho0 alpha0.
Definition palpha_abc (r0 rmid r1 Pe Pc : R) : R * R * R :=
  (ratio (r0 * Pe) (rmid - r0), ratio (r0 * (Pc - Pe)) (r1 - rmid), ratio (Pc * rmid - Pe * r1) (r0 * (Pc - Pe))).
End Mods.
