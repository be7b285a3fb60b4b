(** What a caller relies on when it asks an EOS stored by a C or Fortran constructor for its bulk modulus: it is the isentropic bulk
    modulus of that very EOS's pressure (Thermo_Spec), in the caller's units of density and zero of energy. *)
From Coq Require Import Reals ZArith List.
From Verif Require Import Arith Robust_Model Thermo_Tools Thermo_Spec Vector_Model Vector_Spec Bindings_Model Bindings_Spec Init_Model Init_Spec Init_Bulk_Model.
Local Open Scope R_scope.

(** the ramp, if there is one, is well-formed (r0 is not beyond the density where its two lines meet) and lies below the pressure *)
Definition ramp_idle (e : nat -> Z) (v : nat -> R) (P : R -> R -> R) (rho sie : R) : Prop :=
  e 2%nat = 1%Z -> tiny <= v 2%nat /\ v 2%nat <= v 2%nat * (v 3%nat - v 4%nat * v 5%nat) / (v 3%nat - v 4%nat) /\
    ramp_pressure (v 2%nat) (v 3%nat) (v 4%nat) (v 5%nat) rho < P rho sie.
(** D says which densities and energies, as the material inside the modifiers sees them; both results must be above the floor *)
Definition isentropic_modulus (m : Z) (after : list eos) (e : nat -> Z) (v : nat -> R) (D : R -> R -> Prop) : Prop :=
  exists s, nth_error after (Z.to_nat (m - 1)) = Some s /\
    forall rho sie, 0 < scale_of e v * rho -> D (scale_of e v * rho) (sie / scale_of e v - shift_of e v) ->
      ramp_idle e v (PressureFromDensityInternalEnergy s) rho sie ->
      SMALL < PressureFromDensityInternalEnergy s rho sie -> SMALL < BulkModulusFromDensityInternalEnergy s rho sie ->
      is_bulk_modulus (PressureFromDensityInternalEnergy s) rho sie (BulkModulusFromDensityInternalEnergy s rho sie).

(** a bulk modulus call from Fortran (material m counted from 1) on any grid, without lambda arguments: every cell gets the modulus of
    the EOS s, in any order of evaluation, and nothing but the moduli is written *)
Definition answers_bulk_fortran (l : list eos) (m : Z) (s : eos) : Prop :=
  forall rhos sies bmods n1 n2 n3 stride lam (m0 : mem R),
    let n := cells3 n1 n2 n3 in
    contiguous3 n1 n2 n3 rhos -> contiguous3 n1 n2 n3 sies -> contiguous3 n1 n2 n3 bmods ->
    apart (f_base rhos) n (f_base bmods) n -> apart (f_base sies) n (f_base bmods) n -> stride = None \/ lam = None ->
    exists k, get_sg_f (map as_ceos_bulk l) m rhos sies bmods n stride lam = Some (k, n) /\
      forall sched, complete k m0 n sched -> let mm := memo (prun k m0 sched) in
        (forall a b c, valid3 n1 n2 n3 a b c ->
           mm (fa_at bmods a b c) = BulkModulusFromDensityInternalEnergy s (m0 (fa_at rhos a b c)) (m0 (fa_at sies a b c))) /\
        (forall x, (forall a b c, valid3 n1 n2 n3 a b c -> x <> fa_at bmods a b c) -> mm x = m0 x).
