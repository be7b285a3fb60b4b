(** What a caller of the C and Fortran constructors relies on: the EOS array after the call, and what a later pressure query of
    that material writes into the caller's arrays. The closed forms are those of Doc_Spec. *)
From Coq Require Import Reals ZArith List.
From Verif Require Import Arith Robust_Model Thermo_Tools Doc_Spec Vector_Model Vector_Spec Bindings_Model Bindings_Spec Init_Model.
Import ListNotations.
Local Open Scope R_scope.

(** models.rst:1920-1947 *)
Definition sap_P (rho0 a0 a1 a2c a2e a3 b0 b1 b2c b2e b3 rho e : R) : R :=
  let mu := rho / rho0 - 1 in
  let a2 := if Rle_dec 0 mu then a2c else a2e in let b2 := if Rle_dec 0 mu then b2c else b2e in
  a0 + a1 * mu + a2 * mu ^ 2 + a3 * mu ^ 3 + e * (b0 + b1 * mu + b2 * mu ^ 2 + b3 * mu ^ 3).

(** The modifier arrays: flag 0 asks for a scale (value 0), flag 1 for an energy shift (value 1), flag 2 for a bilinear ramp
    (values 2-5: r0, a, b, c). A shifted EOS is the same EOS with the energy counted from another zero, a scaled one has its
    density in other units at the same pressure; the ramp is a lower bound on the pressure. *)
Definition scale_of (e : nat -> Z) (v : nat -> R) : R := if (e 0%nat =? 1)%Z then v 0%nat else 1.
Definition shift_of (e : nat -> Z) (v : nat -> R) : R := if (e 1%nat =? 1)%Z then v 1%nat else 0.
Definition ramp_pressure (r0 a b c rho : R) : R :=
  if Rlt_dec rho r0 then 0 else if Rlt_dec rho (r0 * (a - b * c) / (a - b)) then a * (rho / r0 - 1) else b * (rho / r0 - c).
Definition modified (e : nat -> Z) (v : nat -> R) (P : R -> R -> R) (rho sie : R) : R :=
  let p := P (scale_of e v * rho) (sie / scale_of e v - shift_of e v) in
  if (e 2%nat =? 1)%Z then Rmax p (ramp_pressure (v 2%nat) (v 3%nat) (v 4%nat) (v 5%nat) rho) else p.
Definition within (e : nat -> Z) (v : nat -> R) (D : R -> R -> Prop) (rho sie : R) : Prop :=
  D (scale_of e v * rho) (sie / scale_of e v - shift_of e v) /\ (e 2%nat = 1%Z -> tiny <= v 2%nat).
(** absent optional arguments *)
Definition flags_given (e : option (nat -> Z)) : nat -> Z := match e with Some e => e | None => fun _ => 0%Z end.
Definition values_given (v : option (nat -> R)) : nat -> R := match v with Some v => v | None => fun _ => 0 end.

(** every material but m (counted from 1) is what it was *)
Definition only_slot (m : Z) (before after : list eos) : Prop :=
  length after = length before /\ forall m', (1 <= m')%Z -> m' <> m -> nth_error after (Z.to_nat (m' - 1)) = nth_error before (Z.to_nat (m' - 1)).
(** get_sg_PressureFromDensityInternalEnergy_f on any grid, without lambda arguments: every cell whose density and energy lie in D
    gets the pressure P, in any order of evaluation, and nothing but the pressures is written *)
Definition answers_fortran (l : list eos) (m : Z) (D : R -> R -> Prop) (P : R -> R -> R) : Prop :=
  forall rhos sies pressures n1 n2 n3 stride lam (m0 : mem R),
    let n := cells3 n1 n2 n3 in
    contiguous3 n1 n2 n3 rhos -> contiguous3 n1 n2 n3 sies -> contiguous3 n1 n2 n3 pressures ->
    apart (f_base rhos) n (f_base pressures) n -> apart (f_base sies) n (f_base pressures) n -> stride = None \/ lam = None ->
    exists k, get_sg_f (map as_ceos l) m rhos sies pressures n stride lam = Some (k, n) /\
      forall sched, complete k m0 n sched -> let mm := memo (prun k m0 sched) in
        (forall a b c, valid3 n1 n2 n3 a b c -> D (m0 (fa_at rhos a b c)) (m0 (fa_at sies a b c)) ->
           mm (fa_at pressures a b c) = P (m0 (fa_at rhos a b c)) (m0 (fa_at sies a b c))) /\
        (forall x, (forall a b c, valid3 n1 n2 n3 a b c -> x <> fa_at pressures a b c) -> mm x = m0 x).
(** the same from C: material m counted from 0, contiguous arrays at addresses p, q, r, no lambda *)
Definition answers_c (l : list eos) (m : Z) (D : R -> R -> Prop) (P : R -> R -> R) : Prop :=
  forall p q r n s d (m0 : mem R),
    (0 < p)%Z -> (p + 8 * Z.of_nat n <= 2 ^ 64)%Z -> (0 < q)%Z -> (q + 8 * Z.of_nat n <= 2 ^ 64)%Z -> (0 < r)%Z -> (r + 8 * Z.of_nat n <= 2 ^ 64)%Z ->
    apart p n r n -> apart q n r n -> (s = -1)%Z \/ d = 0%Z ->
    exists k, get_sg (map as_ceos l) m p q r n s d = Some (k, n) /\
      forall sched, complete k m0 n sched -> let mm := memo (prun k m0 sched) in
        forall i, (i < n)%nat -> let x := m0 (p + 8 * Z.of_nat i)%Z in let y := m0 (q + 8 * Z.of_nat i)%Z in
          D x y -> mm (r + 8 * Z.of_nat i)%Z = P x y.
(** the outcome of a successful constructor call for material m (counted from 1) *)
Definition built (m : Z) (before after : list eos) (e : nat -> Z) (v : nat -> R) (D : R -> R -> Prop) (P : R -> R -> R) : Prop :=
  only_slot m before after /\ answers_fortran after m (within e v D) (modified e v P) /\ answers_c after (m - 1) (within e v D) (modified e v P).

(** The temperature of the stored EOS in any state, related by Rel to density and energy as the material inside the modifiers sees
    them (a ramp does not change the temperature) *)
Definition thermometer (m : Z) (after : list eos) (e : nat -> Z) (v : nat -> R) (Rel : R -> R -> R -> Prop) : Prop :=
  exists s, nth_error after (Z.to_nat (m - 1)) = Some s /\
    forall rho sie, Rel (scale_of e v * rho) (sie / scale_of e v - shift_of e v) (TemperatureFromDensityInternalEnergy s rho sie).

(** The P-alpha flag (3): the call does what the same call with the bilinear ramp flag and computed ramp values does. The values are
    computed by [palpha] from the EOS the call without any ramp would have stored and the three P-alpha values (2-4). *)
Definition with_ramp (e : nat -> Z) : nat -> Z := fun i => match i with 2%nat => 1%Z | 3%nat => 0%Z | _ => e i end.
Definition without_ramp (e : nat -> Z) : nat -> Z := fun i => match i with 2%nat => 0%Z | 3%nat => 0%Z | _ => e i end.
Definition palpha_is_ramp (palpha : eos -> R -> R -> R -> R * R * R * R) (m : Z) (call : (nat -> Z) -> (nat -> R) -> option (Z * list eos)) : Prop :=
  forall e v err l', e 3%nat = 1%Z -> call e v = Some (err, l') ->
  exists l0 s vr, call (without_ramp e) v = Some (err, l0) /\ nth_error l0 (Z.to_nat (m - 1)) = Some s /\
    vr 0%nat = v 0%nat /\ vr 1%nat = v 1%nat /\ palpha s (v 2%nat) (v 3%nat) (v 4%nat) = (vr 2%nat, vr 3%nat, vr 4%nat, vr 5%nat) /\
    call (with_ramp e) vr = Some (err, l').
