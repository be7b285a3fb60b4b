(** Model of the string-keyed scratch sizes every EOS class reports: scratch_size(method, nelements) and max_scratch_size(nelements)
    (eos_base.hpp, eos_davis.hpp, eos_eospac.hpp and the modifiers). size_t and unsigned long have 64 bits, unsigned int has 32;
    sizeof(Real) is 8. *)
From Coq Require Import ZArith List Bool Ascii String.
Import ListNotations.
Open Scope string_scope.
Open Scope Z_scope.

Definition wrap (x : Z) : Z := x mod 2 ^ 64.
Definition size (s : string) : Z := Z.of_nat (String.length s).
Definition npos : Z := 2 ^ 64 - 1.
(** std::string::rfind(needle): the largest position at which needle stands in s *)
Fixpoint rfind_nat (needle s : string) : option nat :=
  match s with
  | EmptyString => if prefix needle s then Some O else None
  | String _ r => match rfind_nat needle r with Some n => Some (S n) | None => if prefix needle s then Some O else None end
  end.
Definition rfind (s needle : string) : Z := match rfind_nat needle s with Some n => Z.of_nat n | None => npos end.
Definition sizeof_Real : Z := 8.
(** sizeof of a char array initialised from a literal: the terminator counts *)
Definition sizeof_literal (s : string) : Z := size s + 1.

(** shifted_eos.hpp:375-376, floored_energy.hpp:363-364 *)
Definition suffix : string := "FromDensityInternalEnergy".
Definition has_suffix (method : string) : bool := rfind method suffix =? wrap (size method - sizeof_literal suffix + 1).
(** ramps_eos.hpp:501-502 *)
Definition ramp_prefix : string := "BulkModulusFrom".
Definition has_prefix (method : string) : bool := rfind method ramp_prefix =? 0.

(** eos_eospac.hpp:1248-1264 *)
Definition nbuffers : list (string * Z) :=
  [ ("TemperatureFromDensityInternalEnergy", 2); ("PressureFromDensityTemperature", 2); ("FillEos", 4);
    ("InternalEnergyFromDensityTemperature", 2); ("PressureFromDensityInternalEnergy", 2); ("SpecificHeatFromDensityTemperature", 2);
    ("SpecificHeatFromDensityInternalEnergy", 4); ("BulkModulusFromDensityTemperature", 6); ("BulkModulusFromDensityInternalEnergy", 6);
    ("GruneisenParamFromDensityTemperature", 4); ("GruneisenParamFromDensityInternalEnergy", 5); ("MinInternalEnergyFromDensity", 1);
    ("EntropyFromDensityTemperature", 2) ].
Fixpoint lookup (k : string) (m : list (string * Z)) : option Z :=
  match m with [] => None | (k', v) :: r => if String.eqb k k' then Some v else lookup k r end.
(** std::max_element returns the first of the largest; a std::map is visited in the order of its keys *)
Fixpoint insert (e : string * Z) (m : list (string * Z)) : list (string * Z) :=
  match m with [] => [e] | e' :: r => if String.ltb (fst e) (fst e') then e :: m else e' :: insert e r end.
Definition sorted (m : list (string * Z)) : list (string * Z) := fold_right insert [] m.
Definition max_element (m : list (string * Z)) (e0 : string * Z) : string * Z :=
  fold_left (fun best e => if snd best <? snd e then e else best) m e0.

(** Classes: [Plain] is every class that inherits scratch_size from EosBase (eos_base.hpp:559-563) and DavisProducts (eos_davis.hpp:330-333) *)
Inductive eos := Plain | Eospac | Shifted (t : eos) | Floored (t : eos) | Ramp (t : eos) | Scaled (t : eos) | Units (t : eos)
  | Relativistic (t : eos) | ZSplit (t : eos).

(** eos_eospac.hpp:1185-1191; shifted_eos.hpp:374-380; floored_energy.hpp:362-368; ramps_eos.hpp:500-506; scaled_eos.hpp:232-234;
    eos_unitsystem.hpp:367-369; relativistic_eos.hpp:171-173; zsplit_eos.hpp:260-262 *)
Fixpoint scratch_size (e : eos) (method : string) (nelements : Z) : Z :=
  match e with
  | Plain => 0
  | Eospac => match lookup method nbuffers with Some b => wrap (wrap (sizeof_Real * b) * nelements) | None => 0 end
  | Shifted t | Floored t =>
    if has_suffix method then wrap (scratch_size t method nelements + wrap (sizeof_Real * nelements)) else scratch_size t method nelements
  | Ramp t =>
    if has_prefix method then wrap (scratch_size t method nelements + wrap (sizeof_Real * nelements)) else scratch_size t method nelements
  | Scaled t | Units t | Relativistic t | ZSplit t => scratch_size t method nelements
  end.

(** eos_eospac.hpp:1193-1199; shifted_eos.hpp:382-391; floored_energy.hpp:370-379; ramps_eos.hpp:508-515 and the forwarding ones *)
Fixpoint max_scratch_size (e : eos) (nelements : Z) : Z :=
  match e with
  | Plain => 0
  | Eospac => match sorted nbuffers with [] => 0 | e0 :: r => scratch_size Eospac (fst (max_element r e0)) nelements end
  | Shifted t | Floored t =>
    fold_left (fun m meth => Z.max m (scratch_size e meth nelements))
      ["TemperatureFromDensityInternalEnergy"; "PressureFromDensityInternalEnergy"; "SpecificHeatFromDensityInternalEnergy";
       "BulkModulusFromDensityInternalEnergy"; "GruneisenParamFromDensityInternalEnergy"] (max_scratch_size t nelements)
  | Ramp t =>
    fold_left (fun m meth => Z.max m (scratch_size e meth nelements))
      ["BulkModulusFromDensityInternalEnergy"; "BulkModulusFromDensityTemperature"] (max_scratch_size t nelements)
  | Scaled t | Units t | Relativistic t | ZSplit t => max_scratch_size t nelements
  end.
