(** Model of sesame2spiner (sesame2spiner/parser.cpp, generate_files.cpp, io_eospac.cpp) and of the part of eospac-wrapper it uses.
    A file is the list of its lines (getline). EOSPAC itself is not in the repository: a loaded table is the function it interpolates
    together with the two derivatives it returns. HDF5 is modelled by what the code relies on: creating a link whose name exists fails.
    std::stod is a parameter; exits, exceptions and aborts are [None]. Warnings and printing are dropped. *)
From Coq Require Import ZArith Reals List Bool Ascii String DecimalString.
From Flocq Require Import Core.
From Verif Require Import Robust_Model SpinerUtil_Model.
Import ListNotations.
Open Scope string_scope.

(** ** Parsing, parser.cpp *)
(** std::isspace in the C locale *)
Definition isspace (c : ascii) : bool := let n := nat_of_ascii c in (Nat.eqb n 32 || (Nat.leb 9 n && Nat.leb n 13))%bool.
(** parser.cpp:39, 120 erase(remove_if(isspace)) *)
Fixpoint strip (s : string) : string :=
  match s with EmptyString => EmptyString | String c r => if isspace c then strip r else String c (strip r) end.
(** std::string::find of one character; None is npos *)
Fixpoint find (c : ascii) (s : string) : option nat :=
  match s with
  | EmptyString => None
  | String d r => if Ascii.eqb d c then Some 0 else match find c r with Some n => Some (S n) | None => None end
  end.
(** substr(0, n) and substr(n) *)
Fixpoint take (n : nat) (s : string) : string :=
  match n, s with O, _ => EmptyString | S _, EmptyString => EmptyString | S k, String c r => String c (take k r) end.
Fixpoint drop (n : nat) (s : string) : string :=
  match n, s with O, _ => s | S _, EmptyString => EmptyString | S k, String _ r => drop k r end.
(** parser.cpp:41-42, 139-140: npos + 1 is 0, so without '=' the value is the whole line *)
Definition key_of (line : string) : string := match find "=" line with Some p => take p line | None => line end.
Definition value_of (line : string) : string := match find "=" line with Some p => drop (S p) line | None => line end.
(** parser.cpp:44-47, 142-145 *)
Definition cut_comment (v : string) : string := match find "#" v with Some p => take p v | None => v end.

(** params_, an unordered_map; the newest entry of a key is the one that counts *)
Definition Params := list (string * string).
Fixpoint pget (k : string) (p : Params) : option string :=
  match p with [] => None | (k', v) :: r => if String.eqb k k' then Some v else pget k r end.
Definition pset (k v : string) (p : Params) : Params := (k, v) :: p.

(** std::stoi: sign, then the longest run of digits; no digit or out of range of int throws *)
Definition digit (c : ascii) : option Z :=
  let n := nat_of_ascii c in if (Nat.leb 48 n && Nat.leb n 57)%bool then Some (Z.of_nat (n - 48)) else None.
Fixpoint digits (acc : Z) (s : string) : Z :=
  match s with
  | EmptyString => acc
  | String c r => match digit c with Some d => digits (10 * acc + d) r | None => acc end
  end.
Definition starts_digit (s : string) : bool := match s with String c _ => if digit c then true else false | _ => false end.
Definition stoi (s : string) : option Z :=
  let '(sg, r) := match s with
                  | String c r => if Ascii.eqb c "-" then ((-1)%Z, r) else if Ascii.eqb c "+" then (1%Z, r) else (1%Z, s)
                  | _ => (1%Z, s) end in
  if starts_digit r then
    let v := (sg * digits 0 r)%Z in if (Z.leb (- 2 ^ 31) v && Z.ltb v (2 ^ 31))%bool then Some v else None
  else None.

(** parser.cpp:92-111 *)
Definition acc_t := (list Params * list Z)%type.
Definition add_param (p : Params) (a : acc_t) : option acc_t :=
  match pget "matid" p with
  | None => None
  | Some v => match stoi v with Some z => Some ((fst a ++ [p])%list, (snd a ++ [z])%list) | None => None end
  end.
Definition flush (p : Params) (a : acc_t) : option acc_t := match p with [] => Some a | _ => add_param p a end.
(** parser.cpp:119-148 one line *)
Definition parse_line (st : Params * acc_t) (line : string) : option (Params * acc_t) :=
  let '(p, a) := st in
  let l := strip line in
  match l with
  | EmptyString => Some st
  | String c _ =>
    if Ascii.eqb c "#" then Some st
    else if Ascii.eqb c "<" then
      match find ">" l with
      | None => None
      | Some t => match flush p a with Some a' => Some (pset "name" (take (t - 1) (drop 1 l)) [], a') | None => None end
      end
    else Some (pset (key_of l) (cut_comment (value_of l)) p, a)
  end.
Fixpoint parse_lines (st : Params * acc_t) (lines : list string) : option (Params * acc_t) :=
  match lines with [] => Some st | l :: r => match parse_line st l with Some st' => parse_lines st' r | None => None end end.
(** parser.cpp:113-150 *)
Definition parse_file (a : acc_t) (lines : list string) : option acc_t :=
  match parse_lines ([], a) lines with Some (p, a') => flush p a' | None => None end.
(** generate_files.cpp:179-181, one AddMaterials per file *)
Fixpoint parse_files (a : acc_t) (files : list (list string)) : option acc_t :=
  match files with [] => Some a | f :: r => match parse_file a f with Some a' => parse_files a' r | None => None end end.

(** parser.cpp:60-90 and parser.hpp:35-38 Get<T>(key, default) *)
Definition GetS (p : Params) (k d : string) : string := match pget k p with Some v => v | None => d end.
Definition GetI (p : Params) (k : string) (d : Z) : option Z := match pget k p with Some v => stoi v | None => Some d end.
Definition stob (v : string) : option bool :=
  if (String.eqb v "true" || String.eqb v "1")%bool then Some true
  else if (String.eqb v "false" || String.eqb v "0")%bool then Some false else None.
Definition GetB (p : Params) (k : string) (d : bool) : option bool := match pget k p with Some v => stob v | None => Some d end.

(** ** saveAllMaterials, generate_files.cpp:168-251 *)
(** std::to_string *)
Definition to_string_nat (n : nat) : string := NilZero.string_of_uint (Nat.to_uint n).
Definition to_string (z : Z) : string := NilZero.string_of_int (Z.to_int z).
(** links of the output file and whether every HDF5 call succeeded *)
Record sfile := mkSF { links : list (string * Z); ok : bool }.
Definition mem (n : string) (l : list (string * Z)) : bool := existsb (fun x => String.eqb n (fst x)) l.
Definition create (n : string) (m : Z) (f : sfile) : sfile :=
  if mem n (links f) then mkSF (links f) false else mkSF (links f ++ [(n, m)])%list (ok f).
(** generate_files.cpp:58-59: the group and the soft link to it *)
Definition saveMaterial (m : Z) (name : string) (f : sfile) : sfile := create name m (create (to_string m) m f).
Fixpoint count_of (n : string) (u : list (string * nat)) : option nat :=
  match u with [] => None | (k, c) :: r => if String.eqb n k then Some c else count_of n r end.
Record sst := mkSST { used_m : list Z; used_n : list (string * nat); out : sfile }.
(** generate_files.cpp:207-213 *)
Definition base_name (meta_name : Z -> string) (i : nat) (m : Z) (p : Params) : string :=
  let name := GetS p "name" (meta_name m) in
  if (String.eqb name "-1" || String.eqb name "")%bool then "material_" ++ to_string_nat i else name.
(** generate_files.cpp:194-243, iteration i *)
Definition save_one (meta_name : Z -> string) (i : nat) (m : Z) (p : Params) (s : sst) : sst :=
  if existsb (Z.eqb m) (used_m s) then s
  else
    let name := base_name meta_name i m p in
    let '(name', u) := match count_of name (used_n s) with
                       | Some c => (name ++ "_" ++ to_string_nat (S c), (name, S c) :: used_n s)
                       | None => (name, (name, 1) :: used_n s) end in
    mkSST (m :: used_m s) u (saveMaterial m name' (out s)).
Fixpoint save_from (meta_name : Z -> string) (i : nat) (mats : list (Z * Params)) (s : sst) : sst :=
  match mats with [] => s | (m, p) :: r => save_from meta_name (S i) r (save_one meta_name i m p s) end.
Definition saveAllMaterials (meta_name : Z -> string) (mats : list (Z * Params)) : sfile :=
  out (save_from meta_name 0 mats (mkSST [] [] (mkSF [] true))).

(** ** eospac_wrapper.hpp *)
Local Open Scope R_scope.
(** eospac_wrapper.hpp:34-44 *)
Definition densityToSesame (x : R) : R := x.
Definition temperatureToSesame (x : R) : R := x.
Definition temperatureFromSesame (x : R) : R := x.
Definition pressureFromSesame (x : R) : R := 10 ^ 10 * x.
Definition sieToSesame (x : R) : R := / 10 ^ 10 * x.
Definition sieFromSesame (x : R) : R := 10 ^ 10 * x.
Definition bulkModulusFromSesame (x : R) : R := 10 ^ 10 * x.
(** eospac_wrapper.hpp:45-48 *)
Definition getBulkModulus (rho P DPDR_T DPDE_R DEDR_T : R) : R := rho * DPDR_T + DPDE_R * (P / rho - rho * DEDR_T).
(** a loaded EOSPAC table: value, derivative by the first and by the second variable *)
Record etable := mkET { et : R -> R -> R; et_x : R -> R -> R; et_y : R -> R -> R }.
(** eos_Interpolate on packs *)
Fixpoint map2 {A B C} (f : A -> B -> C) (a : list A) (b : list B) : list C :=
  match a, b with x :: a', y :: b' => f x y :: map2 f a' b' | _, _ => [] end.
Definition val (t : etable) := map2 (et t).
Definition d_x (t : etable) := map2 (et_x t).
Definition d_y (t : etable) := map2 (et_y t).

(** eospac_wrapper.cpp:273-320 eosSafeInterpolate: the error codes of the calls it makes, in order; 0 is EOS_OK. [opts] are the codes
    eos_SetOption and eos_ResetOption return, [interp] that of eos_Interpolate, [extrap] that of eos_CheckExtrap (Debug only) *)
Definition eosSafeInterpolate_status (opts_set : list Z) (interp extrap : Z) (opts_reset : list Z) (skip_extrap debug : bool) : bool :=
  let errorCode := fold_left (fun _ c => c) opts_set 0%Z in
  let errorCode := interp in
  let errorCode := if (negb skip_extrap && negb (Z.eqb errorCode 0) && debug)%bool then extrap else errorCode in
  let errorCode := fold_left (fun _ c => c) opts_reset errorCode in
  Z.eqb errorCode 0.

(** ** The tables, io_eospac.cpp *)
(** flat packs: io_eospac.cpp:76-83 and 172-179 *)
Definition flat_first (xs ys : list R) (f : R -> R) : list R := flat_map (fun x => map (fun _ => f x) ys) xs.
Definition flat_second (xs ys : list R) (f : R -> R) : list R := flat_map (fun _ => map f ys) xs.
(** iflat runs through the pairs in the order of the loops: entry (j, i) is number j * ny + i *)
Definition at2 (ny j i : nat) (pack : list R) : R := nth (j * ny + i) pack 0.
Record boxes := mkBoxes { bP : R; bX : R; bMod : R; bdPdRho : R; bdPdE : R; bdTdRho : R; bdTdE : R; bdEdRho : R; bdEdT : R }.
(** io_eospac.cpp:27-119 eosDataOfRhoSie: what is stored at (j, i); bX is the temperature. [tP] is P(rho,T), [tT] is T(rho,e), [tE] e(rho,T) *)
Definition eosDataOfRhoSie (tP tT tE : etable) (rhos sies : list R) (j i : nat) : boxes :=
  let ny := List.length sies in
  let rho_flat := flat_first rhos sies densityToSesame in
  let sie_flat := flat_second rhos sies sieToSesame in
  let T_pack := val tT rho_flat sie_flat in let DTDR_E := d_x tT rho_flat sie_flat in let DTDE_R := d_y tT rho_flat sie_flat in
  let P_pack := val tP rho_flat T_pack in let DPDR_T := d_x tP rho_flat T_pack in let DPDT_R := d_y tP rho_flat T_pack in
  let DEDR_T := d_x tE rho_flat T_pack in let DEDT_R := d_y tE rho_flat T_pack in
  let g := at2 ny j i in
  let rho := densityToSesame (nth j rhos 0) in
  let DPDE_R := g DPDT_R / g DEDT_R in
  let bMod := getBulkModulus rho (g P_pack) (g DPDR_T) DPDE_R (g DEDR_T) in
  mkBoxes (pressureFromSesame (g P_pack)) (temperatureFromSesame (g T_pack)) (bulkModulusFromSesame (Rmax bMod 0))
    (pressureFromSesame (g DPDR_T + g DTDR_E * g DPDT_R)) (sieToSesame (pressureFromSesame (g DPDT_R * g DTDE_R)))
    (temperatureFromSesame (g DTDR_E)) (sieToSesame (temperatureFromSesame (g DTDE_R)))
    (densityToSesame (sieFromSesame (g DEDR_T))) 0.
(** io_eospac.cpp:121-217 eosDataOfRhoT; bX is the energy *)
Definition eosDataOfRhoT (tP tT tE : etable) (rhos Ts : list R) (j i : nat) : boxes :=
  let ny := List.length Ts in
  let rho_flat := flat_first rhos Ts densityToSesame in
  let T_flat := flat_second rhos Ts temperatureToSesame in
  let P_pack := val tP rho_flat T_flat in let DPDR_T := d_x tP rho_flat T_flat in let DPDT_R := d_y tP rho_flat T_flat in
  let E_pack := val tE rho_flat T_flat in let DEDR_T := d_x tE rho_flat T_flat in let DEDT_R := d_y tE rho_flat T_flat in
  let DTDR_E := d_x tT rho_flat E_pack in let DTDE_R := d_y tT rho_flat E_pack in
  let g := at2 ny j i in
  let rho := densityToSesame (nth j rhos 0) in
  let DPDE_R := g DPDT_R / g DEDT_R in
  let bMod := getBulkModulus rho (g P_pack) (g DPDR_T) DPDE_R (g DEDR_T) in
  mkBoxes (pressureFromSesame (g P_pack)) (sieFromSesame (g E_pack)) (bulkModulusFromSesame (Rmax bMod 0))
    (pressureFromSesame (g DPDR_T + g DTDR_E * g DPDT_R)) (sieToSesame (pressureFromSesame (g DPDT_R * g DTDE_R)))
    (temperatureFromSesame (g DTDR_E)) (sieToSesame (temperatureFromSesame (g DTDE_R)))
    (densityToSesame (sieFromSesame (g DEDR_T))) (sieFromSesame (temperatureToSesame (g DEDT_R))).
(** io_eospac.cpp:219-283 eosColdCurves at density number i: pressure, energy, bulk modulus, dPdRho, dEdRho *)
Definition eosColdCurves (tP tE : etable) (rhos : list R) (i : nat) : R * R * R * R * R :=
  let rhos' := map densityToSesame rhos in
  let Ts := map (fun _ => temperatureToSesame 0) rhos in
  let g := fun l => nth i l 0 in
  let bMod := getBulkModulus (g rhos') (g (val tP rhos' Ts)) (g (d_x tP rhos' Ts)) 0 0 in
  (pressureFromSesame (g (val tP rhos' Ts)), sieFromSesame (g (val tE rhos' Ts)), bulkModulusFromSesame (Rmax bMod 0),
   pressureFromSesame (g (d_x tP rhos' Ts)), sieFromSesame (g (d_x tE rhos' Ts))).
(** io_eospac.cpp:331-404 eosMassFraction: M_pack holds one block of nXYPairs numbers per phase *)
Definition eosMassFraction (tM : nat -> R -> R -> R) (nph : nat) (rhos Ts : list R) (j i k : nat) : R :=
  let n := (List.length rhos * List.length Ts)%nat in
  let rho_flat := flat_first rhos Ts densityToSesame in
  let T_flat := flat_second rhos Ts temperatureToSesame in
  let M_pack := flat_map (fun ph => map2 (tM ph) rho_flat T_flat) (seq 0 nph) in
  nth (k * n + (j * List.length Ts + i)) M_pack 0.

(** ** getMatBounds, generate_files.cpp:292-445 *)
Record metadata := mkMeta { md_rhoMin : R; md_rhoMax : R; md_TMin : R; md_TMax : R; md_sieMin : R; md_sieMax : R; md_normal : R }.
Definition TINY : R := bpow radix2 (-52).
(** generate_files.cpp:298-301 *)
Definition TinyShift (v sg : R) : R := let shift := Rabs (Rmin (10 * v * TINY) TINY) in v + sg * shift.
Definition clamp01 (x : R) : R := Rmin 1 (Rmax x 0).
(** generate_files.hpp:33-41 *)
Definition PPD_DEFAULT_RHO : Z := 350.
Definition PPD_DEFAULT_T : Z := 100.
Definition STRICTLY_POS_MIN_RHO : R := / 10 ^ 8.
Definition STRICTLY_POS_MIN_T : R := / 10 ^ 2.

Definition bind {A B} (o : option A) (k : A -> option B) : option B := match o with Some a => k a | None => None end.
Notation "'do' x <- e ; k" := (bind e (fun x => k)) (at level 200, x name, e at level 100, k at level 200).

Section Bounds.
Variable stod : string -> option R.
Variable L : LogPair.
Variable rlog10 : R -> R.        (* std::log10 *)
Variable EofRT : R -> R -> R.    (* EOSPAC's EOS_Ut_DT, in its own units *)
Definition GetR (p : Params) (k : string) (d : R) : option R := match pget k p with Some v => stod v | None => Some d end.
Definition TAnchor : R := 29815 / 100.
(** generate_files.cpp:352-358; isnan is vacuous over R *)
Definition anchor_of (r : R) : R := if (Rle_bool r 0 || Rlt_bool (10 ^ 8) r)%bool then 1 else r.
(** generate_files.cpp:292-445; result lRhoBounds, lTBounds, leBounds *)
Definition getMatBounds (md : metadata) (p : Params) : option (Bounds * Bounds * Bounds) :=
  do rhoMin <- GetR p "rhomin" (TinyShift (md_rhoMin md) 1);
  do rhoMax <- GetR p "rhomax" (md_rhoMax md);
  do TMin <- GetR p "Tmin" (TinyShift (md_TMin md) 1);
  do TMax <- GetR p "Tmax" (md_TMax md);
  do sieMin <- GetR p "siemin" (TinyShift (md_sieMin md) 1);
  do sieMax <- GetR p "siemax" (md_sieMax md);
  do shR <- GetR p "shrinklRhoBounds" 0;
  do shT <- GetR p "shrinklTBounds" 0;
  do shE <- GetR p "shrinkleBounds" 0;
  let shR := clamp01 shR in let shT := clamp01 shT in let shE := clamp01 shE in
  do ppdRho <- GetI p "numrho/decade" PPD_DEFAULT_RHO;
  let numRhoDefault := getNumPointsFromPPD rlog10 rhoMin rhoMax (IZR ppdRho) in
  do ppdT <- GetI p "numT/decade" PPD_DEFAULT_T;
  let numTDefault := getNumPointsFromPPD rlog10 TMin TMax (IZR ppdT) in
  do ppdSie <- GetI p "numSie/decade" PPD_DEFAULT_T;
  let numSieDefault := getNumPointsFromPPD rlog10 sieMin sieMax (IZR ppdSie) in
  do numRho <- GetI p "numrho" numRhoDefault;
  do numT <- GetI p "numT" numTDefault;
  do numSie <- GetI p "numsie" numSieDefault;
  do rhoAnchor <- GetR p "rho_fine_center" (md_normal md);
  let rhoAnchor := anchor_of rhoAnchor in
  do piecewiseRho <- GetB p "piecewiseRho" true;
  do piecewiseT <- GetB p "piecewiseT" true;
  do piecewiseSie <- GetB p "piecewiseSie" true;
  do f_rho_lo <- GetR p "rhoCoarseFactorLo" 3;
  do f_rho_hi <- GetR p "rhoCoarseFactorHi" 5;
  do f_T <- GetR p "TCoarseFactor" (3 / 2);
  do f_sie <- GetR p "sieCoarseFactor" (3 / 2);
  do diam <- GetR p "rhoFineDiameterDecades" (3 / 2);
  do TSplitPoint <- GetR p "TSplitPoint" (10 ^ 4);
  (* the default is the int -1, so T = int: Get<int>, stoi *)
  do fine_min <- GetI p "rhoFineMin" (-1);
  do fine_max <- GetI p "rhoFineMax" (-1);
  let '(fine_min, fine_max) := if Rlt_bool (IZR fine_min * IZR fine_max) 0 then (-1, -1) else (IZR fine_min, IZR fine_max) in
  let rhoMin := if Rlt_bool rhoMin STRICTLY_POS_MIN_RHO then STRICTLY_POS_MIN_RHO else rhoMin in
  let TMin := if Rlt_bool TMin STRICTLY_POS_MIN_T then STRICTLY_POS_MIN_T else TMin in
  let lRho :=
    if piecewiseRho then
      if Rlt_bool 0 fine_min
      then Bounds_three L rhoMin rhoMax rhoAnchor fine_min fine_max (IZR ppdRho) f_rho_lo f_rho_hi true shR
      else Bounds_three_diam L rhoMin rhoMax rhoAnchor diam (IZR ppdRho) f_rho_lo f_rho_hi true shR
    else Bounds_one L rhoMin rhoMax numRho true shR (Some rhoAnchor) in
  let lT :=
    if piecewiseT then Bounds_two L TMin TMax TAnchor TSplitPoint (IZR ppdT) f_T true shT
    else Bounds_one L TMin TMax numT true shT (Some TAnchor) in
  let le :=
    if piecewiseSie then
      let rho := densityToSesame rhoAnchor in
      (* EOSPAC's energies are used as they are, :424-434 *)
      let sieAnchor := EofRT rho (temperatureToSesame TAnchor) in
      let sieSplitPoint := EofRT rho (temperatureToSesame TSplitPoint) in
      Bounds_two L sieMin sieMax sieAnchor sieSplitPoint (IZR ppdSie) f_sie true shE
    else Bounds_one L sieMin sieMax numSie true shE None in
  Some (lRho, lT, le).
End Bounds.
