(** Model of the EOSPAC equation of state (eos/eos_eospac.hpp). EOSPAC itself is not in the repository: a loaded table is the function it
    interpolates with the two derivatives it returns ([etable], Sesame_Model), total because EOSPAC extrapolates. Its unit options are what the
    code relies on (comments at eos_eospac.hpp:906-907, 1000-1001): the inputs are divided by the X and Y factors, the result is multiplied by
    the F factor, and the derivatives are those of the converted function. Exact real arithmetic; error codes and printing dropped. *)
From Coq Require Import ZArith Reals List Bool.
From Flocq Require Import Core.
From Verif Require Import Robust_Model Thermo_Spec Sesame_Model Vector_Model.
Import ListNotations.
Local Open Scope R_scope.

(** eospac_wrapper.hpp:34-44, the conversions not in Sesame_Model *)
Definition pressureToSesame (x : R) : R := / 10 ^ 10 * x.
Definition cvFromSesame (x : R) : R := 10 ^ 10 * x.
Definition entropyFromSesame (x : R) : R := 10 ^ 10 * x.

(** eos_eospac.hpp:1190-1221, 1284-1316 the tables, and what SesameMetadata gives *)
Record eospac := mkEP {
  PofRT : etable; TofRE : etable; EofRT : etable; RofPT : etable; TofRP : etable; PofRE : etable; EcofD : etable; SofRT : etable;
  entropy_available : bool; total : bool;
  normalDensity : R; rhoMin : R; TMin : R; PMin : R
}.
Section E.
Variable p : eospac.

(** ** Options of eosSafeInterpolate *)
Inductive opt := XYpass (v : R) | Xconv (v : R) | Yconv (v : R) | Fconv (v : R).
Fixpoint cx (l : list opt) : R := match l with [] => 1 | Xconv v :: _ => v | _ :: r => cx r end.
Fixpoint cy (l : list opt) : R := match l with [] => 1 | Yconv v :: _ => v | _ :: r => cy r end.
Fixpoint cf (l : list opt) : R := match l with [] => 1 | Fconv v :: _ => v | _ :: r => cf r end.
Definition i_f (t : etable) (l : list opt) (x y : R) : R := cf l * et t (x / cx l) (y / cy l).
Definition i_dx (t : etable) (l : list opt) (x y : R) : R := cf l / cx l * et_x t (x / cx l) (y / cy l).
Definition i_dy (t : etable) (l : list opt) (x y : R) : R := cf l / cy l * et_y t (x / cx l) (y / cy l).

(** ** Scalar queries *)
(** 1425-1439 *)
Definition T_e (rho sie : R) : R := temperatureFromSesame (et (TofRE p) rho (sieToSesame sie)).
(** 1441-1455 *)
Definition P_T (rho temp : R) : R := pressureFromSesame (et (PofRT p) rho (temperatureToSesame temp)).
(** 1457-1472; None: the table has no entropy *)
Definition S_T (rho temp : R) : option R :=
  if entropy_available p then Some (entropyFromSesame (et (SofRT p) rho (temperatureToSesame temp))) else None.
(** 1539-1559 the bulk modulus computed by FillEos, in Sesame units, before clipping *)
Definition bmod_sesame (rho PRESS DPDR DPDT DEDR DEDT : R) : R :=
  if (Rlt_bool 0 DEDT && Rlt_bool 0 rho)%bool then rho * DPDR + DPDT / DEDT * (PRESS / rho - rho * DEDR)
  else if Rlt_bool 0 rho then Rmax (rho * DPDR) 0 else 0.
(** 1474-1562 FillEos. R, T, P are the local arrays, initialised from the arguments; rho, temp, ... the references. None: UNDEFINED_ERROR,
    or (in builds where PORTABLE_REQUIRE is active) density wanted from split tables *)
Definition any (o : flags) : bool := (f_rho o || f_temp o || f_sie o || f_press o || f_cv o || f_bmod o)%bool.
Definition fill_rho (o : flags) (s : fstate) : option (R * fstate) :=      (* R[0], state *)
  if f_rho o then
    if (negb (f_press o) && negb (f_temp o) && total p)%bool then
      let R' := et (RofPT p) (pressureToSesame (s_press s)) (temperatureToSesame (s_temp s)) in Some (R', upd_rho s R')
    else None
  else Some (s_rho s, s).
Definition fill_temp (o : flags) (R' : R) (s : fstate) : option (R * fstate) :=      (* T[0], state *)
  let T' := temperatureToSesame (s_temp s) in
  if f_temp o then
    if (negb (f_rho o) && negb (f_sie o))%bool then Some (T', upd_temp s (T_e (s_rho s) (s_sie s)))
    else if (negb (f_rho o) && negb (f_press o))%bool then
      let T2 := et (TofRP p) R' (pressureToSesame (s_press s)) in Some (T2, upd_temp s (temperatureFromSesame T2))
    else None
  else Some (T', s).
Definition fill_rest (o : flags) (R' T' : R) (s : fstate) : fstate :=
  let SIE := et (EofRT p) R' T' in let DEDR := et_x (EofRT p) R' T' in let DEDT := et_y (EofRT p) R' T' in
  let PRESS := et (PofRT p) R' T' in let DPDR := et_x (PofRT p) R' T' in let DPDT := et_y (PofRT p) R' T' in
  let s1 := cond_upd (f_sie o) upd_sie (fun _ => sieFromSesame SIE) s in
  let s2 := cond_upd (f_press o) upd_press (fun _ => pressureFromSesame PRESS) s1 in
  let s3 := cond_upd (f_cv o) upd_cv (fun _ => cvFromSesame (Rmax DEDT 0)) s2 in
  cond_upd (f_bmod o) upd_bmod (fun s => bulkModulusFromSesame (Rmax (bmod_sesame (s_rho s) PRESS DPDR DPDT DEDR DEDT) 0)) s3.
Definition FillEos (o : flags) (s : fstate) : option fstate :=
  if any o then
    match fill_rho o s with
    | None => None
    | Some (R', s1) => match fill_temp o R' s1 with None => None | Some (T', s2) => Some (fill_rest o R' T' s2) end
    end
  else None.
(** 1564-1607: FillEos on locals; [u]: the uninitialised ones *)
Definition locals (u : fstate) (rho temp : R) : fstate := mkS rho temp (s_sie u) (s_press u) (s_cv u) (s_bmod u).
Definition got (f : fstate -> R) (r : option fstate) : option R := match r with Some s => Some (f s) | None => None end.
Definition E_T (u : fstate) (rho temp : R) : option R := got s_sie (FillEos (mkF false false true false false false) (locals u rho temp)).
Definition B_T (u : fstate) (rho temp : R) : option R := got s_bmod (FillEos (mkF false false false false false true) (locals u rho temp)).
Definition C_T (u : fstate) (rho temp : R) : option R := got s_cv (FillEos (mkF false false false false true false) (locals u rho temp)).
(** 1609-1628 *)
Definition P_e (rho sie : R) : R := i_f (PofRE p) [Yconv (sieFromSesame 1); Fconv (pressureFromSesame 1)] rho sie.
(** 1630-1649: the second input is the uninitialised result cell *)
Definition E_min (junk rho : R) : R := i_f (EcofD p) [Fconv (sieFromSesame 1)] rho junk.
(** 1651-1724 *)
Definition S_e (rho sie : R) : option R := if entropy_available p then S_T rho (T_e rho sie) else None.
Definition C_e (u : fstate) (rho sie : R) : option R := C_T u rho (T_e rho sie).
Definition B_e (u : fstate) (rho sie : R) : option R := B_T u rho (T_e rho sie).
Definition G_T (rho temp : R) : R :=
  let T := temperatureToSesame temp in
  ratio (pressureFromSesame (sieToSesame (et_y (PofRT p) rho T / et_y (EofRT p) rho T))) rho.
Definition G_e (rho sie : R) : R := G_T rho (T_e rho sie).
(** 1726-1751; None: split tables in builds where PORTABLE_REQUIRE is active *)
Definition DensityEnergyFromPressureTemperature (press temp : R) : option (R * R) :=
  if total p then
    let T := temperatureToSesame temp in let R' := et (RofPT p) (pressureToSesame press) T in Some (R', sieFromSesame (et (EofRT p) R' T))
  else None.
(** 1753-1797; drdP, dedP, drdT, dedT *)
Definition PTDerivativesFromPreferred (rho sie press temp : R) : option (R * R * R * R) :=
  if total p then
    let T := temperatureToSesame temp in
    let dedr_T := sieFromSesame (et_x (EofRT p) rho T) in let dedT_r := sieFromSesame (temperatureToSesame (et_y (EofRT p) rho T)) in
    let dPdr_T := pressureFromSesame (et_x (PofRT p) rho T) in let dPdT_r := pressureFromSesame (temperatureToSesame (et_y (PofRT p) rho T)) in
    let dedP_T := ratio dedr_T dPdr_T in
    let dedT_P := dedT_r - ratio (dedr_T * dPdT_r) dPdr_T in
    let drdP_T := ratio 1 dPdr_T in
    let drdT_P := - ratio dPdT_r dPdr_T in
    Some (drdP_T, dedP_T, drdT_P, dedT_P)
  else None.

(** ** 1347-1386 reference state stored by the constructor, 1799-1817 *)
Record refstate := mkRef { r_rho : R; r_temp : R; r_sie : R; r_press : R; r_cv : R; r_bmod : R; r_dpde : R; r_dvdt : R }.
Definition ValuesAtReferenceState : refstate :=
  let rho := normalDensity p in let temp := 293 in let T := temperatureToSesame temp in
  let DEDR := et_x (EofRT p) rho T in let DEDT := et_y (EofRT p) rho T in
  let cv := cvFromSesame (Rmax DEDT 0) in
  let PRESS := et (PofRT p) rho T in let DPDR := et_x (PofRT p) rho T in let DPDT := et_y (PofRT p) rho T in
  let DPDE := ratio DPDT DEDT in
  let BMOD := rho * DPDR + DPDE * (ratio PRESS rho - rho * DEDR) in
  let dpde := pressureFromSesame (sieToSesame DPDE) in
  mkRef rho temp (sieFromSesame (et (EofRT p) rho T)) (pressureFromSesame PRESS) cv (bulkModulusFromSesame (Rmax BMOD 0)) dpde
    (ratio (dpde * cv) (rho * rho * pressureFromSesame DPDR)).
(** 237-242 CheckParams (the mean atomic part apart) *)
Definition CheckParams : bool := (Rle_bool 0 (rhoMin p) && Rle_bool 0 (TMin p))%bool.

(** ** Vector calls *)
(** eos_base.hpp:239-265 Factor and Transform; None: not set *)
Record trans := mkTr { t_x : option R; t_y : option R; t_f : option R }.
Definition get (f : option R) : R := match f with Some v => v | None => 1 end.
Definition is_set (f : option R) : bool := match f with Some _ => true | None => false end.
Definition apply (f : option R) (v : R) : option R := Some (get f * v).
(** 60-83 *)
Definition DensityTemperatureOptions (t : trans) : list opt :=
  if (negb (is_set (t_x t)) && negb (is_set (t_y t)))%bool then [XYpass 1]
  else (if is_set (t_x t) then [Xconv (1 / get (t_x t))] else []) ++ (if is_set (t_y t) then [Yconv (1 / get (t_y t))] else []).
(** 85-108 *)
Definition DensityEnergyOptions (t : trans) : list opt :=
  let sie_scale := if is_set (t_y t) then sieFromSesame 1 / get (t_y t) else sieFromSesame 1 in
  (if is_set (t_x t) then [Xconv (1 / get (t_x t))] else []) ++
  [if (negb (is_set (t_x t)) && Req_bool sie_scale 1)%bool then XYpass 1 else Yconv sie_scale].
(** 110-117 and the overload 119-129, which ignores its last argument *)
Definition OutputOption (t : trans) : list opt := if is_set (t_f t) then [Fconv (get (t_f t))] else [].
Definition OutputOption2 (t : trans) (singularity_unit_conv : R) : list opt :=
  [Fconv (if is_set (t_f t) then pressureFromSesame 1 * get (t_f t) else pressureFromSesame 1)].
(** 843-851, 976-985, 1140-1150 density only *)
Definition DensityOption (t : trans) : list opt := if is_set (t_x t) then [Xconv (1 / get (t_x t))] else [XYpass 1].

Notation M := (Vector_Model.mem R).
(** n cells from a on get v 0, v 1, ... *)
Definition wr (a : Z) (n : nat) (v : nat -> R) (m : M) : M :=
  fun x => if (Z.leb a x && Z.ltb x (a + Z.of_nat n))%bool then v (Z.to_nat (x - a)) else m x.
(** a[i] *)
Definition rd (m : M) (a : Z) (i : nat) : R := m (a + Z.of_nat i)%Z.
(** eosSafeInterpolate on arrays at addresses X, Y, F, dFx, dFy *)
Definition interp (t : etable) (l : list opt) (n : nat) (X Y F dFx dFy : Z) (m : M) : M :=
  wr dFy n (fun i => i_dy t l (rd m X i) (rd m Y i)) (wr dFx n (fun i => i_dx t l (rd m X i) (rd m Y i)) (wr F n (fun i => i_f t l (rd m X i) (rd m Y i)) m)).
(** portableFor loops whose iteration i reads cells of its own index only (C13: any schedule gives this) *)
Definition loop (a : Z) (n : nat) (g : nat -> M -> R) (m : M) : M := wr a n (fun i => g i m) m.

(** scratch + k * num *)
Definition buf (scratch : Z) (n k : nat) : Z := (scratch + Z.of_nat (k * n))%Z.
(** 1236-1254 scratch_nbuffers; EntropyFromDensityInternalEnergy is not in the map: 0 *)
Definition nbuffers (q : meth) : nat :=
  match q with
  | TofE => 2 | PofT => 2 | EofT => 2 | PofE => 2 | CvT => 2 | CvE => 4 | BofT => 6 | BofE => 6 | GofT => 4 | GofE => 5 | MinE => 1 | SofT => 2
  | SofE => 0
  end%nat.
Definition fill_nbuffers : nat := 4.
(** 1175-1189, in units of sizeof(Real); [None] is FillEos *)
Definition scratch_size (q : option meth) (n : nat) : nat := match q with Some q => nbuffers q * n | None => fill_nbuffers * n end.
Definition all_methods : list (option meth) :=
  [Some TofE; Some PofT; None; Some EofT; Some PofE; Some CvT; Some CvE; Some BofT; Some BofE; Some GofT; Some GofE; Some MinE; Some SofT].
Definition max_scratch_size (n : nat) : nat := (fold_right Nat.max 0%nat (map (fun q => scratch_size q 1) all_methods) * n)%nat.

Definition bmod_x (x rho PRESS DPDR DPDT DEDR DEDT : R) : R :=
  if (Rlt_bool 0 DEDT && Rlt_bool 0 rho)%bool then rho * DPDR + DPDT / DEDT * (PRESS / (rho * x) - rho * DEDR)
  else if Rlt_bool 0 rho then Rmax (rho * DPDR) 0 else 0.
(** 386-1173: the raw-pointer overload of each query; in2 is unused by MinE. SofE has no such overload: [None] *)
Definition vector (q : meth) (in1 in2 out scratch : Z) (n : nat) (t : trans) (m : M) : option M :=
  let b := buf scratch n in
  match q with
  | TofE => Some (interp (TofRE p) (DensityEnergyOptions t ++ OutputOption t) n in1 in2 out (b 0%nat) (b 1%nat) m)
  | PofT => Some (interp (PofRT p) (DensityTemperatureOptions t ++ OutputOption2 t (pressureFromSesame 1)) n in1 in2 out (b 0%nat) (b 1%nat) m)
  | SofT => Some (interp (SofRT p) (DensityTemperatureOptions t ++ OutputOption2 t (sieFromSesame 1)) n in1 in2 out (b 0%nat) (b 1%nat) m)
  | EofT => Some (interp (EofRT p) (DensityTemperatureOptions t ++ OutputOption2 t (sieFromSesame 1)) n in1 in2 out (b 1%nat) (b 0%nat) m)
  | PofE => Some (interp (PofRE p) (DensityEnergyOptions t ++ OutputOption2 t (pressureFromSesame 1)) n in1 in2 out (b 0%nat) (b 1%nat) m)
  | MinE => (* eosSafeInterpolate(&table, num, R, R, E, dedr, dedr, ...) *)
      let l := DensityTemperatureOptions t ++ OutputOption2 t (sieFromSesame 1) in
      Some (interp (EcofD p) l n in1 in1 out (b 0%nat) (b 0%nat) m)
  | CvT =>
      let m1 := interp (EofRT p) (DensityTemperatureOptions t) n in1 in2 (b 0%nat) (b 1%nat) out m in
      let y := if is_set (t_y t) then 1 / get (t_y t) else 1 in
      let f := if is_set (t_f t) then get (t_f t) else 1 in
      Some (loop out n (fun i m => f * y * cvFromSesame (Rmax (rd m out i) 0)) m1)
  | CvE =>
      let T := b 0%nat in let dTdr := b 1%nat in let dTde := b 2%nat in let NE := b 3%nat in let DEDT := dTdr in let DEDR := dTde in
      let m1 := interp (TofRE p) (DensityEnergyOptions t) n in1 in2 T dTdr dTde m in
      let m2 := interp (EofRT p) (DensityOption t) n in1 T NE DEDR DEDT m1 in
      let f := if is_set (t_f t) then get (t_f t) else 1 in
      Some (loop out n (fun i m => f * cvFromSesame (Rmax (rd m DEDT i) 0)) m2)
  | BofT =>
      let E := b 0%nat in let P := b 1%nat in let DPDT := b 2%nat in let DPDR := b 3%nat in let DEDT := b 4%nat in let DEDR := b 5%nat in
      let l := DensityTemperatureOptions t in
      let m1 := interp (EofRT p) l n in1 in2 E DEDR DEDT m in
      let m2 := interp (PofRT p) l n in1 in2 P DPDR DPDT m1 in
      let x := if is_set (t_x t) then get (t_x t) else 1 in
      let f := if is_set (t_f t) then get (t_f t) else 1 in
      Some (loop out n (fun i m => f * bulkModulusFromSesame (Rmax (bmod_x x (rd m in1 i) (rd m P i) (rd m DPDR i) (rd m DPDT i) (rd m DEDR i) (rd m DEDT i)) 0)) m2)
  | BofE =>
      let T := b 0%nat in let dTdr := b 1%nat in let dTde := b 2%nat in let Etmp := b 3%nat in let DEDT := b 4%nat in let DEDR := b 5%nat in
      let P := Etmp in let DPDT := dTdr in let DPDR := dTde in
      let m1 := interp (TofRE p) (DensityEnergyOptions t) n in1 in2 T dTdr dTde m in
      let l := DensityOption t in
      let m2 := interp (EofRT p) l n in1 T Etmp DEDR DEDT m1 in
      let m3 := interp (PofRT p) l n in1 T P DPDR DPDT m2 in
      let x := if is_set (t_x t) then get (t_x t) else 1 in
      let f := if is_set (t_f t) then get (t_f t) else 1 in
      Some (loop out n (fun i m => f * bulkModulusFromSesame (Rmax (bmod_x x (rd m in1 i) (rd m P i) (rd m DPDR i) (rd m DPDT i) (rd m DEDR i) (rd m DEDT i)) 0)) m3)
  | GofT =>
      let E := b 0%nat in let dx := b 1%nat in let DEDT := b 2%nat in let DPDT := b 3%nat in let P := E in
      let l := DensityTemperatureOptions t in
      let m1 := interp (EofRT p) l n in1 in2 E dx DEDT m in
      let m2 := interp (PofRT p) l n in1 in2 P dx DPDT m1 in
      let x := if is_set (t_x t) then get (t_x t) else 1 in
      let f := if is_set (t_f t) then get (t_f t) else 1 in
      Some (loop out n (fun i m => f * ratio (pressureFromSesame (sieToSesame (rd m DPDT i / rd m DEDT i))) (x * rd m in1 i)) m2)
  | GofE =>
      let T := b 0%nat in let P := b 1%nat in let dx := b 2%nat in let DEDT := b 3%nat in let DPDT := b 4%nat in let Etmp := P in let dy := DEDT in
      let m1 := interp (TofRE p) (DensityEnergyOptions t) n in1 in2 T dx dy m in
      let l := DensityOption t in
      let m2 := interp (EofRT p) l n in1 T Etmp dx DEDT m1 in
      let m3 := interp (PofRT p) l n in1 T P dx DPDT m2 in
      let x := if is_set (t_x t) then get (t_x t) else 1 in
      let f := if is_set (t_f t) then get (t_f t) else 1 in
      Some (loop out n (fun i m => f * ratio (pressureFromSesame (sieToSesame (rd m DPDT i / rd m DEDT i))) (x * rd m in1 i)) m3)
  | SofE => None
  end.
(** 505-625 FillEos on arrays; None: UNDEFINED_ERROR. First the density and temperature steps (528-562) *)
Definition vfill_rho (o : flags) (rhos temps presses dx dy : Z) (n : nat) (m : M) : option M :=
  if f_rho o then
    if (negb (f_press o) && negb (f_temp o))%bool
    then Some (interp (RofPT p) [Xconv (pressureFromSesame 1)] n presses temps rhos dx dy m) else None
  else Some m.
Definition vfill_temp (o : flags) (rhos temps energies presses dx dy : Z) (n : nat) (m : M) : option M :=
  if f_temp o then
    if (negb (f_rho o) && negb (f_sie o))%bool
    then Some (interp (TofRE p) [Yconv (sieFromSesame 1)] n rhos energies temps dx dy m)
    else if (negb (f_rho o) && negb (f_press o))%bool
    then Some (interp (TofRP p) [Yconv (pressureFromSesame 1)] n rhos presses temps dx dy m) else None
  else Some m.
Definition vfill (o : flags) (rhos temps energies presses cvs bmods scratch : Z) (n : nat) (m : M) : option M :=
  let b := buf scratch n in
  let DPDT := b 0%nat in let DPDR := b 1%nat in let DEDT := b 2%nat in let DEDR := b 3%nat in let dx := DPDT in let dy := DPDR in
  if any o then
    match vfill_rho o rhos temps presses dx dy n m with
    | None => None
    | Some m1 =>
      match vfill_temp o rhos temps energies presses dx dy n m1 with
      | None => None
      | Some m2 =>
        let m3 := if (f_sie o || (f_cv o || f_bmod o))%bool
                  then interp (EofRT p) [Fconv (sieFromSesame 1)] n rhos temps energies DEDR DEDT m2 else m2 in
        let m4 := if (f_press o || f_bmod o)%bool
                  then interp (PofRT p) [Fconv (pressureFromSesame 1)] n rhos temps presses DPDR DPDT m3 else m3 in
        let m5 := if f_cv o then loop cvs n (fun i m => Rmax (rd m DEDT i) 0) m4 else m4 in
        Some (if f_bmod o then loop bmods n (fun i m =>
                Rmax (bmod_sesame (rd m rhos i) (rd m presses i) (rd m DPDR i) (rd m DPDT i) (rd m DEDR i) (rd m DEDT i)) 0) m5 else m5)
      end
    end
  else None.
End E.

(** ** ShiftedEOS<EOSPAC> and FlooredEnergy<EOSPAC>, raw-pointer overloads, no Transform *)
(** shifted_eos.hpp:192-362: the shifted energies go to scratch[0, num), EOSPAC gets &scratch[num]; also for MinInternalEnergyFromDensity (235-246),
    which shifts nothing beforehand *)
Definition shifted_vector (p : eospac) (sh : R) (q : meth) (in1 in2 out scratch : Z) (n : nat) (m : Vector_Model.mem R) : option (Vector_Model.mem R) :=
  let none := mkTr None None None in
  let next := buf scratch n 1 in
  let unshift r := match r with Some m => Some (loop out n (fun i m => rd m out i + sh) m) | None => None end in
  match q with
  | EofT => unshift (vector p EofT in1 in2 out scratch n none m)
  | MinE => unshift (vector p MinE in1 in2 out next n none m)
  | _ => if fromE q then vector p q in1 scratch out next n none (loop scratch n (fun i m => rd m in2 i - sh) m)
         else vector p q in1 in2 out scratch n none m
  end.
(** shifted_eos.hpp:67-146 *)
Definition shifted_query (query : meth -> R -> R -> option R) (sh : R) (q : meth) (rho x : R) : option R :=
  match q with
  | EofT | MinE => match query q rho x with Some v => Some (v + sh) | None => None end
  | _ => if fromE q then query q rho (x - sh) else query q rho x
  end.
(** shifted_eos.hpp:374-380 and floored_energy.hpp:362-368, in units of sizeof(Real): the name of the method ends in FromDensityInternalEnergy *)
Definition modifier_scratch_size (q : meth) (n : nat) : nat := (scratch_size (Some q) n + (if fromE q then n else 0))%nat.
(** floored_energy.hpp:216-227 *)
Definition floored_min (p : eospac) (in1 out scratch : Z) (n : nat) (m : Vector_Model.mem R) : option (Vector_Model.mem R) :=
  vector p MinE in1 in1 out (buf scratch n 1) n (mkTr None None None) m.
