(** Model of the Helmholtz EOS (eos/eos_helmholtz.hpp) over the exact reals: radiation, ions, Coulomb corrections, tabulated electrons,
    their sum, reading the table, and every query.
    Simplifications: the literals 2.30258509299405 (math_utils::pow10, HelmCoulomb::LN10) and M_E, M_PI stand for ln 10, e and pi;
    math_utils::pow<n> is the n-th power (C02); std::log of a non-positive number is not NaN (the theorems' hypotheses exclude it).
    [robust::ratio(1, cell width)] of the table is the inverse width (C01; the widths are at least 1e-13).
    The lambda is its mean atomic mass and number and, if it has that slot, the cached log temperature; a null lambda aborts
    (SafeMustGet) and is not modelled. When the slot is missing SafeGet leaves the C++ local uninitialised: parameter [junk].
    Verbose output is dropped. Serialisation of the table is in Serialization_Model. *)
From Coq Require Import ZArith Reals Bool List.
From Flocq Require Import Core.
From Verif Require Import Arith Robust_Model RootFinding_Model Hermite_Model Thermo_Spec.
Import ListNotations.
Local Open Scope R_scope.

(** eos_helmholtz.hpp:161-164 (all other line numbers below are of this file) HelmUtils::DERIV: a value and its derivatives by density, temperature, abar and zbar *)
Record vec5 := mk5 { VAL : R; DDR : R; DDT : R; DDA : R; DDZ : R }.
Definition zero5 : vec5 := mk5 0 0 0 0 0.
Definition add5 (a b : vec5) : vec5 := mk5 (VAL a + VAL b) (DDR a + DDR b) (DDT a + DDT b) (DDA a + DDA b) (DDZ a + DDZ b).

Definition log10 (x : R) : R := ln x / ln 10.
(** base/math_utils.hpp:56-59 *)
Definition pow10 (x : R) : R := exp (ln 10 * x).

(** ** Radiation *)
(** :333-336 *)
Definition SIG_O_C : R := 567040047374 / 10 ^ 16 / 29979245800.
Definition PREFACTOR : R := 4 / 3 * SIG_O_C.
(** :1280-1320 HelmRad::GetFromDensityTemperature: (p, e, s) *)
Definition rad (rho temp : R) : vec5 * vec5 * vec5 :=
  let rhoi := ratio 1 rho in
  let tempi := ratio 1 temp in
  let T3 := temp ^ 3 in
  let T4 := T3 * temp in
  let P := PREFACTOR * T4 in
  let dPdT := 4 * PREFACTOR * T3 in
  let PoR := P * rhoi in
  let e := 3 * PoR in
  let dedR := - e * rhoi in
  let dedT := 3 * dPdT * rhoi in
  let s := (PoR + e) * tempi in
  let dsdR := ((0 - PoR) * rhoi + dedR) * tempi in
  let dsdT := (dPdT * rhoi + dedT - s) * tempi in
  (mk5 P 0 dPdT 0 0, mk5 e dedR dedT 0 0, mk5 s dsdR dsdT 0 0).

(** ** Ions *)
(** :353-360 *)
Definition KB : R := 13806504 / 10 ^ 23.
Definition NA : R := 602214199 * 10 ^ 15.
Definition KBNA : R := KB * NA.
Definition KBi : R := 1 / KB.
Definition LSWOT15 : R := 46682612633059801 / 10 ^ 15.
(** :507-513 GetMassFractions *)
Definition GetMassFractions (rho ytot : R) : R * R * R := let xni := NA * ytot * rho in (xni, NA * ytot, - xni * ytot).
(** :1322-1367 HelmIon::GetFromDensityTemperature *)
Definition ion (rho temp y ytot xni dxnidd dxnida : R) : vec5 * vec5 * vec5 :=
  let kbT := KB * temp in
  let P := xni * kbT in
  let dPdR := dxnidd * kbT in
  let dPdT := xni * KB in
  let dPdA := dxnida * kbT in
  let rhoi := ratio 1 rho in
  let PoR := P * rhoi in
  let e := 15 / 10 * PoR in
  let dedR := (15 / 10 * dPdR - e) * rhoi in
  let dedT := 15 / 10 * dPdT * rhoi in
  let dedA := 15 / 10 * dPdA * rhoi in
  let tempi := ratio 1 temp in
  let KBNAY := KBNA * ytot in
  let s := (PoR + e) * tempi + KBNAY * y in
  let dsdR := (dPdR * rhoi - P * rhoi * rhoi + dedR) * tempi - KBNAY * rhoi in
  let dsdT := (dPdT * rhoi + dedT) * tempi - (PoR + e) * tempi * tempi + 15 / 10 * KBNAY * tempi in
  let dsdA := (dPdA * rhoi + dedA) * tempi + KBNAY * ytot * (25 / 10 - y) in
  (mk5 P dPdR dPdT dPdA 0, mk5 e dedR dedT dedA 0, mk5 s dsdR dsdT dsdA 0).

(** ** Coulomb corrections *)
(** :378 *)
Definition ELECTRON_CHARGE_ESU : R := 480320427 / 10 ^ 18.
(** std::cbrt *)
Definition cbrt (s : R) : R := Rpower s (1 / 3).
(** :1378-1385 *)
Definition ca1 : R := - (898004 / 1000000).
Definition cb1 : R := 96786 / 100000.
Definition cc1 : R := 220703 / 1000000.
Definition cd1 : R := - (86097 / 100000).
Definition ce1 : R := 25269 / 10000.
Definition ca2 : R := 29561 / 100000.
Definition cb2 : R := 19885 / 10000.
Definition cc2 : R := 288675 / 1000000.
(** :1396-1413: the ion coupling parameter and its derivatives (plasg, plasgdd, plasgdt, plasgda, plasgdz) *)
Definition plasma (temp zbar xni dxnidd dxnida : R) : vec5 :=
  let kbT := KB * temp in
  let s := 4 / 3 * PI * xni in
  let dsdd := 4 / 3 * PI * dxnidd in
  let dsda := 4 / 3 * PI * dxnida in
  let si := ratio 1 s in
  let lami := ratio 1 (cbrt s) in
  let lamidd := - lami * (1 / 3) * dsdd * si in
  let lamida := - lami * (1 / 3) * dsda * si in
  let plasg := (ELECTRON_CHARGE_ESU * zbar) ^ 2 / (kbT * lami) in
  let plasg_o_lami := ratio plasg lami in
  mk5 plasg (- plasg_o_lami * lamidd) (- ratio plasg temp) (- plasg_o_lami * lamida) (2 * ratio plasg zbar).
(** :1389-1394, 1415-1472: corrections before damping *)
Definition coul_raw (rho temp ytot abar zbar xni dxnidd dxnida : R) : vec5 * vec5 * vec5 :=
  let kbT := KB * temp in
  let pion := xni * kbT in
  let dpiondd := dxnidd * kbT in
  let dpiondt := xni * KB in
  let dpionda := dxnida * kbT in
  let g := plasma temp zbar xni dxnidd dxnida in
  let plasg := VAL g in
  let abari := ratio 1 abar in
  if Rle_bool 0 plasg then
    let x := sqrt (sqrt plasg) in
    let y := KBNA * ytot in
    let c1_o_x := ratio cc1 x in
    let e0 := y * temp * (ca1 * plasg + cb1 * x + c1_o_x + cd1) in
    let p0 := 1 / 3 * rho * e0 in
    let s0 := - y * (3 * cb1 * x - 5 * c1_o_x + cd1 * (ln plasg - 1) - ce1) in
    let y := KBNA * temp * ytot * (ca1 + ratio (25 / 100) plasg * (cb1 * x - c1_o_x)) in
    let e := mk5 e0 (y * DDR g) (y * DDT g + ratio e0 temp) (y * DDA g - e0 * abari) (y * DDZ g) in
    let y := 1 / 3 * rho in
    let p := mk5 p0 (1 / 3 * e0 + y * DDR e) (y * DDT e) (y * DDA e) (y * DDZ e) in
    let y := - KBNA * plasg * abari * (75 / 100 * cb1 * x + 125 / 100 * c1_o_x + cd1) in
    let s := mk5 s0 (y * DDR g) (y * DDT g) (y * DDA g - s0 * abari) (y * DDZ g) in
    (p, e, s)
  else
    let x := plasg * sqrt (Rabs plasg) in
    let y := if Rlt_bool 0 plasg then Rpower plasg cb2 else 0 in (* std::pow of a negative base: NaN *)
    let z := cc2 * x - 1 / 3 * ca2 * y in
    let plasgi := ratio 1 plasg in
    let rhoi := ratio 1 rho in
    let p0 := - pion * z in
    let e0 := 3 * p0 * rhoi in
    let s0 := - KBNA * abari * (cc2 * x - ca2 * ratio (cb2 - 1) cb2 * y) in
    let s := 15 / 10 * cc2 * x * plasgi - 1 / 3 * ca2 * cb2 * y * plasgi in
    let p := mk5 p0 (- dpiondd * z - pion * s * DDR g) (- dpiondt * z - pion * s * DDT g) (- dpionda * z - pion * s * DDA g)
               (- 0 * z - pion * s * DDZ g) in
    let s := 3 * rhoi in
    let e := mk5 e0 (s * DDR p - e0 * rhoi) (s * DDT p) (s * DDA p) (s * DDZ p) in
    let s := - KBNA * abari * plasgi * (15 / 10 * cc2 * x - ca2 * (cb2 - 1) * y) in
    (p, e, mk5 s0 (s * DDR g) (s * DDT g) (s * DDA g - s0 * abari) (s * DDZ g)).
(** :395-401 butterworth<12>: gain and its derivative *)
Definition butterworth (freq cfreq : R) : R * R :=
  let g := ratio 1 (1 + ratio freq cfreq ^ 24) in
  (g, ratio (- g ^ 2 * 2 * 12) (cfreq ^ 24) * freq ^ 23).
(** :1475-1482: (gain, dgaindd, dgaindt) *)
Definition damping (rho temp : R) : R * R * R :=
  let '(g_r, dgdf_r) := butterworth (log10 temp - 45 / 10) 3 in
  let '(g_t, dgdf_t) := butterworth (log10 rho + 1) 6 in
  (1 - g_t * g_r, - ratio (g_t * dgdf_r) (rho * ln 10), - ratio (g_r * dgdf_t) (temp * ln 10)).
(** :1484-1503 *)
Definition damp (d : R * R * R) (v : vec5) : vec5 :=
  let '(gain, dgaindd, dgaindt) := d in
  let v0 := VAL v * gain in
  mk5 v0 (gain * DDR v + ratio (v0 * dgaindd) gain) (gain * DDT v + ratio (v0 * dgaindt) gain) (gain * DDA v) (gain * DDZ v).
(** :1369-1504 HelmCoulomb::GetFromDensityTemperature *)
Definition coulomb (rho temp ytot abar zbar xni dxnidd dxnida : R) : vec5 * vec5 * vec5 :=
  let '(p, e, s) := coul_raw rho temp ytot abar zbar xni dxnidd dxnida in
  let d := damping rho temp in
  (damp d p, damp d e, damp d s).

(** ** Electrons *)
(** :303-325 grid of the table: [lTMin_], [lTMax_], [lRhoMin_], [lRhoMax_], NTEMP, NRHO *)
Definition NTEMP : nat := 101.
Definition NRHO : nat := 271.
Definition lTMin : R := 3.
Definition lTMax : R := 13.
Definition lRhoMin : R := -12.
Definition lRhoMax : R := 15.
Definition TMin : R := 10 ^ 3.
Definition rhoMin : R := / 10 ^ 12.
Definition rhoMax : R := 10 ^ 15.
(** node k of a regular grid with n points (Spiner::RegularGrid1D::x) *)
Definition node (lo hi : R) (n k : nat) : R := lo + INR k * ((hi - lo) / (INR n - 1)).
(** RegularGrid1D::index: the cell of x, kept inside the grid *)
Definition index (lo hi : R) (n : nat) (x : R) : nat :=
  Z.to_nat (Z.max 0 (Z.min (Ztrunc ((x - lo) / ((hi - lo) / (INR n - 1)))) (Z.of_nat n - 2))).
(** :976-985: rho_ and T_ *)
Definition rho_ (i : nat) : R := pow10 (node lRhoMin lRhoMax NRHO i).
Definition T_ (j : nat) : R := pow10 (node lTMin lTMax NTEMP j).

(** :282-289 the tables: [tf m n j i] is the table of the m-th density and n-th temperature derivative of the free energy at
    temperature node j and density node i (f_ fd_ ft_ ...); likewise the pressure slope dpdf*, chemical potential ef*, number density xf* *)
Record table := mkTable { tf : nat -> nat -> nat -> nat -> R; tp : nat -> nat -> nat -> nat -> R;
                          te : nat -> nat -> nat -> nat -> R; tx : nat -> nat -> nat -> nat -> R }.

(** :179-205, 967-974 reading: the file is the list of its numbers; for every (j, i), j outermost, each table takes one number;
    None: "Error reading the Helmholtz free energy table" (abort) *)
Definition setn (f : nat -> nat -> nat -> R) (k j i : nat) (v : R) : nat -> nat -> nat -> R :=
  fun k' j' i' => if (Nat.eqb k' k && Nat.eqb j' j && Nat.eqb i' i)%bool then v else f k' j' i'.
Fixpoint read_tables (n k j i : nat) (a : nat -> nat -> nat -> R) (file : list R) : option ((nat -> nat -> nat -> R) * list R) :=
  match n with
  | O => Some (a, file)
  | S n' => match file with [] => None | x :: r => read_tables n' (S k) j i (setn a k j i x) r end
  end.
Fixpoint read_row (count nt j i : nat) (a : nat -> nat -> nat -> R) (file : list R) : option ((nat -> nat -> nat -> R) * list R) :=
  match count with
  | O => Some (a, file)
  | S c => match read_tables nt 0 j i a file with None => None | Some (a', r) => read_row c nt j (S i) a' r end
  end.
Fixpoint read_rows (count n0 nt j : nat) (a : nat -> nat -> nat -> R) (file : list R) : option ((nat -> nat -> nat -> R) * list R) :=
  match count with
  | O => Some (a, file)
  | S c => match read_row n0 nt j 0 a file with None => None | Some (a', r) => read_rows c n0 nt (S j) a' r end
  end.
(** SetTablesFromFile *)
Definition SetTablesFromFile (nt : nat) (file : list R) := read_rows NTEMP NRHO nt 0 (fun _ _ _ => 0) file.
(** argument lists of :967-974: f fd ft fdd ftt fdt fddt fdtt fddtt, and f fd ft fdt *)
Definition slot9 (m n : nat) : nat :=
  match m, n with
  | 0, 0 => 0 | 1, 0 => 1 | 0, 1 => 2 | 2, 0 => 3 | 0, 2 => 4 | 1, 1 => 5 | 2, 1 => 6 | 1, 2 => 7 | _, _ => 8
  end%nat.
Definition slot4 (m n : nat) : nat := match m, n with 0, 0 => 0 | 1, 0 => 1 | 0, 1 => 2 | _, _ => 3 end%nat.
(** :962-989 InitDataFile_ *)
Definition InitDataFile (file : list R) : option table :=
  match SetTablesFromFile 9 file with None => None | Some (a, r1) =>
  match SetTablesFromFile 4 r1 with None => None | Some (b, r2) =>
  match SetTablesFromFile 4 r2 with None => None | Some (c, r3) =>
  match SetTablesFromFile 4 r3 with None => None | Some (d, _) =>
    Some (mkTable (fun m n => a (slot9 m n)) (fun m n => b (slot4 m n)) (fun m n => c (slot4 m n)) (fun m n => d (slot4 m n)))
  end end end end.

(** the four corners of cell (jat, iat), read as :1025-1061 and :1166-1181 do *)
Definition corners (t : nat -> nat -> nat -> nat -> R) (jat iat : nat) : nodal :=
  fun m n p q => t m n (if q then S jat else jat) (if p then S iat else iat).

Record eout := mkEout { pele : vec5; eele : vec5; sele : vec5; etaele : vec5; xne : vec5 }.
(** :997-1278 HelmElectrons::GetFromDensityTemperature; the arrays it does not write keep the caller's zeros (:1513-1519) *)
Definition electrons (tb : table) (rho lT Ye Ytot De lDe : R) (only_e : bool) : eout :=
  let rho := Rmin rhoMax (Rmax rhoMin rho) in
  let De := Rmin rhoMax (Rmax rhoMin De) in
  let lDe := Rmin lRhoMax (Rmax lRhoMin lDe) in
  let T := pow10 lT in
  let iat := index lRhoMin lRhoMax NRHO lDe in
  let jat := index lTMin lTMax NTEMP lT in
  let dth := T_ (S jat) - T_ jat in
  let dd := rho_ (S iat) - rho_ iat in
  let xt := Rmax 0 ((T - T_ jat) * (1 / dth)) in
  let xd := Rmax 0 ((De - rho_ iat) * (1 / dd)) in
  let F od ot := interp5 (corners (tf tb) jat iat) od ot dd xd dth xt in
  let free_en := F 0%nat 0%nat in
  let df_t := F 0%nat 1%nat in
  let df_tt := F 0%nat 2%nat in
  if only_e then
    mkEout zero5 (mk5 (Ye * free_en + T * (- df_t) * Ye) 0 (T * (- df_tt) * Ye) 0 0) zero5 zero5 zero5
  else
    let df_d := F 1%nat 0%nat in
    let df_dt := F 1%nat 1%nat in
    let C t od ot := interp3 (corners t jat iat) od ot dd xd dth xt in
    let p1 := Rmax 0 (Ye * C (tp tb) 0%nat 0%nat) in
    let x := C (te tb) 1%nat 0%nat in
    let eta := mk5 (C (te tb) 0%nat 0%nat) (Ye * x) (C (te tb) 0%nat 1%nat) (- x * De * Ytot) (x * rho * Ytot) in
    let x := Rmax 0 (C (tx tb) 1%nat 0%nat) in
    let ne := mk5 (C (tx tb) 0%nat 0%nat) (Ye * x) (C (tx tb) 0%nat 1%nat) (- x * De * Ytot) (x * rho * Ytot) in
    let x := De * De in
    let p0 := x * df_d in
    let p2 := x * df_dt in
    let s := p1 / Ye - 2 * De * df_d in
    let p := mk5 p0 p1 p2 (- Ytot * (2 * p0 + s * De)) (rho * Ytot * (2 * De * df_d + s)) in
    let x := Ye * Ye in
    let s0 := - df_t * Ye in
    let s2 := - df_tt * Ye in
    let s1 := - df_dt * x in
    let s3 := Ytot * (Ye * df_dt * De - s0) in
    let s4 := - Ytot * (Ye * df_dt * rho + df_t) in
    mkEout p
      (mk5 (Ye * free_en + T * s0) (x * df_d + T * s1) (T * s2) (- Ye * Ytot * (free_en + df_d * De) + T * s3)
           (Ytot * (free_en + Ye * df_d * rho) + T * s4))
      (mk5 s0 s1 s2 s3 s4) eta ne.

(** ** The whole EOS *)
(** :421-443 Options *)
Record options := mkO { RAD : bool; GAS : bool; COUL : bool; IONIZED : bool; DEGENERATE : bool; NEWTON : bool }.

Section Helmholtz.
Variables (tb : table) (opt : options).

(** :744-753 GetElectronDensities_: (ytot, ye, ywot, De, lDe) *)
Definition ytot_of (abar : R) : R := ratio 1 abar.
Definition ye_of (abar zbar : R) : R := zbar * ytot_of abar.
Definition ywot_of (rho abar : R) : R := ln (ratio (abar * abar * sqrt abar) (rho * NA)).
Definition De_of (rho abar zbar : R) : R := rho * ye_of abar zbar.
Definition lDe_of (rho abar zbar : R) : R := log10 (De_of rho abar zbar).

Record hout := mkHout { hp : vec5; he : vec5; hs : vec5; heta : vec5; hne : vec5 }.
(** :1532-1551: ions *)
Definition ions_part (rho T abar zbar : R) : vec5 * vec5 * vec5 :=
  let lnT := log10 T / log10 (exp 1) in
  if (IONIZED opt && DEGENERATE opt) || negb (IONIZED opt) then
    let '(xni, dxnidd, dxnida) := GetMassFractions rho (ytot_of abar) in
    let y := ywot_of rho abar + LSWOT15 * lnT in
    ion rho T y (ytot_of abar) xni dxnidd dxnida
  else
    let abar_ion := ratio abar (zbar + 1) in
    let ytot_ion := ratio 1 abar_ion in
    let ywot_ion := ratio (ln (abar_ion * abar_ion * sqrt abar_ion)) (rho * NA) in
    let y_ion := ywot_ion + LSWOT15 * lnT in
    let '(xni, dxnidd, dxnida) := GetMassFractions rho ytot_ion in
    ion rho T y_ion ytot_ion xni dxnidd dxnida.
Definition zeros : vec5 * vec5 * vec5 := (zero5, zero5, zero5).
(** :1506-1571 GetFromDensityLogTemperature_ with the densities of GetElectronDensities_; with [only_e] the code leaves p and s
    unwritten and the callers do not read them *)
Definition parts (rho T abar zbar : R) (only_e : bool) : hout :=
  let '(prad, erad, srad) := if RAD opt then rad rho T else zeros in
  let '(pion, eion, sion) := if GAS opt then ions_part rho T abar zbar else zeros in
  let el := if GAS opt && DEGENERATE opt
            then electrons tb rho (log10 T) (ye_of abar zbar) (ytot_of abar) (De_of rho abar zbar) (lDe_of rho abar zbar) only_e
            else mkEout zero5 zero5 zero5 zero5 zero5 in
  let '(pcoul, ecoul, scoul) :=
    if GAS opt && DEGENERATE opt && COUL opt then
      let '(xni, dxnidd, dxnida) := GetMassFractions rho (ytot_of abar) in
      coulomb rho T (ytot_of abar) abar zbar xni dxnidd dxnida
    else zeros in
  mkHout (add5 (add5 (add5 prad pion) (pele el)) pcoul) (add5 (add5 (add5 erad eion) (eele el)) ecoul)
         (add5 (add5 (add5 srad sion) (sele el)) scoul) (etaele el) (xne el).

(** :723-732 ComputeGamma1_, :734-742 ComputeGamma3_ *)
Definition Gamma1 (rho T : R) (p e : vec5) : R :=
  let chit := ratio T (VAL p) * DDT p in
  let chid := ratio (DDR p * rho) (VAL p) in
  let x := ratio (VAL p * chit) (rho * T * DDT e) in
  chit * x + chid.
Definition Gamma3 (rho T : R) (p e : vec5) : R :=
  let chit := ratio T (VAL p) * DDT p in
  let x := ratio (VAL p * chit) (rho * T * DDT e) in
  x + 1.

(** the lambda: IndexableTypes::MeanAtomicMass, MeanAtomicNumber, LogTemperature (if the indexer has it) *)
Record lambda := mkL { l_abar : R; l_zbar : R; l_lT : option R }.
Definition set_lT (l : lambda) (v : R) : lambda := mkL (l_abar l) (l_zbar l) (match l_lT l with Some _ => Some v | None => None end).

(** :755-758 lTAnalytic_ *)
Definition lTAnalytic (rho e ni ne : R) : R := log10 (2 / 3 * ratio (e * rho) (ni + ne) * KBi).
(** :809-810 *)
Definition ROOT_THRESH : R := / 10 ^ 14.
Definition HELM_EOS_EPS : R := / 10 ^ 10.
Definition in_lT (l : R) : bool := Rle_bool lTMin l && Rle_bool l lTMax.

(** the functions handed to the root finders, :896-901, :910-915 *)
Definition e_only (rho abar zbar T : R) : vec5 := he (parts rho T abar zbar true).
(** regula falsi with the analytic temperature as fallback, :909-922, :925-938 *)
Definition T_regula (rho e abar zbar ni ne Tguess : R) : R :=
  match @regula_falsi RArith (fun T : R => VAL (e_only rho abar zbar T)) e Tguess (pow10 lTMin) (pow10 lTMax) ROOT_THRESH ROOT_THRESH with
  | RFDone SUCCESS (Some T) _ => T
  | _ => pow10 (lTAnalytic rho e ni (if IONIZED opt then ne else 0))
  end.
(** :867-960 lTFromRhoSie_: before the last SafeGet *)
Definition lT_found (junk rho e : R) (l : lambda) : R :=
  let abar := l_abar l in let zbar := l_zbar l in
  let ni := ratio 1 abar * rho * NA in
  let ne := zbar * ni in
  let T :=
    if RAD opt || DEGENERATE opt || COUL opt then
      let g := match l_lT l with Some v => v | None => junk end in
      let lTguess := if in_lT g then g else let g2 := lTAnalytic rho e ni ne in if in_lT g2 then g2 else 8 in
      let Tguess := pow10 lTguess in
      if NEWTON opt then
        match @newton_raphson RArith (fun T : R => (VAL (e_only rho abar zbar T), DDT (e_only rho abar zbar T))) e Tguess
                (pow10 lTMin) (pow10 lTMax) HELM_EOS_EPS false with
        | (SUCCESS, T, _) => T
        | _ => T_regula rho e abar zbar ni ne Tguess
        end
      else T_regula rho e abar zbar ni ne Tguess
    else pow10 (lTAnalytic rho e ni (if IONIZED opt then ne else 0)) in
  let lT := log10 T in
  let lT := if Rlt_bool lT lTMin then lTMin else lT in
  if Rlt_bool lTMax lT then lTMax else lT.
(** :958-959: the last statement is a SafeGet, not a SafeSet: a cached value replaces the result *)
Definition lTFromRhoSie (junk rho e : R) (l : lambda) : R :=
  match l_lT l with Some v => v | None => lT_found junk rho e l end.

(** :818-865 FillEos; None: one of the two PORTABLE_ALWAYS_REQUIRE fails. The lambda is written only when temperature is an input. *)
Definition fill_core (junk : R) (o : flags) (l : lambda) (s : fstate) : fstate * lambda :=
  let rho := s_rho s in
  let abar := l_abar l in let zbar := l_zbar l in
  let '(temp, l') := if f_temp o then (pow10 (lTFromRhoSie junk rho (s_sie s) l), l) else (s_temp s, set_lT l (log10 (s_temp s))) in
  let h := parts rho temp abar zbar false in
  let s := upd_temp s temp in
  let s := cond_upd (f_sie o) upd_sie (fun _ => VAL (he h)) s in
  let s := cond_upd (f_press o) upd_press (fun _ => VAL (hp h)) s in
  let s := cond_upd (f_cv o) upd_cv (fun _ => DDT (he h)) s in
  let s := cond_upd (f_bmod o) upd_bmod (fun _ => Rmax EPS (VAL (hp h) * Gamma1 rho temp (hp h) (he h))) s in
  (s, l').
Definition FillEos (junk : R) (o : flags) (l : lambda) (s : fstate) : option (fstate * lambda) :=
  if f_rho o then None else if f_temp o && f_sie o then None else Some (fill_core junk o l s).

(** :515-614 the scalar queries: FillEos on locals ([u]: the uninitialised ones), asking for the named quantity *)
Definition ask (t e p c b : bool) : flags := mkF false t e p c b.
Definition got {B} (sel : fstate -> B) (r : option (fstate * lambda)) : option B := option_map (fun x => sel (fst x)) r.
Definition at_rho_T (u : fstate) (rho T : R) : fstate := mkS rho T (s_sie u) (s_press u) (s_cv u) (s_bmod u).
Definition at_rho_e (u : fstate) (rho e : R) : fstate := mkS rho (s_temp u) e (s_press u) (s_cv u) (s_bmod u).
Definition TemperatureFromDensityInternalEnergy (junk : R) (u : fstate) (rho sie : R) (l : lambda) :=
  got s_temp (FillEos junk (ask true false false false false) l (at_rho_e u rho sie)).
Definition InternalEnergyFromDensityTemperature (junk : R) (u : fstate) (rho T : R) (l : lambda) :=
  got s_sie (FillEos junk (ask false true false false false) l (at_rho_T u rho T)).
Definition PressureFromDensityTemperature (junk : R) (u : fstate) (rho T : R) (l : lambda) :=
  got s_press (FillEos junk (ask false false true false false) l (at_rho_T u rho T)).
Definition PressureFromDensityInternalEnergy (junk : R) (u : fstate) (rho sie : R) (l : lambda) :=
  got s_press (FillEos junk (ask true false true false false) l (at_rho_e u rho sie)).
Definition SpecificHeatFromDensityTemperature (junk : R) (u : fstate) (rho T : R) (l : lambda) :=
  got s_cv (FillEos junk (ask false false false true false) l (at_rho_T u rho T)).
Definition SpecificHeatFromDensityInternalEnergy (junk : R) (u : fstate) (rho sie : R) (l : lambda) :=
  got s_cv (FillEos junk (ask true false false true false) l (at_rho_e u rho sie)).
Definition BulkModulusFromDensityTemperature (junk : R) (u : fstate) (rho T : R) (l : lambda) :=
  got s_bmod (FillEos junk (ask false false false false true) l (at_rho_T u rho T)).
Definition BulkModulusFromDensityInternalEnergy (junk : R) (u : fstate) (rho sie : R) (l : lambda) :=
  got s_bmod (FillEos junk (ask true false false false true) l (at_rho_e u rho sie)).
(** :557-572; GetFromDensityTemperature_ (:760-775) and GetFromDensityInternalEnergy_ (:777-792) *)
Definition EntropyFromDensityTemperature (rho T : R) (l : lambda) : R := VAL (hs (parts rho T (l_abar l) (l_zbar l) false)).
Definition EntropyFromDensityInternalEnergy (junk rho sie : R) (l : lambda) : R :=
  VAL (hs (parts rho (pow10 (lTFromRhoSie junk rho sie l)) (l_abar l) (l_zbar l) false)).
(** :617-645 *)
Definition GruneisenParamFromDensityTemperature (rho T : R) (l : lambda) : R :=
  let h := parts rho T (l_abar l) (l_zbar l) false in Gamma3 rho T (hp h) (he h) - 1.
Definition GruneisenParamFromDensityInternalEnergy (junk rho sie : R) (l : lambda) : R :=
  let T := pow10 (lTFromRhoSie junk rho sie l) in
  let h := parts rho T (l_abar l) (l_zbar l) false in Gamma3 rho T (hp h) (he h) - 1.
(** :657-672 *)
Definition MeanAtomicMassFromDensityTemperature (rho T : R) (l : lambda) : R := l_abar l.
Definition MeanAtomicNumberFromDensityTemperature (rho T : R) (l : lambda) : R := l_zbar l.
(** :680-695 ValuesAtReferenceState: the state FillEos leaves, dpde and dvdt *)
Definition ValuesAtReferenceState (junk : R) (u : fstate) (l : lambda) : option (fstate * R * R) :=
  match FillEos junk (ask false true true true true) l (at_rho_T u (10 ^ 7) (15 * 10 ^ 8)) with
  | Some (s, l') => Some (s, GruneisenParamFromDensityTemperature (s_rho s) (s_temp s) l' * s_rho s, 0)
  | None => None
  end.
(** :696-717 DensityEnergyFromPressureTemperature; None: abort *)
Definition DensityEnergyFromPressureTemperature (press temp : R) (l : lambda) : option (R * R) :=
  match @regula_falsi RArith (fun r : R => VAL (hp (parts r temp (l_abar l) (l_zbar l) false))) press (10 ^ 7) rhoMin rhoMax
          (/ 10 ^ 8) (/ 10 ^ 8) with
  | RFDone SUCCESS (Some rho) _ =>
      if Rlt_bool rho 0 then None else Some (rho, VAL (he (parts rho temp (l_abar l) (l_zbar l) false)))
  | _ => None
  end.
End Helmholtz.
