(** Model of StellarCollapse (eos/eos_stellar_collapse.hpp): reading a table, smoothing it, moving it to the fast-log grid, the
    cold and hot curves, saving and loading, and every query. Exact reals; NaN tests of CheckParams are vacuous over R.
    FastMath::log10/pow10 are the pair [L] (C05 says how far each variant is one); std::log10 and std::pow(10, .) are the real ones.
    HDF5 files are what the code reads from them: numbers and arrays under names. Spiner (not in the repository) is modelled by what
    Spiner::DataBox documents: a regular grid per axis and multilinear interpolation, continued linearly outside the grid.
    The lambda is modelled by its electron fraction and, if it has room for it, the cached log temperature; a null lambda aborts
    (checkLambda_, :311-316) and is not modelled. Root counters, status_ and messages are dropped. *)
From Coq Require Import ZArith Reals List Bool String.
From Flocq Require Import Core.
From Verif Require Import Arith Robust_Model RootFinding_Model Thermo_Spec SpinerUtil_Model Spiner_Model.
Import ListNotations.
Local Open Scope R_scope.

(** ** Spiner: RegularGrid1D::index, weights and DataBox::interpToReal (library) *)
Definition cell (g : RegGrid) (x : R) : Z := Z.max 0 (Z.min (Ztrunc ((x - g_min g) / g_dx g)) (g_N g - 2)).
Definition weight (g : RegGrid) (x : R) : R := (x - g_x g (cell g x)) / g_dx g.
Definition lerp (w a b : R) : R := (1 - w) * a + w * b.
(** slowest index first: Ye, log T, log rho *)
Record DB3 := mkDB3 { d_Y : RegGrid; d_T : RegGrid; d_R : RegGrid; d_at : Z -> Z -> Z -> R }.
Record DB2 := mkDB2 { e_Y : RegGrid; e_R : RegGrid; e_at : Z -> Z -> R }.
Definition interp1 (g : RegGrid) (a : Z -> R) (x : R) : R :=
  let i := cell g x in lerp (weight g x) (a i) (a (i + 1)%Z).
Definition interp3 (d : DB3) (y t r : R) : R :=
  interp1 (d_Y d) (fun i => interp1 (d_T d) (fun j => interp1 (d_R d) (d_at d i j) r) t) y.
Definition interp2 (d : DB2) (y r : R) : R :=
  interp1 (e_Y d) (fun i => interp1 (e_R d) (e_at d i) r) y.

(** ** Loops over the entries of a table *)
Definition zseq (a b : Z) : list Z := map (fun k => (a + Z.of_nat k)%Z) (seq 0 (Z.to_nat (b - a))).
Definition arr3 := Z -> Z -> Z -> R.
Definition set3 (a : arr3) (i j k : Z) (v : R) : arr3 :=
  fun i' j' k' => if (Z.eqb i' i && Z.eqb j' j && Z.eqb k' k)%bool then v else a i' j' k'.
(** for iY in lY, for iT in lT, for irho in lR: a(iY, iT, irho) = f(a, iY, iT, irho) *)
Definition for3 (lY lT lR : list Z) (f : arr3 -> Z -> Z -> Z -> R) (a : arr3) : arr3 :=
  fold_left (fun a iY => fold_left (fun a iT => fold_left (fun a ir => set3 a iY iT ir (f a iY iT ir)) lR a) lT a) lY a.

(** ** The median filter *)
Definition DELTASMOOTH : R := 10.   (* :452 *)
Definition MF_W : Z := 3.           (* :453 *)
(** std::qsort with the comparator of :1095-1099 *)
Fixpoint insert (x : R) (l : list R) : list R :=
  match l with [] => [x] | y :: r => if Rle_bool x y then x :: l else y :: insert x r end.
Fixpoint isort (l : list R) : list R := match l with [] => [] | x :: r => insert x (isort r) end.
(** :1094-1104 *)
Definition findMedian_ (buffer : list R) : R :=
  let size := List.length buffer in
  let s := isort buffer in
  if Nat.even size then 1 / 2 * (nth ((size - 1) / 2) s 0 + nth (size / 2) s 0) else nth (size / 2) s 0.
(** :1081-1091 *)
Definition fillMedianBuffer_ (width iY iT irho : Z) (tab : arr3) : list R :=
  flat_map (fun wY => flat_map (fun wT => map (fun wR => tab (iY + wY) (iT + wT) (irho + wR))%Z (zseq (- width) (width + 1)))
    (zseq (- width) (width + 1))) (zseq (- width) (width + 1)).
(** :1074 abs(avg - point) / abs(avg) > DELTASMOOTH; avg = 0 gives +inf, or NaN when the point is 0 too *)
Definition bad (avg point : R) : bool :=
  if Req_bool avg 0 then negb (Req_bool point 0) else Rlt_bool DELTASMOOTH (Rabs (avg - point) / Rabs avg).
(** :1064-1079 *)
Definition medianFilter_from (nY nT nR : Z) (inp out : arr3) : arr3 :=
  for3 (zseq MF_W (nY - MF_W)) (zseq MF_W (nT - MF_W)) (zseq MF_W (nR - MF_W))
    (fun _ iY iT ir =>
       let avg := findMedian_ (fillMedianBuffer_ MF_W iY iT ir inp) in
       let point := inp iY iT ir in if bad avg point then avg else point) out.
(** :1057-1062 *)
Definition medianFilter_ (nY nT nR : Z) (d : DB3) : DB3 :=
  let tmp := d_at d in mkDB3 (d_Y d) (d_T d) (d_R d) (medianFilter_from nY nT nR tmp (d_at d)).

Section Stellar.
Variable L : LogPair.
Definition rlog10 (x : R) : R := ln x / ln 10.      (* std::log10 *)
Definition rpow10 (y : R) : R := exp (y * ln 10).   (* std::pow(10, .) *)
(** :260-263 *)
Definition log10toNQT (x : R) : R := lg10 L (rpow10 x).
Definition NQTtolog10 (x : R) : R := rlog10 (pw10 L x).
(** :264-270 *)
Definition gridToNQT (g : RegGrid) (n : Z) : RegGrid := mkGrid (log10toNQT (g_min g)) (log10toNQT (g_max g)) n.
(** :1029-1055; [gT], [gR] are the ranges of the scratch table, whose old contents are [scratch]; the Ye range is kept *)
Definition dataBoxToFastLogs (gT gR : RegGrid) (scratch : arr3) (islog : bool) (d : DB3) : DB3 :=
  mkDB3 (d_Y d) gT gR
    (for3 (zseq 0 (g_N (d_Y d))) (zseq 0 (g_N gT)) (zseq 0 (g_N gR))
      (fun _ i2 i1 i0 =>
        let v := interp3 d (g_x (d_Y d) i2) (NQTtolog10 (g_x gT i1)) (NQTtolog10 (g_x gR i0)) in
        if islog then log10toNQT v else v) scratch).

(** toLog_, fromLog_, :318-330 *)
Definition sc_toLog (x offset : R) : R := lg10 L (plus_small (Rabs (Rmax x (- offset) + offset))).
Definition sc_fromLog (lx offset : R) : R := pw10 L lx - offset.

(** :1107-1124 the value stored at one entry *)
Definition bmod_entry (lRho lP dPdRho dPdE : R) : R :=
  let rho := rpow10 lRho in
  let P := rpow10 lP in
  let PoR := ratio P rho in
  let bMod := rho * dPdRho + PoR * dPdE in
  rlog10 (if Rlt_bool bMod EPS then EPS else bMod).
Definition computeBulkModulus_ (nY nT nR : Z) (lP dPdRho dPdE : DB3) (scratch : arr3) : DB3 :=
  mkDB3 (d_Y lP) (d_T lP) (d_R lP)
    (for3 (zseq 0 nY) (zseq 0 nT) (zseq 0 nR)
      (fun _ iY iT ir => bmod_entry (g_x (d_R lP) ir) (d_at lP iY iT ir) (d_at dPdRho iY iT ir) (d_at dPdE iY iT ir)) scratch).

(** the object: tables (:388-408), bounds (:419-424), energy offset (:438), reference values (:434-435) *)
Record SC := mkSC {
  lP_ : DB3; lE_ : DB3; dPdRho_ : DB3; dPdE_ : DB3; dEdT_ : DB3; lBMod_ : DB3; entropy_ : DB3;
  Xa_ : DB3; Xh_ : DB3; Xn_ : DB3; Xp_ : DB3; Abar_ : DB3; Zbar_ : DB3;
  mu_e_ : DB3; mu_n_ : DB3; mu_p_ : DB3; muhat_ : DB3; munu_ : DB3;
  eCold_ : DB2; eHot_ : DB2;
  numRho_ : Z; numT_ : Z; numYe_ : Z;
  lRhoMin_ : R; lRhoMax_ : R; lTMin_ : R; lTMax_ : R; YeMin_ : R; YeMax_ : R; sieMin_ : R; sieMax_ : R;
  lEOffset_ : R
}.
(** DataBox::min, max (library) *)
Definition entries2 (d : DB2) : list R :=
  flat_map (fun i => map (e_at d i) (zseq 0 (g_N (e_R d)))) (zseq 0 (g_N (e_Y d))).
Definition db_min (d : DB2) : R := match entries2 d with [] => 0 | x :: r => fold_left Rmin r x end.
Definition db_max (d : DB2) : R := match entries2 d with [] => 0 | x :: r => fold_left Rmax r x end.
(** :1126-1145 *)
Definition curve (nY nR iT : Z) (lE : DB3) (off : R) (gY gR : RegGrid) : DB2 :=
  mkDB2 gY gR (fun iY ir => if (Z.leb 0 iY && Z.ltb iY nY && Z.leb 0 ir && Z.ltb ir nR)%bool
                            then sc_fromLog (d_at lE iY iT ir) off else 0).

(** ** Constants, :426-433 *)
Definition MeV2GK_ : R := 11604525006 / 1000000000.
Definition GK2MeV_ : R := 1 / MeV2GK_.
Definition MeV2K_ : R := 1000000000 * MeV2GK_.
Definition K2MeV_ : R := 1 / MeV2K_.
Definition TNormal_ : R := 5 * GK2MeV_.
Definition rhoNormal_ : R := 2000000000000.
Definition YeNormal_ : R := 3517 / 10000.
Definition ROOT_THRESH : R := / 100000000000000.   (* :445 *)

(** ** Reading a Stellar Collapse file, :828-959 *)
Record SCFile := mkFile {
  f_nR : Z; f_nT : Z; f_nY : Z; f_shift : R;               (* pointsrho, pointstemp, pointsye, energy_shift *)
  f_lR0 : R; f_lR1 : R; f_lT0 : R; f_lT1 : R; f_Y0 : R; f_Y1 : R;   (* first and last of logrho, logtemp, ye *)
  f_logpress : arr3; f_logenergy : arr3; f_dpdrhoe : arr3; f_dpderho : arr3; f_dedt : arr3; f_entropy : arr3;
  f_Xa : arr3; f_Xh : arr3; f_Xn : arr3; f_Xp : arr3; f_Abar : arr3; f_Zbar : arr3;
  f_mu_e : arr3; f_mu_n : arr3; f_mu_p : arr3; f_muhat : arr3; f_munu : arr3
}.
Definition dense (n : Z) : Z := Ztrunc (IZR n * (5 / 4)).   (* static_cast<int>(n * DENSE_FACTOR), :897-898 *)
Definition LoadFromStellarCollapseFile_ (scratch : arr3) (f : SCFile) (filter_bmod : bool) : SC :=
  let nR := f_nR f in let nT := f_nT f in let nY := f_nY f in
  let lTMin := f_lT0 f + rlog10 MeV2K_ in
  let lTMax := f_lT1 f + rlog10 MeV2K_ in
  let gY := mkGrid (f_Y0 f) (f_Y1 f) nY in
  let gT := mkGrid lTMin lTMax nT in
  let gR := mkGrid (f_lR0 f) (f_lR1 f) nR in
  let read a := mkDB3 gY gT gR a in
  let lP := read (f_logpress f) in
  (* :880-886 *)
  let dEdT := read (for3 (zseq 0 nY) (zseq 0 nT) (zseq 0 nR) (fun a i j k => a i j k * K2MeV_) (f_dedt f)) in
  let smooth d := if filter_bmod then medianFilter_ nY nT nR d else d in
  let dPdRho := smooth (read (f_dpdrhoe f)) in
  let dPdE := smooth (read (f_dpderho f)) in
  let dEdT := smooth dEdT in
  let lB := computeBulkModulus_ nY nT nR lP dPdRho dPdE scratch in
  let gT' := gridToNQT gT (dense nT) in
  let gR' := gridToNQT gR (dense nR) in
  let logd := dataBoxToFastLogs gT' gR' scratch true in
  let lin := dataBoxToFastLogs gT' gR' scratch false in
  let lE := logd (read (f_logenergy f)) in
  let gRc := mkGrid (g_min gR') (g_max gR') (dense nR) in
  let gYc := mkGrid (f_Y0 f) (f_Y1 f) nY in
  let cold := curve nY (dense nR) 0 lE (f_shift f) gYc gRc in
  let hot := curve nY (dense nR) (dense nT - 1) lE (f_shift f) gYc gRc in
  mkSC (logd lP) lE (lin dPdRho) (lin dPdE) (lin dEdT) (logd lB) (lin (read (f_entropy f)))
    (lin (read (f_Xa f))) (lin (read (f_Xh f))) (lin (read (f_Xn f))) (lin (read (f_Xp f)))
    (lin (read (f_Abar f))) (lin (read (f_Zbar f)))
    (* the chemical potentials are not moved to the new grid, :908-926 *)
    (read (f_mu_e f)) (read (f_mu_n f)) (read (f_mu_p f)) (read (f_muhat f)) (read (f_munu f))
    cold hot (dense nR) (dense nT) nY
    (g_min gR') (g_max gR') (g_min gT') (g_max gT') (f_Y0 f) (f_Y1 f) (db_min cold) (db_max hot) (f_shift f).

(** ** Save (:478-518) and LoadFromSP5File_ (:772-825): a file is a partial map from names to tables, plus the offset attribute *)
Inductive DS := D3 (d : DB3) | D2 (d : DB2).
Record SP5 := mkSP5File { sp5_shift : R; sp5_set : list (string * DS) }.
Open Scope string_scope.
Definition Save (s : SC) : SP5 := mkSP5File (lEOffset_ s)
  [("logpress", D3 (lP_ s)); ("logenergy", D3 (lE_ s)); ("dpdrhoe", D3 (dPdRho_ s)); ("dpderho", D3 (dPdE_ s));
   ("dedt", D3 (dEdT_ s)); ("entropy", D3 (entropy_ s)); ("Xa", D3 (Xa_ s)); ("Xh", D3 (Xh_ s)); ("Xn", D3 (Xn_ s));
   ("Xp", D3 (Xp_ s)); ("Abar", D3 (Abar_ s)); ("Zbar", D3 (Zbar_ s)); ("logbulkmodulus", D3 (lBMod_ s));
   ("ecold", D2 (eCold_ s)); ("ehot", D2 (eHot_ s)); ("mu_e", D3 (mu_e_ s)); ("mu_n", D3 (mu_n_ s)); ("mu_p", D3 (mu_p_ s));
   ("muhat", D3 (muhat_ s)); ("munu", D3 (munu_ s))].
Fixpoint lookup (k : string) (l : list (string * DS)) : option DS :=
  match l with [] => None | (k', v) :: r => if String.eqb k k' then Some v else lookup k r end.
Definition get3 (f : SP5) (k : string) : option DB3 := match lookup k (sp5_set f) with Some (D3 d) => Some d | _ => None end.
Definition get2 (f : SP5) (k : string) : option DB2 := match lookup k (sp5_set f) with Some (D2 d) => Some d | _ => None end.
Definition bind {A B} (o : option A) (k : A -> option B) : option B := match o with Some a => k a | None => None end.
Notation "'do' x <- e ; k" := (bind e (fun x => k)) (at level 200, x name, e at level 100, k at level 200).
(** [None]: a dataset is missing or has the wrong rank (EOS_ERROR, :803-805) *)
Definition LoadFromSP5File_ (f : SP5) : option SC :=
  do lP <- get3 f "logpress"; do lE <- get3 f "logenergy"; do dPdRho <- get3 f "dpdrhoe"; do dPdE <- get3 f "dpderho";
  do dEdT <- get3 f "dedt"; do entropy <- get3 f "entropy"; do Xa <- get3 f "Xa"; do Xh <- get3 f "Xh"; do Xn <- get3 f "Xn";
  do Xp <- get3 f "Xp"; do Abar <- get3 f "Abar"; do Zbar <- get3 f "Zbar"; do lB <- get3 f "logbulkmodulus";
  do cold <- get2 f "ecold"; do hot <- get2 f "ehot"; do mu_e <- get3 f "mu_e"; do mu_n <- get3 f "mu_n"; do mu_p <- get3 f "mu_p";
  do muhat <- get3 f "muhat"; do munu <- get3 f "munu";
  Some (mkSC lP lE dPdRho dPdE dEdT lB entropy Xa Xh Xn Xp Abar Zbar mu_e mu_n mu_p muhat munu cold hot
    (g_N (d_R lP)) (g_N (d_T lP)) (g_N (d_Y lP))
    (g_min (d_R lP)) (g_max (d_R lP)) (g_min (d_T lP)) (g_max (d_T lP)) (g_min (d_Y lP)) (g_max (d_Y lP))
    (db_min cold) (db_max hot) (sp5_shift f)).
Close Scope string_scope.

(** ** Queries *)
Variable s : SC.
(** :331-363; the density, temperature, pressure and bulk-modulus offsets are 0 (:439-442) *)
Definition lRho_ (rho : R) : R := sc_toLog rho 0.
Definition lT_ (T : R) : R := sc_toLog T 0.
Definition rho_ (l : R) : R := let r := sc_fromLog l 0 in if Rlt_bool r 0 then 0 else r.
Definition T_ (l : R) : R := sc_fromLog l 0.
Definition le2e_ (le : R) : R := sc_fromLog le (lEOffset_ s).
Definition e2le_ (e : R) : R := sc_toLog e (lEOffset_ s).
Definition lP2P_ (lP : R) : R := sc_fromLog lP 0.
Definition P2lP_ (P : R) : R := sc_toLog P 0.
Definition lB2B_ (lB : R) : R := sc_fromLog lB 0.
(** :219-226, 236-238 *)
Definition rhoMin : R := rho_ (lRhoMin_ s).
Definition rhoMax : R := rho_ (lRhoMax_ s).
Definition TMin : R := T_ (lTMin_ s).
Definition TMax : R := T_ (lTMax_ s).
Definition MinimumDensity : R := rhoMin.
Definition MinimumTemperature : R := TMin.
Definition MaximumDensity : R := rhoMax.
(** lambda: ElectronFraction and, if present, LogTemperature *)
Record Lam := mkLam { l_Ye : R; l_lT : option R }.
Definition lam_cache (lam : Lam) (lT : R) : Lam := mkLam (l_Ye lam) (match l_lT lam with Some _ => Some lT | None => None end).
(** :1174-1231; result lT, lambda afterwards, status of the search. Without a cache the guess is an uninitialised local, [junk] *)
Definition lTFromlRhoSie_ (junk lRho sie : R) (lam : Lam) : R * Lam * Status :=
  let Ye := l_Ye lam in
  let '(lT, st) :=
    if Rle_bool sie (interp2 (eCold_ s) Ye lRho) then (lTMin_ s, SUCCESS)
    else if Rle_bool (interp2 (eHot_ s) Ye lRho) sie then (lTMax_ s, SUCCESS)
    else
      let guess := match l_lT lam with Some c => c | None => junk end in
      let guess := if negb (Rle_bool (lTMin_ s) guess && Rle_bool guess (lTMax_ s)) then 1 / 2 * (lTMin_ s + lTMax_ s) else guess in
      table_root (fun x => interp3 (lE_ s) Ye x lRho) (e2le_ sie) guess (lTMin_ s) (lTMax_ s) ROOT_THRESH guess in
  (lT, lam_cache lam lT, st).
(** getLogsFromRhoT_ (:368-377), getLogsFromRhoSie_ (:378-386) followed by one interpolation *)
Definition atRhoT (d : DB3) (rho T : R) (lam : Lam) : R := interp3 d (l_Ye lam) (lT_ T) (lRho_ rho).
Definition atRhoSie (d : DB3) (junk rho sie : R) (lam : Lam) : R :=
  interp3 d (l_Ye lam) (fst (fst (lTFromlRhoSie_ junk (lRho_ rho) sie lam))) (lRho_ rho).
(** what the calls leave in lambda *)
Definition lamRhoT (rho T : R) (lam : Lam) : Lam := lam_cache lam (lT_ T).
Definition lamRhoSie (junk rho sie : R) (lam : Lam) : Lam := snd (fst (lTFromlRhoSie_ junk (lRho_ rho) sie lam)).
Definition floor_EPS (v : R) : R := if Rlt_bool EPS v then v else EPS.
(** :542-659 *)
Definition TemperatureFromDensityInternalEnergy (junk rho sie : R) (lam : Lam) : R :=
  T_ (fst (fst (lTFromlRhoSie_ junk (lRho_ rho) sie lam))).
Definition InternalEnergyFromDensityTemperature (rho T : R) (lam : Lam) : R := le2e_ (atRhoT (lE_ s) rho T lam).
Definition PressureFromDensityTemperature (rho T : R) (lam : Lam) : R := lP2P_ (atRhoT (lP_ s) rho T lam).
Definition PressureFromDensityInternalEnergy (junk rho sie : R) (lam : Lam) : R := lP2P_ (atRhoSie (lP_ s) junk rho sie lam).
Definition MinInternalEnergyFromDensity (rho : R) (lam : Lam) : R := interp2 (eCold_ s) (l_Ye lam) (lRho_ rho).
Definition EntropyFromDensityTemperature (rho T : R) (lam : Lam) : R := floor_EPS (atRhoT (entropy_ s) rho T lam).
Definition EntropyFromDensityInternalEnergy (junk rho sie : R) (lam : Lam) : R := floor_EPS (atRhoSie (entropy_ s) junk rho sie lam).
Definition SpecificHeatFromDensityTemperature (rho T : R) (lam : Lam) : R := floor_EPS (atRhoT (dEdT_ s) rho T lam).
Definition SpecificHeatFromDensityInternalEnergy (junk rho sie : R) (lam : Lam) : R := floor_EPS (atRhoSie (dEdT_ s) junk rho sie lam).
Definition BulkModulusFromDensityTemperature (rho T : R) (lam : Lam) : R := floor_EPS (lB2B_ (atRhoT (lBMod_ s) rho T lam)).
Definition BulkModulusFromDensityInternalEnergy (junk rho sie : R) (lam : Lam) : R := lB2B_ (atRhoSie (lBMod_ s) junk rho sie lam).
Definition GruneisenParamFromDensityTemperature (rho T : R) (lam : Lam) : R := Rabs (atRhoT (dPdE_ s) rho T lam) / (Rabs rho + EPS).
Definition GruneisenParamFromDensityInternalEnergy (junk rho sie : R) (lam : Lam) : R :=
  Rabs (atRhoSie (dPdE_ s) junk rho sie lam) / (Rabs rho + EPS).
(** :180-194, :688-713 *)
Definition MeanAtomicMassFromDensityTemperature (rho T : R) (lam : Lam) : R := atRhoT (Abar_ s) rho T lam.
Definition MeanAtomicNumberFromDensityTemperature (rho T : R) (lam : Lam) : R := atRhoT (Zbar_ s) rho T lam.
Definition MassFractionsFromDensityTemperature (rho T : R) (lam : Lam) : R * R * R * R * R * R :=
  (atRhoT (Xa_ s) rho T lam, atRhoT (Xh_ s) rho T lam, atRhoT (Xn_ s) rho T lam, atRhoT (Xp_ s) rho T lam,
   atRhoT (Abar_ s) rho T lam, atRhoT (Zbar_ s) rho T lam).
Definition ChemicalPotentialsFromDensityTemperature (rho T : R) (lam : Lam) : R * R * R * R * R :=
  (atRhoT (mu_e_ s) rho T lam, atRhoT (mu_n_ s) rho T lam, atRhoT (mu_p_ s) rho T lam,
   atRhoT (muhat_ s) rho T lam, atRhoT (munu_ s) rho T lam).
(** :662-686; [rho0] is the density passed in (used as the guess), or the guess log density when the search fails *)
Definition DensityEnergyFromPressureTemperature (rho0 press T : R) (lam : Lam) : R * R * Lam * Status :=
  let lT := lT_ T in
  let Ye := l_Ye lam in
  let g := lRho_ rho0 in
  let g := if (Rlt_bool g (lRhoMin_ s) || Rlt_bool (lRhoMax_ s) g)%bool then lRho_ rhoNormal_ else g in
  let f := fun x => interp3 (lP_ s) Ye lT x in
  (* regula_falsi writes its estimate to lrguess whatever the status; None: it did not write *)
  let '(l, st) := match @regula_falsi RArith f (P2lP_ press) g (lRhoMin_ s) (lRhoMax_ s) ROOT_THRESH ROOT_THRESH with
                  | RFDone st (Some r) _ => (r, st) | RFDone st None _ => (g, st) | _ => (g, FAIL) end in
  (rho_ l, le2e_ (interp3 (lE_ s) Ye lT l), lam_cache lam lT, st).
(** :716-751; [None] = EOS_ERROR or UNDEFINED_ERROR. There is no branch that writes the temperature. *)
Definition FillEos (junk : R) (o : flags) (st : fstate) (lam : Lam) : option fstate :=
  if negb (f_rho o || f_temp o || f_sie o || f_press o || f_cv o || f_bmod o) then None else
  if f_rho o then None else
  let lT := if negb (f_temp o) then Some (lT_ (s_temp st))
            else if negb (f_sie o) then Some (fst (fst (lTFromlRhoSie_ junk (lRho_ (s_rho st)) (s_sie st) lam)))
            else None in
  match lT with
  | None => None
  | Some lT =>
    let at_ d := interp3 d (l_Ye lam) lT (lRho_ (s_rho st)) in
    let st := cond_upd (f_sie o) upd_sie (fun _ => le2e_ (at_ (lE_ s))) st in
    let st := cond_upd (f_press o) upd_press (fun _ => lP2P_ (at_ (lP_ s))) st in
    let st := cond_upd (f_cv o) upd_cv (fun _ => floor_EPS (at_ (dEdT_ s))) st in
    Some (cond_upd (f_bmod o) upd_bmod (fun _ => lB2B_ (at_ (lBMod_ s))) st)
  end.
(** setNormalValues_ (:1147-1172) and ValuesAtReferenceState (:754-770): rho temp sie press cv bmod dpde dvdt, and the lambda *)
Definition ValuesAtReferenceState : list R * R * R :=
  let at_ d := interp3 d YeNormal_ (lT_ TNormal_) (lRho_ rhoNormal_) in
  let cv := floor_EPS (at_ (dEdT_ s)) in
  let dpde := at_ (dPdE_ s) in
  ([rhoNormal_; TNormal_; le2e_ (at_ (lE_ s)); lP2P_ (at_ (lP_ s)); cv; floor_EPS (lB2B_ (at_ (lBMod_ s))); dpde;
    dpde * cv / (rhoNormal_ * rhoNormal_ * at_ (dPdRho_ s))], YeNormal_, lT_ TNormal_).
(** :87-106 *)
Definition CheckParams : bool :=
  (Z.ltb 0 (numRho_ s) && Z.ltb 0 (numT_ s) && Z.ltb 0 (numYe_ s) &&
   Rlt_bool (lRhoMin_ s) (lRhoMax_ s) && Rlt_bool (lTMin_ s) (lTMax_ s) &&
   Rle_bool 0 (YeMin_ s) && Rle_bool (YeMax_ s) 1 && Rlt_bool (YeMin_ s) (YeMax_ s) && Rlt_bool (sieMin_ s) (sieMax_ s))%bool.
End Stellar.
