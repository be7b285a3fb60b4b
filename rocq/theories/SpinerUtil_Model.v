(** Model of the parts of the Spiner-table machinery that do not touch the table data:
    eos/eos_spiner_common.hpp (to_log, from_log, SetRhoPMin), eos/eos_spiner_sie_transforms.hpp and
    base/spiner_table_utils.hpp (class Bounds).
    Exact reals. The pair FastMath::log10/pow10 is a parameter [L] (what the pair satisfies is C05). A DataBox is
    what the code uses of it: the function interpToReal (the Spiner library is not in the repository).
    Warnings printed and PORTABLE_REQUIRE checks are not modelled. *)
From Coq Require Import ZArith Reals List Bool.
From Flocq Require Import Core.
From Verif Require Import Robust_Model.
Import ListNotations.
Local Open Scope R_scope.

(** FastMath::log10, FastMath::pow10 *)
Record LogPair := mkLogPair { lg10 : R -> R; pw10 : R -> R }.

(** eos_spiner_common.hpp:47-49; std::max(x, -offset) *)
Definition to_log (L : LogPair) (x offset : R) : R := lg10 L (Rabs (Rmax x (- offset) + offset) + EPS).
(** eos_spiner_common.hpp:50-52 *)
Definition from_log (L : LogPair) (lx offset : R) : R := pw10 L lx - offset.

(** ** Energy transforms, eos_spiner_sie_transforms.hpp *)
Section Transforms.
Variable L : LogPair.
(** data_: lRhoOffset, lEOffset and the tables sieCold(lRho), T(lRho), dTdE(lRho, lE) *)
Record TData := mkTData { d_rhoOff : R; d_eOff : R; d_sieCold : R -> R; d_T : R -> R; d_dTdE : R -> R -> R }.
Variable D : TData.
Definition clamp_min (v m : R) : R := if Rlt_bool m v then v else m.
Definition min8 : R := / 100000000.
Let lRho (rho : R) : R := to_log L rho (d_rhoOff D).
Let lE (e : R) : R := to_log L e (d_eOff D).
(** :40-54 *)
Definition null_transform (e rho : R) : R := e.
Definition null_inverse (et rho eorig : R) : R := et.
(** :56-81 *)
Definition shift_transform (e rho : R) : R := e - d_sieCold D (lRho rho).
Definition shift_inverse (et rho eorig : R) : R := et + d_sieCold D (lRho rho).
(** :86-116 *)
Definition divcv_transform (e rho : R) : R := e * clamp_min (d_dTdE D (lRho rho) (lE e)) min8.
Definition divcv_inverse (et rho eorig : R) : R := et * clamp_min (1 / d_dTdE D (lRho rho) (lE eorig)) min8.
(** :119-155 *)
Definition shiftdiv_transform (e rho : R) : R :=
  (e - d_sieCold D (lRho rho)) * clamp_min (d_dTdE D (lRho rho) (lE e)) min8.
Definition shiftdiv_inverse (et rho eorig : R) : R :=
  et * clamp_min (1 / d_dTdE D (lRho rho) (lE eorig)) min8 + d_sieCold D (lRho rho).
(** :160-188; pow(T, 3) *)
Definition scale_transform (e rho : R) : R := e / (clamp_min (d_T D (lRho rho)) min8) ^ 3.
Definition scale_inverse (et rho eorig : R) : R := et * (clamp_min (d_T D (lRho rho)) min8) ^ 3.
(** :193-241 *)
Definition all_transform (e rho : R) : R :=
  let es := e - d_sieCold D (lRho rho) in
  es * clamp_min (d_dTdE D (lRho rho) (lE es)) min8 / (clamp_min (d_T D (lRho rho)) min8) ^ 3.
Definition all_inverse (et rho eorig : R) : R :=
  let es := eorig - d_sieCold D (lRho rho) in
  et * (clamp_min (d_T D (lRho rho)) min8) ^ 3 * clamp_min (1 / d_dTdE D (lRho rho) (lE es)) min8
    + d_sieCold D (lRho rho).
End Transforms.

(** ** SetRhoPMin, eos_spiner_common.hpp:54-101.
    P j i: pressure at density point j, temperature point i; x j = lRs.x(j); result: rho_at_pmin and PMin.
    std::numeric_limits<Real>::max() is [None] (every entry of the table is smaller).
    Loops in order; [jscan] is the inner loop at one temperature: (PMin_at_T, jmax). *)
Section PMin.
Variable L : LogPair.
Variables (P : nat -> nat -> R) (x : nat -> R) (NR NT : nat) (vapor : bool) (thresh off : R).
Definition lt_opt (a : R) (b : option R) : bool := match b with None => true | Some b => Rlt_bool a b end.
Definition jstep (i : nat) (s : option R * nat) (j : nat) : option R * nat :=
  let '(pm, jm) := s in
  let '(pm, jm) := if lt_opt (P j i) pm then (Some (P j i), j) else (pm, jm) in
  if andb (Nat.ltb 1 j) vapor then
    let dP := P j i - P (j - 2) i in
    let dr := from_log L (x j) off - from_log L (x (j - 2)) off in
    if Rlt_bool (ratio dP dr) thresh then (pm, j) else (pm, jm)
  else (pm, jm).
Definition jscan (i : nat) : option R * nat := fold_left (jstep i) (seq 0 NR) (None, O).
(** :80-86: rho_at_pmin(i) and the PMin_at_T that enters the minimum *)
Definition row (i : nat) : R * option R :=
  let '(pm, jm) := jscan i in
  match pm with
  | Some p => if andb (Rlt_bool 0 p) (negb vapor) then (0, Some 0) else (from_log L (x jm) off, Some p)
  | None => if negb vapor then (0, Some 0) else (from_log L (x jm) off, None)
  end.
(** :87 std::min(PMin_at_T, PMin) *)
Definition min_opt (a b : option R) : option R :=
  match a, b with None, b => b | a, None => a | Some a, Some b => Some (if Rlt_bool b a then b else a) end.
Definition PMin_all : option R := fold_left (fun m i => min_opt (snd (row i)) m) (seq 0 NT) None.
(** :93-99: for i = NT-2 downto 0 *)
Fixpoint mono_down (r : nat -> R) (i : nat) : nat -> R :=
  let r' := if Rlt_bool (r i) (r (S i)) then (fun k => if Nat.eqb k i then r (S i) else r k) else r in
  match i with O => r' | S i' => mono_down r' i' end.
Definition rho_at_pmin : nat -> R :=
  let r := fun i => fst (row i) in
  if vapor then (match NT with S (S k) => mono_down r k | _ => r end) else r.
End PMin.

(** ** class Bounds, spiner_table_utils.hpp:39-284 *)
(** Spiner::RegularGrid1D(min, max, N): N equally spaced points from min to max *)
Record RegGrid := mkGrid { g_min : R; g_max : R; g_N : Z }.
Definition g_dx (g : RegGrid) : R := (g_max g - g_min g) / IZR (g_N g - 1).
Definition g_x (g : RegGrid) (i : Z) : R := g_min g + IZR i * g_dx g.
Record Bounds := mkBounds { b_grids : list RegGrid; b_offset : R; b_linmin : R; b_linmax : R }.

Section B.
Variable L : LogPair.
(** :137-145 *)
Definition log2lin (b : Bounds) (xl : R) : R :=
  let v := pw10 L xl - b_offset b in
  let m := if Rlt_bool (b_linmin b) v then v else b_linmin b in     (* std::max(linmin_, v) *)
  if Rlt_bool m (b_linmax b) then m else b_linmax b.                  (* std::min(linmax_, m) *)
(** :177-182 *)
Definition getNumPointsFromDensity (min max density : R) : Z := Z.max 2 (Zceil (density * (max - min))).
(** :185-188 *)
Definition toLog_ (v offset : R) : R := lg10 L (Rabs (v + offset)).
(** :190-198 the offset chosen; epsilon() = 2^-52 *)
Definition min_offset : R := 10 * Rabs (bpow radix2 (-52)).
Definition log_offset (min : R) : R := if Rle_bool min 0 then 11 / 10 * Rabs min + min_offset else 0.
(** :161-176, std::log10 is [rlog10] *)
Definition getNumPointsFromPPD (rlog10 : R -> R) (min max ppd : R) : Z :=
  getNumPointsFromDensity (rlog10 (min + log_offset min)) (rlog10 (max + log_offset min)) ppd.
(** :200-205 *)
Definition convertBoundsToLog_ (min max shrink : R) : R * R :=
  let lmin := toLog_ min (log_offset min) in
  let lmax := toLog_ max (log_offset min) in
  let delta := lmax - lmin in
  (lmin + 1 / 2 * shrink * delta, lmax - 1 / 2 * shrink * delta).
(** :208-227; static_cast<int> truncates *)
Definition adjustForAnchor_ (min max : R) (N : Z) (anchor : R) : R * Z :=
  if andb (Rlt_bool min anchor) (Rlt_bool anchor max) then
    let Nfrac := (anchor - min) / (max - min) in
    let Nanchor := Zceil (IZR N * Nfrac) in
    if orb (Z.ltb Nanchor 2) (Z.leb N Nanchor) then (max, N)
    else
      let dx := (anchor - min) / IZR (Nanchor - 1) in
      let Nnew := Ztrunc ((max - min) / dx) in
      (dx * IZR (Nnew - 1) + min, Nnew)
  else (max, N).
(** :229-241 *)
Definition checkInterval_ (p min max : R) : R :=
  let p := if Rle_bool p min then min + 1 / 10 * Rabs min else p in
  if Rle_bool max p then max - 1 / 10 * Rabs max else p.
(** :50-54 *)
Definition Bounds_plain (min max : R) (N : Z) (offset : R) : Bounds := mkBounds [mkGrid min max N] offset min max.
(** :56-70; anchor = NaN is [None] *)
Definition Bounds_one (min max : R) (N : Z) (convertToLog : bool) (shrink : R) (anchor : option R) : Bounds :=
  let off := if convertToLog then log_offset min else 0 in
  let '(lmin, lmax) := if convertToLog then convertBoundsToLog_ min max shrink else (min, max) in
  let anchor := if convertToLog then match anchor with Some a => Some (lg10 L (Rabs a)) | None => None end else anchor in
  let '(lmax, N) := match anchor with Some a => adjustForAnchor_ lmin lmax N a | None => (lmax, N) end in
  mkBounds [mkGrid lmin lmax N] off min max.
(** :76-100 *)
Definition coarse (ppd factor : R) : R := if Rlt_bool 0 factor then ppd / factor else ppd.
Definition two_grids (gmin gmax anchor split ppd_fine factor : R) : list RegGrid :=
  let split := checkInterval_ split gmin gmax in
  let anchor := checkInterval_ anchor gmin split in
  let N_fine := (getNumPointsFromDensity gmin split ppd_fine + 1)%Z in
  let '(split, N_fine) := adjustForAnchor_ gmin split N_fine anchor in
  [mkGrid gmin split N_fine; mkGrid split gmax (getNumPointsFromDensity split gmax (coarse ppd_fine factor))].
Definition Bounds_two (gmin gmax anchor split ppd_fine factor : R) (convertToLog : bool) (shrink : R) : Bounds :=
  if convertToLog then
    let off := log_offset gmin in
    let '(lmin, lmax) := convertBoundsToLog_ gmin gmax shrink in
    mkBounds (two_grids lmin lmax (toLog_ anchor off) (toLog_ split off) ppd_fine factor) off gmin gmax
  else mkBounds (two_grids gmin gmax anchor split ppd_fine factor) 0 gmin gmax.
(** :243-275 *)
Definition gridFromIntervals_ (gmin gmax anchor mid_min mid_max ppd_fine factor_lo factor_hi : R) : list RegGrid :=
  let mid_min := if Rle_bool mid_min gmin then anchor - 9 / 10 * Rabs (anchor - gmin) else mid_min in
  let mid_max := if Rle_bool gmax mid_max then anchor + 9 / 10 * Rabs (gmax - anchor) else mid_max in
  let N_fine := (getNumPointsFromDensity mid_min mid_max ppd_fine + 1)%Z in
  let '(mid_max, N_fine) := adjustForAnchor_ mid_min mid_max N_fine anchor in
  [mkGrid gmin mid_min (getNumPointsFromDensity gmin mid_min (coarse ppd_fine factor_lo));
   mkGrid mid_min mid_max N_fine;
   mkGrid mid_max gmax (getNumPointsFromDensity mid_max gmax (coarse ppd_fine factor_hi))].
(** :102-117 *)
Definition Bounds_three (gmin gmax anchor fmin fmax ppd_fine flo fhi : R) (convertToLog : bool) (shrink : R) : Bounds :=
  if convertToLog then
    let off := log_offset gmin in
    let '(lmin, lmax) := convertBoundsToLog_ gmin gmax shrink in
    let anchor := checkInterval_ (toLog_ anchor off) lmin lmax in
    mkBounds (gridFromIntervals_ lmin lmax anchor (toLog_ fmin off) (toLog_ fmax off) ppd_fine flo fhi) off gmin gmax
  else
    mkBounds (gridFromIntervals_ gmin gmax (checkInterval_ anchor gmin gmax) fmin fmax ppd_fine flo fhi) 0 gmin gmax.
(** :119-135 *)
Definition Bounds_three_diam (gmin gmax anchor diam ppd_fine flo fhi : R) (convertToLog : bool) (shrink : R) : Bounds :=
  let off := if convertToLog then log_offset gmin else 0 in
  let '(lmin, lmax) := if convertToLog then convertBoundsToLog_ gmin gmax shrink else (gmin, gmax) in
  let anchor := checkInterval_ (if convertToLog then toLog_ anchor off else anchor) lmin lmax in
  mkBounds (gridFromIntervals_ lmin lmax anchor (anchor - 1 / 2 * diam) (anchor + 1 / 2 * diam) ppd_fine flo fhi)
    off gmin gmax.
End B.
