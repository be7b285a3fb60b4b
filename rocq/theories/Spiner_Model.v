(** Model of SpinerEOSDependsRhoSieTransformable (eos/eos_spiner_rho_sie.hpp) and SpinerEOSDependsRhoT
    (eos/eos_spiner_rho_temp.hpp): the queries, branch by branch, over the exact reals.
    A DataBox is its interpToReal function (the Spiner library is not in the repository; loading from HDF5 is not
    modelled beyond the tables computed in loadDataboxes_ from other tables). Counters and error messages are dropped.
    The lambda of the RhoSie class is [option R] (slot lRho), that of the RhoT class [option (R * R)] (slots lRho, lT);
    [None] is the null pointer: SafeGet then leaves the C++ local uninitialised, which is the parameter [junk]. *)
From Coq Require Import ZArith Reals List Bool.
From Flocq Require Import Core.
From Verif Require Import Arith Robust_Model RootFinding_Model Thermo_Spec SpinerUtil_Model.
Import ListNotations.
Local Open Scope R_scope.

(** SP_ROOT_FINDER = RootFinding1D::regula_falsi (eos_spiner_common.hpp:36) with both tolerances equal, and the fallback
    value used when the status is not SUCCESS *)
Definition table_root (f : R -> R) (y guess lo hi tol fallback : R) : R * Status :=
  match @regula_falsi RArith f y guess lo hi tol tol with
  | RFDone SUCCESS (Some r) _ => (r, SUCCESS)
  | _ => (fallback, FAIL)
  end.
Definition root_thresh : R := / 100000000000000.   (* ROOT_THRESH = 1e-14, eos_spiner_rho_temp.hpp:364 *)
Definition soft_thresh : R := / 100000000.         (* SOFT_THRESH = 1e-8, :365 *)

(** ** SpinerEOSDependsRhoSieTransformable *)
Section RhoSie.
Variable L : LogPair.
(** the tables of SP5Tables used by the queries *)
Record SP5Tables := mkSP5 { t_P : R -> R -> R; t_bMod : R -> R -> R; t_dPdE : R -> R -> R; t_dTdE : R -> R -> R }.
Record RS := mkRS {
  rs_sie : R -> R -> R;            (* sie_(lRho, lT) *)
  rs_T : R -> R -> R;              (* T_(lRho, lE) *)
  rs_rT : SP5Tables; rs_rE : SP5Tables;   (* dependsRhoT_, dependsRhoSie_ *)
  rs_rhoPMin : R -> R; rs_PlRhoMax : R -> R; rs_dPdRhoMax : R -> R; rs_sieCold : R -> R;
  rs_mF : R -> R -> nat -> R; rs_nphases : nat; rs_has_mf : bool;
  rs_lRhoMax : R; rs_rhoMax : R; rs_rhoOff : R; rs_TOff : R; rs_eOff : R;
  rs_transform : R -> R -> R;      (* transformer_.transform(e, rho) *)
  rs_repro : bool
}.
Variable s : RS.
Notation lRho rho := (to_log L rho (rs_rhoOff s)).
Notation lT T := (to_log L T (rs_TOff s)).
Notation lE e := (to_log L e (rs_eOff s)).
(** eos_spiner_rho_sie.hpp:916-927 *)
Definition interpRhoT_ (db : R -> R -> R) (rho T : R) : R := db (lRho rho) (lT T).
(** :929-939 *)
Definition interpRhoSie_ (db : R -> R -> R) (rho e : R) : R := db (lRho rho) (lE (rs_transform s e rho)).
(** :654-692 *)
Definition rs_TemperatureFromDensityInternalEnergy (rho e : R) : R := interpRhoSie_ (rs_T s) rho e.
Definition rs_InternalEnergyFromDensityTemperature (rho T : R) : R := interpRhoT_ (rs_sie s) rho T.
Definition rs_PressureFromDensityTemperature (rho T : R) : R := interpRhoT_ (t_P (rs_rT s)) rho T.
Definition rs_PressureFromDensityInternalEnergy (rho e : R) : R := interpRhoSie_ (t_P (rs_rE s)) rho e.
Definition rs_MinInternalEnergyFromDensity (rho : R) : R := rs_sieCold s (lRho rho).
(** :711-741 *)
Definition rs_SpecificHeatFromDensityTemperature (rho T : R) : R := 1 / interpRhoT_ (t_dTdE (rs_rT s)) rho T.
Definition rs_SpecificHeatFromDensityInternalEnergy (rho e : R) : R := 1 / interpRhoSie_ (t_dTdE (rs_rE s)) rho e.
Definition rs_BulkModulusFromDensityTemperature (rho T : R) : R := interpRhoT_ (t_bMod (rs_rT s)) rho T.
Definition rs_BulkModulusFromDensityInternalEnergy (rho e : R) : R := interpRhoSie_ (t_bMod (rs_rE s)) rho e.
(** :743-761; the second one does not apply the transform *)
Definition rs_GruneisenParamFromDensityTemperature (rho T : R) : R := interpRhoT_ (t_dPdE (rs_rT s)) rho T / rho.
Definition rs_GruneisenParamFromDensityInternalEnergy (rho e : R) : R := t_dPdE (rs_rE s) (lRho rho) (lE e) / rho.
(** :763-777, :797-812; the (rho,sie) one does not apply the transform. Without mass-fraction tables only entry 0 is set *)
Definition rs_MassFractionsFromDensityTemperature (rho T : R) (old : nat -> R) (n : nat) : R :=
  if rs_has_mf s then (if Nat.ltb n (rs_nphases s) then rs_mF s (lRho rho) (lT T) n else old n)
  else match n with O => 1 | _ => old n end.
Definition rs_MassFractionsFromDensityInternalEnergy (rho e : R) (old : nat -> R) (n : nat) : R :=
  if rs_has_mf s then
    (let T := rs_T s (lRho rho) (lE e) in
     if Nat.ltb n (rs_nphases s) then rs_mF s (lRho rho) (lT T) n else old n)
  else match n with O => 1 | _ => old n end.
(** :941-986; result lRho, new lambda, status *)
Definition rs_lRhoFromPlT_ (junk P lT : R) (lam : option R) : R * option R * Status :=
  let rhopmin := lRho (rs_rhoPMin s lT) in
  let dPdRhoMax := rs_dPdRhoMax s lT in
  let PMax := rs_PlRhoMax s lT in
  let '(l, st) :=
    if andb (Rlt_bool 0 dPdRhoMax) (Rlt_bool PMax P) then
      (lRho ((P - PMax) / dPdRhoMax + rs_rhoMax s), SUCCESS)
    else
      let guess0 := if rs_repro s then rs_lRhoMax s else 1 / 2 * (rhopmin + rs_lRhoMax s) in
      let cache := match lam with Some c => c | None => junk end in
      let guess := if andb (Rle_bool rhopmin cache) (Rle_bool cache (rs_lRhoMax s)) then cache else guess0 in
      table_root (fun x => t_P (rs_rT s) x lT) P guess rhopmin (rs_lRhoMax s) EPS
        (if rs_repro s then rs_lRhoMax s else guess) in
  (l, match lam with Some _ => Some l | None => None end, st).
(** :833-842 *)
Definition rs_DensityEnergyFromPressureTemperature (junk P T : R) (lam : option R) : R * R :=
  let l := fst (fst (rs_lRhoFromPlT_ junk P (lT T) lam)) in
  (from_log L l (rs_rhoOff s), rs_sie s l (lT T)).
(** :844-898; [None] = UNDEFINED_ERROR *)
Definition rs_FillEos (junk : R) (lam : option R) (o : flags) (st : fstate) : option fstate :=
  if negb (f_rho o || f_temp o || f_sie o || f_press o || f_cv o || f_bmod o) then None else
  if andb (f_temp o) (f_sie o) then None else
  if andb (f_rho o) (orb (f_press o) (f_temp o)) then None else
  let '(st, l) :=
    if f_rho o then
      let l := fst (fst (rs_lRhoFromPlT_ junk (s_press st) (lT (s_temp st)) lam)) in
      (upd_rho st (from_log L l (rs_rhoOff s)), l)
    else (st, lRho (s_rho st)) in
  let st :=
    if f_temp o then
      let le := lE (rs_transform s (s_sie st) (s_rho st)) in
      let st := upd_temp st (rs_T s l le) in
      let st := cond_upd (f_press o) upd_press (fun _ => t_P (rs_rE s) l le) st in
      let st := cond_upd (f_cv o) upd_cv (fun _ => 1 / t_dTdE (rs_rE s) l le) st in
      cond_upd (f_bmod o) upd_bmod (fun _ => t_bMod (rs_rE s) l le) st
    else st in
  let st :=
    if f_sie o then
      let lt := lT (s_temp st) in
      let st := upd_sie st (rs_sie s l lt) in
      let st := cond_upd (f_press o) upd_press (fun _ => t_P (rs_rT s) l lt) st in
      let st := cond_upd (f_cv o) upd_cv (fun _ => 1 / t_dTdE (rs_rT s) l lt) st in
      cond_upd (f_bmod o) upd_bmod (fun _ => t_bMod (rs_rT s) l lt) st
    else st in
  Some st.
End RhoSie.

(** calcBMod_ (:554-577) and fixBulkModulus_ (eos_spiner_rho_temp.hpp:689-714): the value stored at one table point *)
Definition fixed_bMod (rho press dPdR_E dPdE_R dEdR_T : R) : R :=
  let dPdR_T := dPdR_E + dPdE_R * dEdR_T in
  let b := if andb (Rlt_bool 0 dPdE_R) (Rlt_bool 0 rho) then rho * dPdR_E + dPdE_R * (press / rho)
           else if Rlt_bool 0 rho then Rmax (rho * dPdR_T) 0 else 0 in
  Rmax b EPS.

(** ** SpinerEOSDependsRhoT *)
Inductive TableStatus := OnTable | OffBottom | OffTop.
Section RhoT.
Variable L : LogPair.
Record RT := mkRT {
  rt_P : R -> R -> R; rt_sie : R -> R -> R; rt_bMod : R -> R -> R; rt_dPdE : R -> R -> R; rt_dEdT : R -> R -> R;
  rt_mF : R -> R -> nat -> R; rt_nphases : nat; rt_has_mf : bool;
  rt_PMax : R -> R; rt_sielTMax : R -> R; rt_dEdTMax : R -> R; rt_gm1Max : R -> R;
  rt_PCold : R -> R; rt_sieCold : R -> R; rt_bModCold : R -> R; rt_dPdECold : R -> R; rt_dEdTCold : R -> R;
  rt_rhoPMin : R -> R; rt_rhoPMin0 : R;        (* interpToReal, and rho_at_pmin_(0) *)
  rt_lRhoMin : R; rt_lRhoMax : R; rt_lTMin : R; rt_lTMax : R; rt_rhoOff : R; rt_TOff : R; rt_repro : bool
}.
Variable s : RT.
(** eos_spiner_rho_temp.hpp:271-285 *)
Definition rt_lRho (rho : R) : R := to_log L rho (rt_rhoOff s).
Definition rt_lT (T : R) : R := to_log L T (rt_TOff s).
Definition rt_rho (l : R) : R := let r := from_log L l (rt_rhoOff s) in if Rlt_bool r 0 then 0 else r.
Definition rt_T (l : R) : R := from_log L l (rt_TOff s).
(** :612 *)
Definition rt_TMax : R := from_log L (rt_lTMax s) (rt_TOff s).
(** :242-244 *)
Definition rt_MinimumTemperature : R := rt_T (rt_lTMin s).
(** :1377-1404 *)
Definition getLocDependsRhoSie_ (l sie : R) : TableStatus :=
  let top := rt_sielTMax s l in
  let cold := rt_sieCold s l in
  if Rle_bool (top - soft_thresh * Rabs top) sie then OffTop
  else if Rle_bool sie (cold + soft_thresh * Rabs cold) then OffBottom
  else OnTable.
Definition getLocDependsRhoT_ (lT : R) : TableStatus :=
  if Rle_bool lT ((1 + soft_thresh) * rt_lTMin s) then OffBottom
  else if Rle_bool ((1 - soft_thresh) * rt_lTMax s) lT then OffTop
  else OnTable.
Definition lam_set (lam : option (R * R)) (l lT : R) : option (R * R) :=
  match lam with Some _ => Some (l, lT) | None => None end.
(** :1192-1250; result lT, whereAmI, lambda, root status *)
Definition lTFromlRhoSie_ (junk l sie : R) (lam : option (R * R)) : R * TableStatus * option (R * R) * Status :=
  let w := getLocDependsRhoSie_ l sie in
  let '(lT, st) :=
    match w with
    | OffBottom => (rt_lTMin s, SUCCESS)
    | OffTop => (rt_lT (rt_TMax + ratio (sie - rt_sielTMax s l) (rt_dEdTMax s l)), SUCCESS)
    | OnTable =>
        let guess0 := if rt_repro s then rt_lTMin s else 1 / 2 * (rt_lTMin s + rt_lTMax s) in
        let cache := match lam with Some c => snd c | None => junk end in
        let guess := if andb (Rle_bool (rt_lTMin s) cache) (Rle_bool cache (rt_lTMax s)) then cache else guess0 in
        table_root (fun x => rt_sie s l x) sie guess (rt_lTMin s) (rt_lTMax s) root_thresh
          (if rt_repro s then rt_lTMin s else guess)
    end in
  (lT, w, lam_set lam l lT, st).
(** :1252-1305. The index passed to SafeGet is the uninitialised local lT, so what it reads is the parameter [cache] *)
Definition lTFromlRhoP_ (cache l press : R) (lam : option (R * R)) : R * TableStatus * option (R * R) * Status :=
  let '(lT, w, st) :=
    if Rle_bool press (rt_PCold s l) then (rt_lTMin s, OffBottom, SUCCESS)
    else if Rle_bool (rt_PMax s l) press then (rt_lTMax s, OffTop, SUCCESS)
    else
      let guess0 := 1 / 2 * (rt_lTMin s + rt_lTMax s) in
      let guess := if andb (Rle_bool (rt_lTMin s) cache) (Rle_bool cache (rt_lTMax s)) then cache else guess0 in
      let '(x, st) := table_root (fun x => rt_P s l x) press guess (rt_lTMin s) (rt_lTMax s) root_thresh
          (if rt_repro s then rt_lTMin s else guess) in
      (x, OnTable, st) in
  (lT, w, lam_set lam l lT, st).
(** :1307-1375 *)
Definition sieFromlRhoTlT_ (l T lT : R) (w : TableStatus) : R :=
  match w with
  | OffBottom => rt_sieCold s l
  | OffTop => rt_sielTMax s l + rt_dEdTMax s l * (T - rt_TMax)
  | OnTable => rt_sie s l lT
  end.
Definition PFromRholRhoTlT_ (rho l T lT : R) (w : TableStatus) : R :=
  match w with
  | OffBottom => rt_PCold s l
  | OffTop => rt_gm1Max s l * rho * (rt_sielTMax s l + rt_dEdTMax s l * (T - rt_TMax))
  | OnTable => rt_P s l lT
  end.
Definition floor_eps (v : R) : R := if Rlt_bool EPS v then v else EPS.
Definition CvFromlRholT_ (l lT : R) (w : TableStatus) : R :=
  floor_eps (match w with OffBottom => rt_dEdTCold s l | OffTop => rt_dEdTMax s l | OnTable => rt_dEdT s l lT end).
Definition bModFromRholRhoTlT_ (rho l T lT : R) (w : TableStatus) : R :=
  floor_eps (match w with
    | OffBottom => rt_bModCold s l
    | OffTop => (rt_gm1Max s l + 1) * rt_gm1Max s l * rho * (rt_sielTMax s l + rt_dEdTMax s l * (T - rt_TMax))
    | OnTable => rt_bMod s l lT end).
(** :1135-1190; prod_interp_1d: eos_spiner_common.hpp:251-263 *)
Definition rt_lRhoFromPlT_ (junk P lT : R) (lam : option (R * R)) : R * TableStatus * option (R * R) * Status :=
  let rhopmin := rt_lRho (rt_rhoPMin s lT) in
  let guess0 := if rt_repro s then rt_lRhoMax s else 1 / 2 * (rhopmin + rt_lRhoMax s) in
  let cache := match lam with Some c => fst c | None => junk end in
  let guess := if andb (Rle_bool rhopmin cache) (Rle_bool cache (rt_lRhoMax s)) then cache else guess0 in
  let fallback := if rt_repro s then rt_lRhoMax s else guess in
  let root f := table_root f P guess rhopmin (rt_lRhoMax s) root_thresh fallback in
  let '(r, w) :=
    if Rle_bool lT (rt_lTMin s) then (root (rt_PCold s), OffBottom)
    else if Rle_bool (rt_lTMax s) lT then (root (fun x => rt_gm1Max s x * rt_dEdTMax s x * lT * x), OffTop)
    else (root (fun x => rt_P s x lT), OnTable) in
  (fst r, w, lam_set lam (fst r) lT, snd r).
(** :777-935 *)
Definition rt_TemperatureFromDensityInternalEnergy (junk rho sie : R) (lam : option (R * R)) : R :=
  rt_T (fst (fst (fst (lTFromlRhoSie_ junk (rt_lRho rho) sie lam)))).
Definition rt_InternalEnergyFromDensityTemperature (rho T : R) : R :=
  sieFromlRhoTlT_ (rt_lRho rho) T (rt_lT T) (getLocDependsRhoT_ (rt_lT T)).
Definition rt_PressureFromDensityTemperature (rho T : R) : R :=
  PFromRholRhoTlT_ rho (rt_lRho rho) T (rt_lT T) (getLocDependsRhoT_ (rt_lT T)).
Definition rt_PressureFromDensityInternalEnergy (junk rho sie : R) (lam : option (R * R)) : R :=
  let l := rt_lRho rho in
  let '(lT, w, _, _) := lTFromlRhoSie_ junk l sie lam in
  match w with OffBottom => rt_PCold s l | OffTop => rt_gm1Max s l * rho * sie | OnTable => rt_P s l lT end.
Definition rt_MinInternalEnergyFromDensity (rho : R) : R := rt_sieCold s (rt_lRho rho).
Definition rt_SpecificHeatFromDensityTemperature (rho T : R) : R :=
  CvFromlRholT_ (rt_lRho rho) (rt_lT T) (getLocDependsRhoT_ (rt_lT T)).
Definition rt_SpecificHeatFromDensityInternalEnergy (junk rho sie : R) (lam : option (R * R)) : R :=
  let l := rt_lRho rho in
  let '(lT, w, _, _) := lTFromlRhoSie_ junk l sie lam in
  floor_eps (match w with OffBottom => rt_dEdTCold s l | OffTop => rt_dEdTMax s l | OnTable => rt_dEdT s l lT end).
Definition rt_BulkModulusFromDensityTemperature (rho T : R) : R :=
  bModFromRholRhoTlT_ rho (rt_lRho rho) T (rt_lT T) (getLocDependsRhoT_ (rt_lT T)).
Definition rt_BulkModulusFromDensityInternalEnergy (junk rho sie : R) (lam : option (R * R)) : R :=
  let l := rt_lRho rho in
  let '(lT, w, _, _) := lTFromlRhoSie_ junk l sie lam in
  match w with
  | OffBottom => rt_bModCold s l
  | OffTop => (rt_gm1Max s l + 1) * rt_gm1Max s l * rho * sie
  | OnTable => rt_bMod s l lT
  end.
Definition gru (dpde rho : R) : R := ratio (Rabs dpde) (Rabs rho).
Definition rt_GruneisenParamFromDensityTemperature (rho T : R) : R :=
  let l := rt_lRho rho in
  match getLocDependsRhoT_ (rt_lT T) with
  | OffBottom => gru (rt_dPdECold s l) rho
  | OffTop => rt_gm1Max s l
  | OnTable => gru (rt_dPdE s l (rt_lT T)) rho
  end.
Definition rt_GruneisenParamFromDensityInternalEnergy (junk rho sie : R) (lam : option (R * R)) : R :=
  let l := rt_lRho rho in
  let '(lT, w, _, _) := lTFromlRhoSie_ junk l sie lam in
  match w with
  | OffBottom => gru (rt_dPdECold s l) rho
  | OffTop => rt_gm1Max s l
  | OnTable => gru (rt_dPdE s l lT) rho
  end.
(** :936-984 *)
Definition rt_MassFractionsFromDensityTemperature (rho T : R) (old : nat -> R) (n : nat) : R :=
  if rt_has_mf s then (if Nat.ltb n (rt_nphases s) then rt_mF s (rt_lRho rho) (rt_lT T) n else old n)
  else match n with O => 1 | _ => old n end.
Definition rt_MassFractionsFromDensityInternalEnergy (junk rho sie : R) (lam : option (R * R)) (old : nat -> R) (n : nat) : R :=
  if rt_has_mf s then
    (let '(lT, _, _, _) := lTFromlRhoSie_ junk (rt_lRho rho) sie lam in
     if Nat.ltb n (rt_nphases s) then rt_mF s (rt_lRho rho) lT n else old n)
  else match n with O => 1 | _ => old n end.
(** :1006-1014 *)
Definition rt_DensityEnergyFromPressureTemperature (junk P T : R) (lam : option (R * R)) : R * R :=
  let '(l, _, _, _) := rt_lRhoFromPlT_ junk P (rt_lT T) lam in
  let rho := rt_rho l in
  (rho, rt_InternalEnergyFromDensityTemperature rho T).
(** :1117-1123 *)
Definition rt_RhoPmin (T : R) : R :=
  let lT := rt_lT T in
  if Rle_bool lT (rt_lTMin s) then rt_rhoPMin0 s
  else if Rle_bool (rt_lTMax s) lT then 0 else rt_rhoPMin s lT.
(** :1052-1101; [None] = UNDEFINED_ERROR; [input = ~output] *)
Definition rt_FillEos (junk cacheP : R) (lam : option (R * R)) (o : flags) (st : fstate) : option fstate :=
  if negb (f_rho o || f_temp o || f_sie o || f_press o || f_cv o || f_bmod o) then None else
  if andb (f_rho o) (orb (f_press o) (f_temp o)) then None else
  let '(st, l, lam) :=
    if f_rho o then
      let '(l, _, lam, _) := rt_lRhoFromPlT_ junk (s_press st) (rt_lT (s_temp st)) lam in
      (upd_rho st (rt_rho l), l, lam)
    else (st, rt_lRho (s_rho st), lam) in
  let r :=
    if f_temp o then
      if andb (negb (f_rho o)) (negb (f_sie o)) then
        let '(lT, _, _, _) := lTFromlRhoSie_ junk l (s_sie st) lam in Some (upd_temp st (rt_T lT), lT)
      else if andb (negb (f_rho o)) (negb (f_press o)) then
        let '(lT, _, _, _) := lTFromlRhoP_ cacheP l (s_press st) lam in Some (upd_temp st (rt_T lT), lT)
      else None
    else Some (st, rt_lT (s_temp st)) in
  match r with
  | None => None
  | Some (st, lT) =>
    let w := getLocDependsRhoT_ lT in
    let st := cond_upd (f_sie o) upd_sie (fun st => sieFromlRhoTlT_ l (s_temp st) lT w) st in
    let st := cond_upd (f_press o) upd_press (fun st => PFromRholRhoTlT_ (s_rho st) l (s_temp st) lT w) st in
    let st := cond_upd (f_cv o) upd_cv (fun st => CvFromlRholT_ l lT w) st in
    Some (cond_upd (f_bmod o) upd_bmod (fun st => bModFromRholRhoTlT_ (s_rho st) l (s_temp st) lT w) st)
  end.
End RhoT.

(** ** setlTColdCrit_, eos_spiner_rho_temp.hpp:716-775, at one density: x i = bMod_.range(0).x(i), e i = sie_(j, i),
    interp = sie_.interpToReal(lRho, .). The crossings vectors reduce to: how many crossings so far, and the position of
    the last positive one in the crossings vector and in the grid. *)
Record Cross := mkCross { cr_count : nat; cr_last : Z; cr_ilast : nat }.
Definition cross_step (e : nat -> R) (cold : R) (c : Cross) (i : nat) : Cross :=
  let a := e i - cold in let b := e (S i) - cold in
  if andb (Rlt_bool a 0) (Rlt_bool 0 b) then mkCross (S (cr_count c)) (Z.of_nat (cr_count c)) i
  else if andb (Rlt_bool 0 a) (Rlt_bool b 0) then mkCross (S (cr_count c)) (cr_last c) (cr_ilast c)
  else c.
Definition cross_scan (e : nat -> R) (cold : R) (numT : nat) : Cross :=
  fold_left (cross_step e cold) (seq 0 (numT - 1)) (mkCross 0 (-1) 0).
Definition lTColdCrit_ (x e : nat -> R) (interp : R -> R) (cold lTMin : R) (numT : nat) : R :=
  let c := cross_scan e cold numT in
  let v :=
    if Z.leb (cr_last c) 0 then lTMin
    else
      let lo := x (cr_ilast c) - root_thresh in
      let hi := x (S (cr_ilast c)) + root_thresh in
      let guess := 1 / 2 * (lo + hi) in
      fst (table_root interp cold guess lo hi root_thresh guess) in
  Rmax lTMin v.
