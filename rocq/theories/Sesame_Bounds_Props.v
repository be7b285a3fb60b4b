(** Property theorems C76 (the ranges of the tables sesame2spiner writes) and C77 (refuted claims). *)
From Coq Require Import ZArith Reals List Bool Ascii String Lra Lia.
From Flocq Require Import Core.
From Verif Require Import Robust_Model SpinerUtil_Model SpinerUtil_Spec SpinerUtil_Proofs SpinerUtil_Props Sesame_Model Sesame_Spec Sesame_Parse_Props.
Import ListNotations.
Local Open Scope R_scope.

(** the value of a setting that has a default *)
Definition reads (stod : string -> option R) (p : Params) (k : string) (d v : R) : Prop :=
  (exists s, pget k p = Some s /\ stod s = Some v) \/ (pget k p = None /\ v = d).
(** the grids run without gap from the log of the lower to the log of the upper end, both drawn in by half the shrink factor of the distance *)
Definition spans (L : LogPair) (b : Bounds) (shrink : R) : Prop :=
  let l0 := lg10 L (Rabs (b_linmin b + b_offset b)) in let l1 := lg10 L (Rabs (b_linmax b + b_offset b)) in
  abut (l0 + 1 / 2 * shrink * (l1 - l0)) (l1 - 1 / 2 * shrink * (l1 - l0)) (b_grids b).

Section B.
Variables (stod : string -> option R) (L : LogPair) (rlog10 : R -> R) (EofRT : R -> R -> R).
Lemma GetR_reads p k d v : GetR stod p k d = Some v -> reads stod p k d v.
Proof. unfold GetR, reads. destruct (pget k p) as [s|]; [intros H; left; exists s; auto|intros H; injection H as <-; right; auto]. Qed.
Lemma floor_max x m : (if Rlt_bool x m then m else x) = Rmax x m.
Proof. case Rlt_bool_spec; intros H; [rewrite Rmax_right; lra|rewrite Rmax_left; lra]. Qed.
Lemma two_spans mn mx an sp ppd f sh : spans L (Bounds_two L mn mx an sp ppd f true sh) sh.
Proof.
  unfold spans, Bounds_two. cbn [convertBoundsToLog_]. cbn [b_linmin b_linmax b_offset b_grids]. apply C43_two_grids_cover.
Qed.
Lemma three_spans mn mx an fm fM ppd f g sh : spans L (Bounds_three L mn mx an fm fM ppd f g true sh) sh.
Proof. unfold spans, Bounds_three. cbn [convertBoundsToLog_]. cbn [b_linmin b_linmax b_offset b_grids]. apply C43_three_grids_cover. Qed.
Lemma diam_spans mn mx an d ppd f g sh : spans L (Bounds_three_diam L mn mx an d ppd f g true sh) sh.
Proof. unfold spans, Bounds_three_diam. cbn [convertBoundsToLog_]. cbn [b_linmin b_linmax b_offset b_grids]. apply C43_three_grids_cover. Qed.
Lemma one_spans mn mx N sh : spans L (Bounds_one L mn mx N true sh None) sh.
Proof. unfold spans, Bounds_one. cbn [convertBoundsToLog_]. cbn [b_linmin b_linmax b_offset b_grids abut g_min g_max]. auto. Qed.
Lemma one_lin mn mx N sh a : b_linmin (Bounds_one L mn mx N true sh a) = mn /\ b_linmax (Bounds_one L mn mx N true sh a) = mx /\
  b_offset (Bounds_one L mn mx N true sh a) = log_offset mn.
Proof. unfold Bounds_one. cbn [convertBoundsToLog_]. destruct a as [a|]; [destruct adjustForAnchor_|]; auto. Qed.
Lemma two_lin mn mx an sp ppd f sh : let b := Bounds_two L mn mx an sp ppd f true sh in b_linmin b = mn /\ b_linmax b = mx /\ b_offset b = log_offset mn.
Proof. cbn. auto. Qed.
Lemma three_lin mn mx an fm fM ppd f g sh : let b := Bounds_three L mn mx an fm fM ppd f g true sh in b_linmin b = mn /\ b_linmax b = mx /\ b_offset b = log_offset mn.
Proof. cbn. auto. Qed.
Lemma diam_lin mn mx an d ppd f g sh : let b := Bounds_three_diam L mn mx an d ppd f g true sh in b_linmin b = mn /\ b_linmax b = mx /\ b_offset b = log_offset mn.
Proof. cbn. auto. Qed.
Lemma bind_some {A B} (o : option A) (k : A -> option B) r : bind o k = Some r -> exists a, o = Some a /\ k a = Some r.
Proof. destruct o as [a|]; cbn; [intros H; exists a; auto|discriminate]. Qed.

(** ** C76 *)
(** Whenever the bounds are made, whatever the settings: the density table runs from the larger of the requested minimum and 1e-8 to the
    requested maximum, the temperature table from the larger of the requested minimum and 1e-2 to the requested maximum and the energy table
    between the requested limits; a limit that is not given is the table's own, the minimum moved up by at most one unit of 2^-52; and the
    grids cover that range, apart from what the shrink settings take off each end, unless single grids are asked for. *)
Theorem C76_ranges : forall md p bR bT bE, getMatBounds stod L rlog10 EofRT md p = Some (bR, bT, bE) ->
  exists rhoMin rhoMax TMin TMax eMin eMax sR sT sE,
    reads stod p "rhomin" (TinyShift (md_rhoMin md) 1) rhoMin /\ reads stod p "rhomax" (md_rhoMax md) rhoMax /\
    reads stod p "Tmin" (TinyShift (md_TMin md) 1) TMin /\ reads stod p "Tmax" (md_TMax md) TMax /\
    reads stod p "siemin" (TinyShift (md_sieMin md) 1) eMin /\ reads stod p "siemax" (md_sieMax md) eMax /\
    reads stod p "shrinklRhoBounds" 0 sR /\ reads stod p "shrinklTBounds" 0 sT /\ reads stod p "shrinkleBounds" 0 sE /\
    b_linmin bR = Rmax rhoMin (/ 10 ^ 8) /\ b_linmax bR = rhoMax /\ b_offset bR = 0 /\
    b_linmin bT = Rmax TMin (/ 10 ^ 2) /\ b_linmax bT = TMax /\ b_offset bT = 0 /\
    b_linmin bE = eMin /\ b_linmax bE = eMax /\
    (GetB p "piecewiseRho" true = Some true -> spans L bR (Rmin 1 (Rmax sR 0))) /\
    (GetB p "piecewiseT" true = Some true -> spans L bT (Rmin 1 (Rmax sT 0))) /\
    spans L bE (Rmin 1 (Rmax sE 0)).
Proof.
  intros md p bR bT bE H. unfold getMatBounds in H.
  apply bind_some in H. destruct H as (rhoMin & R1 & H). apply bind_some in H. destruct H as (rhoMax & R2 & H).
  apply bind_some in H. destruct H as (TMin & R3 & H). apply bind_some in H. destruct H as (TMax & R4 & H).
  apply bind_some in H. destruct H as (eMin & R5 & H). apply bind_some in H. destruct H as (eMax & R6 & H).
  apply bind_some in H. destruct H as (sR & R7 & H). apply bind_some in H. destruct H as (sT & R8 & H).
  apply bind_some in H. destruct H as (sE & R9 & H). cbv zeta in H.
  do 6 (apply bind_some in H; destruct H as (? & _ & H)).
  apply bind_some in H. destruct H as (anchor & _ & H).
  apply bind_some in H. destruct H as (pR & B1 & H). apply bind_some in H. destruct H as (pT & B2 & H). apply bind_some in H. destruct H as (pE & B3 & H).
  do 8 (apply bind_some in H; destruct H as (? & _ & H)).
  match type of H with (let '(_, _) := ?c in _) = _ => destruct c as [fmin fmax] end. cbv zeta in H.
  injection H as <- <- <-. rewrite !floor_max. fold STRICTLY_POS_MIN_RHO STRICTLY_POS_MIN_T.
  assert (P1 : log_offset (Rmax rhoMin STRICTLY_POS_MIN_RHO) = 0).
  { apply log_offset_spec. assert (K := Rmax_r rhoMin STRICTLY_POS_MIN_RHO). unfold STRICTLY_POS_MIN_RHO in *. lra. }
  assert (P2 : log_offset (Rmax TMin STRICTLY_POS_MIN_T) = 0).
  { apply log_offset_spec. assert (K := Rmax_r TMin STRICTLY_POS_MIN_T). unfold STRICTLY_POS_MIN_T in *. lra. }
  exists rhoMin, rhoMax, TMin, TMax, eMin, eMax, sR, sT, sE.
  do 9 (split; [apply GetR_reads; assumption|]).
  set (bR := if pR then _ else _). set (bT := if pT then _ else _). set (bE := if pE then _ else _).
  assert (LR : b_linmin bR = Rmax rhoMin STRICTLY_POS_MIN_RHO /\ b_linmax bR = rhoMax /\ b_offset bR = log_offset (Rmax rhoMin STRICTLY_POS_MIN_RHO)).
  { unfold bR. destruct pR; [destruct Rlt_bool; [apply three_lin|apply diam_lin]|apply one_lin]. }
  assert (LT : b_linmin bT = Rmax TMin STRICTLY_POS_MIN_T /\ b_linmax bT = TMax /\ b_offset bT = log_offset (Rmax TMin STRICTLY_POS_MIN_T)).
  { unfold bT. destruct pT; [apply two_lin|apply one_lin]. }
  assert (LE : b_linmin bE = eMin /\ b_linmax bE = eMax).
  { unfold bE. destruct pE; [split; reflexivity|]. destruct (one_lin eMin eMax x4 (clamp01 sE) None) as (A & B & _). auto. }
  rewrite P1 in LR. rewrite P2 in LT.
  split; [apply LR|]. split; [apply LR|]. split; [apply LR|]. split; [apply LT|]. split; [apply LT|]. split; [apply LT|]. split; [apply LE|]. split; [apply LE|].
  fold (clamp01 sR) (clamp01 sT) (clamp01 sE). split; [|split].
  - rewrite B1. intros E. injection E as ->. unfold bR. destruct Rlt_bool; [apply three_spans|apply diam_spans].
  - rewrite B2. intros E. injection E as ->. apply two_spans.
  - unfold bE. destruct pE; [apply two_spans|apply one_spans].
Qed.
(** The special points. With the logarithm of each range running from lo to hi (shrunk ends): the room temperature 298.15 K is a grid point of
    the temperature grids and the requested centre of the fine density region (the normal density by default; 1 if that is not in (0, 1e8])
    is a grid point of the density grids, piecewise or not, and the energy of that state one of the energy grids -- whenever the point is
    inside and the fine region has room for it. *)
Definition lo_end (b : Bounds) (sh : R) : R := let l0 := lg10 L (Rabs (b_linmin b + b_offset b)) in let l1 := lg10 L (Rabs (b_linmax b + b_offset b)) in l0 + 1 / 2 * sh * (l1 - l0).
Definition hi_end (b : Bounds) (sh : R) : R := let l0 := lg10 L (Rabs (b_linmin b + b_offset b)) in let l1 := lg10 L (Rabs (b_linmax b + b_offset b)) in l1 - 1 / 2 * sh * (l1 - l0).
Theorem C76_special_points : forall md p bR bT bE, getMatBounds stod L rlog10 EofRT md p = Some (bR, bT, bE) ->
  exists ppdR ppdT ppdE numR center split diam sR sT sE point,
    GetI p "numrho/decade" 350 = Some ppdR /\ GetI p "numT/decade" 100 = Some ppdT /\ GetI p "numSie/decade" 100 = Some ppdE /\
    (forall v, pget "numrho" p = Some v -> stoi v = Some numR) /\
    reads stod p "rho_fine_center" (md_normal md) center /\ reads stod p "TSplitPoint" 10000 split /\ reads stod p "rhoFineDiameterDecades" (3 / 2) diam /\
    reads stod p "shrinklRhoBounds" 0 sR /\ reads stod p "shrinklTBounds" 0 sT /\ reads stod p "shrinkleBounds" 0 sE /\
    (0 < center <= 10 ^ 8 -> point = center) /\ (center <= 0 \/ 10 ^ 8 < center -> point = 1) /\
    let clip x := Rmin 1 (Rmax x 0) in
    let room_T := lg10 L (29815 / 100) in let split_T := lg10 L (Rabs split) in let pt := lg10 L point in
    (GetB p "piecewiseT" true = Some true ->
       lo_end bT (clip sT) < room_T < split_T -> split_T < hi_end bT (clip sT) -> room (lo_end bT (clip sT)) split_T (IZR ppdT) room_T ->
       increasing_grids (b_grids bT) /\ is_grid_point (b_grids bT) room_T) /\
    (GetB p "piecewiseRho" true = Some true -> pget "rhoFineMin" p = None -> 0 < diam ->
       lo_end bR (clip sR) < pt - diam / 2 -> pt + diam / 2 < hi_end bR (clip sR) -> room (pt - diam / 2) (pt + diam / 2) (IZR ppdR) pt ->
       increasing_grids (b_grids bR) /\ is_grid_point (b_grids bR) pt) /\
    (GetB p "piecewiseRho" true = Some false -> (2 <= numR)%Z -> lo_end bR (clip sR) < pt < hi_end bR (clip sR) ->
       let frac := (pt - lo_end bR (clip sR)) / (hi_end bR (clip sR) - lo_end bR (clip sR)) in
       1 <= IZR numR * frac * (1 - frac) -> (2 <= Zceil (IZR numR * frac) < numR)%Z -> is_grid_point (b_grids bR) pt) /\
    (GetB p "piecewiseSie" true = Some true ->
       let room_e := lg10 L (Rabs (EofRT point (29815 / 100) + b_offset bE)) in let split_e := lg10 L (Rabs (EofRT point split + b_offset bE)) in
       lo_end bE (clip sE) < room_e < split_e -> split_e < hi_end bE (clip sE) -> room (lo_end bE (clip sE)) split_e (IZR ppdE) room_e ->
       increasing_grids (b_grids bE) /\ is_grid_point (b_grids bE) room_e).
Proof.
  intros md p bR bT bE H. unfold getMatBounds in H.
  apply bind_some in H. destruct H as (rhoMin & R1 & H). apply bind_some in H. destruct H as (rhoMax & R2 & H).
  apply bind_some in H. destruct H as (TMin & R3 & H). apply bind_some in H. destruct H as (TMax & R4 & H).
  apply bind_some in H. destruct H as (eMin & R5 & H). apply bind_some in H. destruct H as (eMax & R6 & H).
  apply bind_some in H. destruct H as (sR & R7 & H). apply bind_some in H. destruct H as (sT & R8 & H).
  apply bind_some in H. destruct H as (sE & R9 & H). cbv zeta in H.
  apply bind_some in H. destruct H as (ppdR & I1 & H). apply bind_some in H. destruct H as (ppdT & I2 & H). apply bind_some in H. destruct H as (ppdE & I3 & H).
  apply bind_some in H. destruct H as (numR & I4 & H). apply bind_some in H. destruct H as (numT & I5 & H). apply bind_some in H. destruct H as (numE & I6 & H).
  apply bind_some in H. destruct H as (center & C1 & H).
  apply bind_some in H. destruct H as (pR & B1 & H). apply bind_some in H. destruct H as (pT & B2 & H). apply bind_some in H. destruct H as (pE & B3 & H).
  do 4 (apply bind_some in H; destruct H as (? & _ & H)).
  apply bind_some in H. destruct H as (diam & D1 & H). apply bind_some in H. destruct H as (split & S1 & H).
  apply bind_some in H. destruct H as (f0 & F0 & H). apply bind_some in H. destruct H as (f1 & _ & H).
  match type of H with (let '(_, _) := ?c in _) = _ => destruct c as [fmin fmax] eqn:EF end. cbv zeta in H.
  injection H as <- <- <-. rewrite !floor_max.
  assert (P1 : log_offset (Rmax rhoMin STRICTLY_POS_MIN_RHO) = 0).
  { apply log_offset_spec. assert (K := Rmax_r rhoMin STRICTLY_POS_MIN_RHO). unfold STRICTLY_POS_MIN_RHO in *. lra. }
  assert (P2 : log_offset (Rmax TMin STRICTLY_POS_MIN_T) = 0).
  { apply log_offset_spec. assert (K := Rmax_r TMin STRICTLY_POS_MIN_T). unfold STRICTLY_POS_MIN_T in *. lra. }
  set (rm := Rmax rhoMin STRICTLY_POS_MIN_RHO) in *. set (tm := Rmax TMin STRICTLY_POS_MIN_T) in *. clearbody rm tm.
  assert (PA : anchor_of center = if Rle_bool center 0 then 1 else if Rlt_bool (10 ^ 8) center then 1 else center) by (unfold anchor_of; destruct Rle_bool, Rlt_bool; reflexivity).
  assert (P0 : 0 < anchor_of center) .
  { rewrite PA. destruct (Rle_bool_spec center 0) as [K|K]; cbv iota; [apply Rlt_0_1|]. destruct (Rlt_bool (10 ^ 8) center); [apply Rlt_0_1|exact K]. }
  exists ppdR, ppdT, ppdE, numR, center, split, diam, sR, sT, sE, (anchor_of center).
  do 3 (split; [assumption|]).
  split. { intros v Hv. unfold GetI in I4. rewrite Hv in I4. exact I4. }
  split; [apply GetR_reads; exact C1|]. split. { replace 10000 with (10 ^ 4) by ring. apply GetR_reads; exact S1. }
  split; [apply GetR_reads; exact D1|]. do 3 (split; [apply GetR_reads; assumption|]).
  split. { intros K. rewrite PA. rewrite Rle_bool_false, Rlt_bool_false by lra. reflexivity. }
  split. { intros K. rewrite PA. destruct (Rle_bool_spec center 0); [reflexivity|]. rewrite Rlt_bool_true by lra. reflexivity. }
  cbv zeta beta. fold (clamp01 sR) (clamp01 sT) (clamp01 sE). rewrite B1, B2, B3. split; [|split; [|split]].
  - intros E. injection E as ->. unfold lo_end, hi_end, Bounds_two. cbn [convertBoundsToLog_]. cbn [b_linmin b_linmax b_offset b_grids]. rewrite P2. unfold toLog_, TAnchor. rewrite !Rplus_0_r. rewrite (Rabs_pos_eq (29815 / 100)) by lra.
    apply C43_two_grids_increasing.
  - intros E FM HD. injection E as ->. assert (fmin = -1). { unfold GetI in F0. rewrite FM in F0. injection F0 as <-. destruct Rlt_bool; injection EF as <- _; reflexivity. }
    rewrite H. rewrite (Rlt_bool_false 0 (-1)) by lra. unfold lo_end, hi_end, Bounds_three_diam. cbn [convertBoundsToLog_]. cbn [b_linmin b_linmax b_offset b_grids]. rewrite P1. unfold toLog_. rewrite !Rplus_0_r. rewrite (Rabs_pos_eq (anchor_of center)) by lra.
    set (a := lg10 L (anchor_of center)). set (l := lg10 L (Rabs rm)). set (h := lg10 L (Rabs rhoMax)). set (lo := l + 1 / 2 * clamp01 sR * (h - l)). set (hi := h - 1 / 2 * clamp01 sR * (h - l)).
    intros H1 H2 RM. assert (CI : checkInterval_ a lo hi = a) by (apply C43_check_interval; lra). rewrite CI.
    replace (a - 1 / 2 * diam) with (a - diam / 2) by field. replace (a + 1 / 2 * diam) with (a + diam / 2) by field.
    apply C43_three_grids_increasing; [lra|lra|]. cbv zeta. rewrite !Rle_bool_false by lra. exact RM.
  - intros E. injection E as ->. intros HN. unfold Bounds_one. cbn [convertBoundsToLog_]. rewrite P1. unfold toLog_. rewrite !Rplus_0_r. rewrite (Rabs_pos_eq (anchor_of center)) by lra.
    destruct (adjustForAnchor_ _ _ _ _) as [mx' N'] eqn:EA. unfold lo_end, hi_end. cbn [b_linmin b_linmax b_offset b_grids]. rewrite !Rplus_0_r.
    intros HI R R'. eapply C43_anchor in EA; [|exact HI|exact HN]. destruct EA as [_ EA]. destruct (EA R R') as (_ & _ & _ & G & _). exact G.
  - intros E. injection E as ->. unfold lo_end, hi_end, Bounds_two. cbn [convertBoundsToLog_]. cbn [b_linmin b_linmax b_offset b_grids]. unfold toLog_, densityToSesame, temperatureToSesame, TAnchor.
    apply C43_two_grids_increasing.
Qed.
End B.

(** What covering means for the points of the table: without shrinking, the first grid point is exactly the lower and the last exactly the
    upper end of the range, and no density or temperature in the table is below 1e-8 or 1e-2. *)
Lemma abut_last lo hi gs : gs <> [] -> abut lo hi gs -> g_min (hd (mkGrid 0 0 0) gs) = lo /\ g_max (List.last gs (mkGrid 0 0 0)) = hi.
Proof.
  intros N A. split; [destruct gs as [|g r]; [congruence|apply A]|]. revert lo A. induction gs as [|g r IH]; intros lo A; [congruence|].
  destruct r as [|g' r']; [cbn in A; apply A|]. cbn [List.last]. apply (IH ltac:(discriminate) (g_max g)). apply A.
Qed.
Theorem C76_end_points : forall L b, is_log_pair L -> spans L b 0 -> b_grids b <> [] -> 0 < b_linmin b + b_offset b -> b_linmin b <= b_linmax b ->
  log2lin L b (g_min (hd (mkGrid 0 0 0) (b_grids b))) = b_linmin b /\ log2lin L b (g_max (List.last (b_grids b) (mkGrid 0 0 0))) = b_linmax b /\
  forall x, b_linmin b <= log2lin L b x <= b_linmax b.
Proof.
  intros L b HL S N P O. unfold spans in S. cbv zeta in S.
  replace (1 / 2 * 0) with 0 in S by ring. rewrite Rmult_0_l, Rplus_0_r, Rminus_0_r in S.
  destruct (abut_last _ _ _ N S) as [-> ->]. destruct (C43_log2lin L HL b O) as (A & _ & C). rewrite !Rabs_pos_eq by lra.
  split; [apply C; lra|]. split; [apply C; lra|exact A].
Qed.
(** The shift of a default minimum is upwards and tiny. *)
Theorem C76_shift : forall v, v <= TinyShift v 1 <= v + Rmax 1 (10 * Rabs v) * bpow radix2 (-52).
Proof.
  intros v. unfold TinyShift, TINY. cbv zeta. assert (B := bpow_gt_0 radix2 (-52)). set (t := bpow radix2 (-52)) in *. clearbody t. rewrite Rmult_1_l.
  assert (M1 := Rmax_l 1 (10 * Rabs v)). assert (M2 := Rmax_r 1 (10 * Rabs v)). set (M := Rmax 1 (10 * Rabs v)) in *. clearbody M.
  assert (A := Rabs_pos (Rmin (10 * v * t) t)). split; [lra|]. apply Rplus_le_compat_l.
  unfold Rmin. destruct (Rle_dec (10 * v * t) t).
  - rewrite !Rabs_mult, (Rabs_pos_eq 10), (Rabs_pos_eq t) by lra. apply Rmult_le_compat_r; lra.
  - rewrite Rabs_pos_eq by lra. rewrite <- (Rmult_1_l t) at 1. apply Rmult_le_compat_r; lra.
Qed.
(** Without any setting, and for every material, the bounds are made. *)
Lemma no_settings stod L rlog10 EofRT md : exists bR bT bE, getMatBounds stod L rlog10 EofRT md [] = Some (bR, bT, bE).
Proof.
  unfold getMatBounds. cbn [GetR GetI GetB pget bind]. cbv zeta. destruct Rlt_bool; do 3 eexists; reflexivity.
Qed.
Example C76_defaults : forall stod L rlog10 EofRT md, exists bR bT bE, getMatBounds stod L rlog10 EofRT md [] = Some (bR, bT, bE) /\
  b_linmin bR = Rmax (TinyShift (md_rhoMin md) 1) (/ 10 ^ 8) /\ b_linmax bR = md_rhoMax md /\
  b_linmin bT = Rmax (TinyShift (md_TMin md) 1) (/ 10 ^ 2) /\ b_linmax bT = md_TMax md /\
  spans L bR 0 /\ spans L bT 0 /\ spans L bE 0.
Proof.
  intros stod L rlog10 EofRT md. destruct (no_settings stod L rlog10 EofRT md) as (bR & bT & bE & E). exists bR, bT, bE. split; [exact E|].
  destruct (C76_ranges _ _ _ _ _ _ _ _ _ E) as (a & b & c & d & e & f & g & h & i & A & B & C & D & _ & _ & G & H & I & Q1 & Q2 & _ & Q3 & Q4 & _ & _ & _ & S1 & S2 & S3).
  destruct A as [(? & X & _)|[_ ->]]; [discriminate X|]. destruct B as [(? & X & _)|[_ ->]]; [discriminate X|].
  destruct C as [(? & X & _)|[_ ->]]; [discriminate X|]. destruct D as [(? & X & _)|[_ ->]]; [discriminate X|].
  destruct G as [(? & X & _)|[_ ->]]; [discriminate X|]. destruct H as [(? & X & _)|[_ ->]]; [discriminate X|]. destruct I as [(? & X & _)|[_ ->]]; [discriminate X|].
  replace (Rmin 1 (Rmax 0 0)) with 0 in S1, S2, S3 by (rewrite Rmax_left by lra; rewrite Rmin_right; lra).
  repeat (split; [assumption|]). split; [apply S1; reflexivity|]. split; [apply S2; reflexivity|exact S3].
Qed.

(** A material of normal density 1 with densities from 1e-4 to 1e4: density 1 is a point of the density grid. *)
Example C76_special_density : forall md rlog10 EofRT bR bT bE, md_rhoMax md = 10 ^ 4 -> md_normal md = 1 ->
  getMatBounds (fun _ => Some (/ 10 ^ 4)) real_log10 rlog10 EofRT md [("rhomin", "1e-4")]%string = Some (bR, bT, bE) ->
  increasing_grids (b_grids bR) /\ is_grid_point (b_grids bR) 0.
Proof.
  intros md rlog10 EofRT bR bT bE HM HN H.
  destruct (C76_ranges _ _ _ _ _ _ _ _ _ H) as (a & b & c & d & e & f & g & h & i & A & B & _ & _ & _ & _ & _ & _ & _ & Q1 & Q2 & Q3 & _).
  destruct A as [(? & _ & A)|[A _]]; [injection A as <-|discriminate A]. destruct B as [(? & B & _)|[_ ->]]; [discriminate B|].
  destruct (C76_special_points _ _ _ _ _ _ _ _ _ H) as (ppdR & ppdT & ppdE & numR & center & sp & diam & sR & sT & sE & point & K1 & _ & _ & _ & C & _ & D & S & _ & _ & P1 & _ & K).
  injection K1 as <-. destruct C as [(? & C & _)|[_ ->]]; [discriminate C|]. destruct D as [(? & D & _)|[_ ->]]; [discriminate D|]. destruct S as [(? & S & _)|[_ ->]]; [discriminate S|].
  rewrite HN in P1. rewrite P1 in K by lra. cbv zeta in K. destruct K as (_ & K & _).
  assert (L1 : lg10 real_log10 1 = 0) by (cbn; rewrite ln_1; field; apply Rgt_not_eq; rewrite <- ln_1; apply ln_increasing; lra).
  assert (LN : ln 10 <> 0) by (apply Rgt_not_eq; rewrite <- ln_1; apply ln_increasing; lra).
  assert (L4 : lg10 real_log10 (10 ^ 4) = 4). { unfold lg10, real_log10. rewrite ln_pow by lra. replace (INR 4) with 4 by (simpl; lra). field. exact LN. }
  assert (L5 : lg10 real_log10 (/ 10 ^ 4) = - (4)). { unfold lg10, real_log10. rewrite ln_Rinv by lra. rewrite ln_pow by lra. replace (INR 4) with 4 by (simpl; lra). field. exact LN. }
  assert (E0 : lo_end real_log10 bR (Rmin 1 (Rmax 0 0)) = - (4) /\ hi_end real_log10 bR (Rmin 1 (Rmax 0 0)) = 4).
  { unfold lo_end, hi_end. rewrite Q1, Q2, Q3, HM. rewrite (Rmax_left (/ 10 ^ 4)) by lra. rewrite !Rplus_0_r, !Rabs_pos_eq by lra. rewrite L4, L5. rewrite (Rmax_left 0 0) by lra. rewrite Rmin_right by lra. lra. }
  destruct E0 as [E1 E2]. rewrite E1, E2, L1 in K. apply K; try reflexivity; try lra.
  unfold room, getNumPointsFromDensity. replace (350 * (0 + 3 / 2 / 2 - (0 - 3 / 2 / 2))) with (IZR 525) by lra. rewrite Zceil_IZR. change (Z.max 2 525 + 1)%Z with 526%Z.
  split; [lra|]. replace (IZR 526 * ((0 - (0 - 3 / 2 / 2)) / (0 + 3 / 2 / 2 - (0 - 3 / 2 / 2)))) with (IZR 263) by lra. rewrite Zceil_IZR. lia.
Qed.

(** ** C77: refuted claims *)
(** (a) "Every list of materials can be written": two materials of the same name and one named like the numbered copy collide *)
Theorem C77_names_refuted :
  let f := saveAllMaterials (fun _ => ""%string) [(1%Z, [("name", "Al")]); (2%Z, [("name", "Al")]); (3%Z, [("name", "Al_2")])]%string in
  ok f = false /\ forall x, In ("Al_2"%string, x) (links f) <-> x = 2%Z.
Proof. vm_compute. split; [reflexivity|]. intros x. split; [intros [H|[H|[H|[H|[H|[]]]]]]; congruence|intros ->; tauto]. Qed.
(** (b) "A setting that cannot be understood is refused": a line without '=' is accepted, whatever it says, as a setting of itself *)
Theorem C77_malformed_line_refuted : forall line t st, letters line = list_ascii_of_string t -> free "=" t -> free "#" t ->
  (exists c r, t = String c r /\ c <> "<"%char) -> parse_line st line = Some ((t, t) :: fst st, snd st).
Proof.
  intros line t [p a] H F F' (c & r & -> & N). unfold parse_line. rewrite (strip_is _ _ H).
  destruct (Ascii.eqb_spec c "#") as [->|_]; [exfalso; apply F'; left; reflexivity|].
  destruct (Ascii.eqb_spec c "<") as [E|_]; [contradiction|].
  unfold key_of, value_of, cut_comment. rewrite (find_none _ _ F), (find_none _ _ F'). reflexivity.
Qed.
(** (c) "rhoFineMin and rhoFineMax set the fine part of the density grid": they are read as integers, so a value below one is ignored and
    2.5 is 2 *)
Theorem C77_fine_limits_refuted : forall stod L rlog10 EofRT md,
  getMatBounds stod L rlog10 EofRT md [("rhoFineMin", "0.5"); ("rhoFineMax", "0.9")]%string = getMatBounds stod L rlog10 EofRT md [] /\
  getMatBounds stod L rlog10 EofRT md [("rhoFineMin", "2.5"); ("rhoFineMax", "4.9")]%string =
  getMatBounds stod L rlog10 EofRT md [("rhoFineMin", "2"); ("rhoFineMax", "4")]%string.
Proof.
  intros. split; unfold getMatBounds.
  - cbn [GetR GetI GetB pget bind String.eqb Ascii.eqb Bool.eqb]. change (stoi "0.5") with (Some 0%Z). change (stoi "0.9") with (Some 0%Z). cbn [bind]. cbv zeta.
    replace (Rlt_bool (0 * 0) 0) with false by (symmetry; apply Rlt_bool_false; lra).
    replace (Rlt_bool (-1 * -1) 0) with false by (symmetry; apply Rlt_bool_false; lra). cbv iota.
    replace (Rlt_bool 0 0) with false by (symmetry; apply Rlt_bool_false; lra).
    replace (Rlt_bool 0 (-1)) with false by (symmetry; apply Rlt_bool_false; lra). reflexivity.
  - cbn [GetR GetI GetB pget bind String.eqb Ascii.eqb Bool.eqb]. reflexivity.
Qed.
(** (d) "The fine part of the energy grid ends at the energy of TSplitPoint": the anchor and the split energy are EOSPAC's, in units of 1e10
    erg/g, while the limits are in erg/g; whenever both numbers are below the lower limit, as for a limit of 1e10 erg/g and energies up to 1e10
    times that, the energy grid does not depend on the material or on TSplitPoint at all *)
Theorem C77_energy_split_refuted : forall L mn mx an an' sp sp' ppd f sh, is_log_pair L -> 0 < mn < mx -> 0 <= sh < 1 ->
  0 < an <= mn -> 0 < an' <= mn -> 0 < sp <= mn -> 0 < sp' <= mn -> 
  Bounds_two L mn mx an sp ppd f true sh = Bounds_two L mn mx an' sp' ppd f true sh.
Proof.
  intros L mn mx an an' sp sp' ppd f sh HL M SH A A' S S'. unfold Bounds_two.
  assert (O : log_offset mn = 0) by (apply log_offset_spec; lra). rewrite O.
  assert (K := convert_spec L HL mn mx sh ltac:(lra) SH). destruct (convertBoundsToLog_ L mn mx sh) as [lmin lmax]. destruct K as (K1 & K2 & K3 & _).
  rewrite O in K1. unfold toLog_ in K1. rewrite Rplus_0_r, Rabs_pos_eq in K1 by lra.
  assert (LE : forall x, 0 < x <= mn -> toLog_ L x 0 <= lmin).
  { intros x Hx. unfold toLog_. rewrite Rplus_0_r, Rabs_pos_eq by lra. apply Rle_trans with (lg10 L mn); [|exact K1].
    destruct (Req_dec x mn) as [->|N]; [lra|]. left. apply (lp_incr L HL); lra. }
  assert (CK : forall x, x <= lmin -> checkInterval_ x lmin lmax = checkInterval_ lmin lmin lmax).
  { intros x Hx. unfold checkInterval_. rewrite (Rle_bool_true x), (Rle_bool_true lmin lmin) by lra. reflexivity. }
  unfold two_grids. rewrite (CK _ (LE sp S)), (CK _ (LE sp' S')). set (s0 := checkInterval_ lmin lmin lmax).
  assert (CK2 : forall x, x <= lmin -> checkInterval_ x lmin s0 = checkInterval_ lmin lmin s0).
  { intros x Hx. unfold checkInterval_. rewrite (Rle_bool_true x), (Rle_bool_true lmin lmin) by lra. reflexivity. }
  rewrite (CK2 _ (LE an A)), (CK2 _ (LE an' A')). reflexivity.
Qed.
(** concretely: limits 1e10 and 1e14 erg/g and a material whose energy at TSplitPoint is 100 in EOSPAC's units, 1e12 erg/g: the fine grid ends
    at 1e11 *)
Theorem C77_energy_split_example_refuted :
  let b := Bounds_two real_log10 (10 ^ 10) (10 ^ 14) 10 100 100 (3 / 2) true 0 in
  g_max (hd (mkGrid 0 0 0) (b_grids b)) = 11 /\ lg10 real_log10 (sieFromSesame 100) = 12.
Proof.
  assert (LP : forall n, lg10 real_log10 (10 ^ n) = INR n).
  { intros n. cbn. rewrite <- Rpower_pow by lra. unfold Rpower. rewrite ln_exp. assert (0 < ln 10) by (rewrite <- ln_1; apply ln_increasing; lra). field. lra. }
  split.
  - assert (C1 : checkInterval_ 2 10 14 = 11).
    { unfold checkInterval_. rewrite (Rle_bool_true 2) by lra. rewrite (Rabs_pos_eq 10) by lra. rewrite (Rle_bool_false 14) by lra. lra. }
    assert (C2 : checkInterval_ 1 10 11 = 99 / 10).
    { unfold checkInterval_. rewrite (Rle_bool_true 1) by lra. rewrite (Rabs_pos_eq 10), (Rabs_pos_eq 11) by lra. rewrite (Rle_bool_true 11) by lra. lra. }
    assert (TG : g_max (hd (mkGrid 0 0 0) (two_grids 10 14 1 2 100 (3 / 2))) = 11).
    { unfold two_grids. rewrite C1, C2. unfold adjustForAnchor_. rewrite (Rlt_bool_false 10) by lra. reflexivity. }
    rewrite <- TG. unfold Bounds_two. rewrite (proj2 (proj2 (log_offset_spec (10 ^ 10)))) by lra.
    assert (T1 : forall n, toLog_ real_log10 (10 ^ n) 0 = INR n).
    { intros n. unfold toLog_. rewrite Rplus_0_r, Rabs_pos_eq by (apply pow_le; lra). apply LP. }
    assert (CV : convertBoundsToLog_ real_log10 (10 ^ 10) (10 ^ 14) 0 = (10, 14)).
    { unfold convertBoundsToLog_. rewrite (proj2 (proj2 (log_offset_spec (10 ^ 10)))) by lra. rewrite !T1. f_equal; cbn [INR]; lra. }
    rewrite CV. cbn [b_grids].
    assert (A1 : toLog_ real_log10 10 0 = 1) by (rewrite <- (pow_1 10) at 1; rewrite T1; reflexivity).
    assert (A2 : toLog_ real_log10 100 0 = 2) by (replace 100 with (10 ^ 2) by ring; rewrite T1; cbn; ring).
    rewrite A1, A2. reflexivity.
  - unfold sieFromSesame. replace (10 ^ 10 * 100) with (10 ^ 12) by ring. rewrite LP. cbn [INR]. ring.
Qed.
(** (e) "eosSafeInterpolate reports a failed interpolation": with options, the codes of resetting them overwrite that of the interpolation *)
Theorem C77_interpolation_status_refuted : forall opts_set interp extrap resets skip debug,
  eosSafeInterpolate_status opts_set interp extrap (resets ++ [0%Z]) skip debug = true.
Proof. intros. unfold eosSafeInterpolate_status. rewrite fold_left_app. cbn [fold_left]. reflexivity. Qed.
Print Assumptions C76_ranges.
Print Assumptions C76_special_points.
Print Assumptions C76_end_points.
Print Assumptions C76_shift.
Print Assumptions C77_names_refuted.
Print Assumptions C77_malformed_line_refuted.
Print Assumptions C77_fine_limits_refuted.
Print Assumptions C77_energy_split_refuted.
Print Assumptions C77_energy_split_example_refuted.
Print Assumptions C77_interpolation_status_refuted.
