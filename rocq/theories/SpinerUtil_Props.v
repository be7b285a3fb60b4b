(** Property theorems C41/C49 (energy transforms), C43/C50 (Bounds), C51 (log offsets), C52 (SetRhoPMin). *)
From Coq Require Import ZArith Reals List Lra Lia Bool Psatz.
From Flocq Require Import Core.
From Verif Require Import Robust_Model Robust_Proofs KPT_Proofs SpinerUtil_Model SpinerUtil_Spec SpinerUtil_Proofs.
Import ListNotations.
Local Open Scope R_scope.

Theorem C51_real_log10_is_log_pair : is_log_pair real_log10.
Proof. exact real_log10_pair. Qed.

(** ** C51: to_log / from_log *)
Theorem C51_round_trip :
  forall L, is_log_pair L -> forall x off,
    (- off <= x -> from_log L (to_log L x off) off = x + EPS) /\
    (x <= - off -> from_log L (to_log L x off) off = - off + EPS).
Proof. intros L HL x off. split; intros; [apply from_to|apply from_to_below]; assumption. Qed.
Theorem C51_round_trip_back :
  forall L, is_log_pair L -> forall lx off, EPS <= pw10 L lx ->
    to_log L (from_log L lx off - EPS) off = lx.
Proof. intros L HL lx off H. apply to_from; assumption. Qed.
Theorem C51_monotone :
  forall L, is_log_pair L -> forall x y off,
    (x <= y -> to_log L x off <= to_log L y off) /\
    (- off <= x -> x < y -> to_log L x off < to_log L y off).
Proof. intros L HL x y off. split; intros; [apply to_log_incr|apply to_log_incr_strict]; assumption. Qed.
(** never the logarithm of zero or of a negative number, whatever the input *)
Theorem C51_argument_positive :
  forall x off, 0 < Rabs (Rmax x (- off) + off) + EPS.
Proof. intros. assert (E := EPSpos). assert (H := Rabs_pos (Rmax x (- off) + off)). lra. Qed.

(** ** C41: energy transforms *)
Theorem C41_null : inverts null_transform null_inverse /\ order_preserving null_transform.
Proof. split; [intros e rho; reflexivity|intros rho e1 e2 H; exact H]. Qed.
Theorem C41_shift : forall L D, inverts (shift_transform L D) (shift_inverse L D) /\ order_preserving (shift_transform L D).
Proof.
  intros L D. split.
  - intros e rho. unfold shift_inverse, shift_transform. ring.
  - intros rho e1 e2 H. unfold shift_transform. lra.
Qed.
Theorem C41_scale : forall L D, inverts (scale_transform L D) (scale_inverse L D) /\ order_preserving (scale_transform L D).
Proof.
  intros L D.
  assert (P : forall rho, 0 < clamp_min (d_T D (to_log L rho (d_rhoOff D))) min8 ^ 3).
  { intros rho. apply pow_lt. assert (A := clamp_ge (d_T D (to_log L rho (d_rhoOff D))) min8). assert (B := min8_pos). lra. }
  split.
  - intros e rho. unfold scale_inverse, scale_transform. specialize (P rho). set (t := clamp_min _ _ ^ 3) in *. clearbody t. field. lra.
  - intros rho e1 e2 H. unfold scale_transform. apply Rmult_lt_compat_r; [|exact H]. apply Rinv_0_lt_compat, P.
Qed.
(** Division by Cv: exactly inverted if and only if the tabulated dT/de lies between the two guards 1e-8 and 1e8. *)
Theorem C41_divide_by_cv :
  forall L D e rho, let v := d_dTdE D (to_log L rho (d_rhoOff D)) (to_log L e (d_eOff D)) in
    v <> 0 -> e <> 0 ->
    (divcv_inverse L D (divcv_transform L D e rho) rho e = e <-> / 100000000 <= v <= 100000000).
Proof.
  intros L D e rho v Hv He. unfold divcv_inverse, divcv_transform. fold v. rewrite <- (cv_pair_iff v Hv).
  rewrite Rmult_assoc. split; intros H; [|rewrite H; ring].
  apply (Rmult_eq_reg_l e); [lra|exact He].
Qed.
Theorem C41_shift_divide_by_cv :
  forall L D e rho, let v := d_dTdE D (to_log L rho (d_rhoOff D)) (to_log L e (d_eOff D)) in
    v <> 0 -> e <> d_sieCold D (to_log L rho (d_rhoOff D)) ->
    (shiftdiv_inverse L D (shiftdiv_transform L D e rho) rho e = e <-> / 100000000 <= v <= 100000000).
Proof.
  intros L D e rho v Hv He. unfold shiftdiv_inverse, shiftdiv_transform. fold v. rewrite <- (cv_pair_iff v Hv).
  set (c := d_sieCold D _) in *. set (a := clamp_min v min8). set (b := clamp_min (1 / v) min8).
  split; intros H.
  - apply (Rmult_eq_reg_l (e - c)); [lra|]. lra.
  - replace ((e - c) * a * b) with ((e - c) * (a * b)) by ring. rewrite H. ring.
Qed.
Theorem C41_all :
  forall L D e rho,
    let c := d_sieCold D (to_log L rho (d_rhoOff D)) in
    let v := d_dTdE D (to_log L rho (d_rhoOff D)) (to_log L (e - c) (d_eOff D)) in
    v <> 0 -> e <> c ->
    (all_inverse L D (all_transform L D e rho) rho e = e <-> / 100000000 <= v <= 100000000).
Proof.
  intros L D e rho c v Hv He. unfold all_inverse, all_transform. cbv zeta. fold c. fold v. rewrite <- (cv_pair_iff v Hv).
  set (a := clamp_min v min8). set (b := clamp_min (1 / v) min8).
  set (t := clamp_min _ min8 ^ 3).
  assert (T : 0 < t).
  { apply pow_lt. match goal with |- 0 < clamp_min ?x _ => assert (A := clamp_ge x min8) end. assert (B := min8_pos). lra. }
  replace ((e - c) * a / t * t * b) with ((e - c) * (a * b)) by (field; lra).
  split; intros H; [apply (Rmult_eq_reg_l (e - c)); [lra|lra]|rewrite H; ring].
Qed.
Definition demo_table (v : R) : TData := mkTData 0 0 (fun _ => 3) (fun _ => 2) (fun _ _ => v).
Example C41_demo : divcv_inverse real_log10 (demo_table (1/1000)) (divcv_transform real_log10 (demo_table (1/1000)) 5 1) 1 5 = 5.
Proof. apply C41_divide_by_cv; cbn; lra. Qed.

(** ** C49: "every transform is inverted exactly and keeps the order of energies" *)
(** a material with specific heat 1.5e8 erg/g/K (hydrogen): the energy comes back 1.5 times too large *)
Theorem C49_divide_by_cv_inverse_refuted :
  forall L, exists D, (forall a b, d_dTdE D a b = / 150000000) /\
    forall e rho, divcv_inverse L D (divcv_transform L D e rho) rho e = 3 / 2 * e /\
                  shiftdiv_inverse L D (shiftdiv_transform L D e rho) rho e = 3 / 2 * e.
Proof.
  intros L. exists (mkTData 0 0 (fun _ => 0) (fun _ => 1) (fun _ _ => / 150000000)). split; [reflexivity|].
  intros e rho. unfold divcv_inverse, divcv_transform, shiftdiv_inverse, shiftdiv_transform, min8. cbn [d_dTdE d_sieCold].
  rewrite (clamp_low (/ 150000000)) by lra. rewrite (clamp_id (1 / / 150000000)) by lra. split; field.
Qed.
(** and order is lost when dT/de falls faster than 1/e *)
Theorem C49_divide_by_cv_order_refuted :
  forall L, is_log_pair L -> exists D e1 e2, 0 < e1 < e2 /\
    (forall a b, / 100000000 <= d_dTdE D a b <= 100000000) /\
    forall rho, divcv_transform L D e2 rho < divcv_transform L D e1 rho.
Proof.
  intros L HL.
  exists (mkTData 0 0 (fun _ => 0) (fun _ => 1) (fun _ l => if Rle_bool l (to_log L 1 0) then 1 else / 4)), 1, 2.
  split; [lra|]. split; [intros a b; cbn; case Rle_bool; lra|].
  intros rho. unfold divcv_transform, min8. cbn [d_dTdE d_eOff].
  assert (H : to_log L 1 0 < to_log L 2 0) by (apply to_log_incr_strict; [exact HL|lra|lra]).
  rewrite (Rle_bool_true (to_log L 1 0)) by lra. rewrite (Rle_bool_false (to_log L 2 0)) by lra.
  rewrite !clamp_id by lra. lra.
Qed.

(** ** C43: Bounds *)
Theorem C43_offset_makes_range_positive :
  forall mn, 0 <= log_offset mn /\ 0 < mn + log_offset mn /\ (0 < mn -> log_offset mn = 0).
Proof. exact log_offset_spec. Qed.
(** log bounds: increasing, inside the exact logs of the bounds, and the exact logs when nothing is shrunk *)
Theorem C43_log_bounds :
  forall L, is_log_pair L -> forall mn mx sh, mn < mx -> 0 <= sh < 1 ->
    let '(lmin, lmax) := convertBoundsToLog_ L mn mx sh in
    lg10 L (mn + log_offset mn) <= lmin /\ lmin < lmax /\ lmax <= lg10 L (mx + log_offset mn) /\
    (sh = 0 -> lmin = lg10 L (mn + log_offset mn) /\ lmax = lg10 L (mx + log_offset mn)).
Proof.
  intros L HL mn mx sh H S. assert (K := convert_spec L HL mn mx sh H S).
  destruct (log_offset_spec mn) as [_ [P _]]. destruct (convertBoundsToLog_ L mn mx sh) as [lmin lmax].
  unfold toLog_ in K. rewrite !Rabs_pos_eq in K by lra. exact K.
Qed.
(** converting back: always inside the requested linear range, order preserving, and exact inside it *)
Theorem C43_log2lin :
  forall L, is_log_pair L -> forall b, b_linmin b <= b_linmax b ->
    (forall xl, b_linmin b <= log2lin L b xl <= b_linmax b) /\
    (forall x y, x <= y -> log2lin L b x <= log2lin L b y) /\
    (forall v, 0 < v + b_offset b -> b_linmin b <= v <= b_linmax b ->
               log2lin L b (lg10 L (v + b_offset b)) = v).
Proof.
  intros L HL b H. refine (conj _ (conj _ _)).
  - intros xl. apply log2lin_range, H.
  - intros x y. apply log2lin_incr, HL.
  - intros v P Q. assert (K := log2lin_id L HL b v P Q). unfold toLog_ in K. rewrite Rabs_pos_eq in K by lra. exact K.
Qed.
(** end to end, one grid without anchor: the grid starts at the requested minimum and ends at the requested maximum *)
Theorem C43_one_grid_covers_request :
  forall L, is_log_pair L -> forall mn mx N, mn < mx -> (2 <= N)%Z ->
    let b := Bounds_one L mn mx N true 0 None in
    increasing_grids (b_grids b) /\
    exists g, b_grids b = [g] /\ log2lin L b (g_x g 0) = mn /\ log2lin L b (g_x g (g_N g - 1)) = mx /\
      forall i j, (0 <= i <= j)%Z -> log2lin L b (g_x g i) <= log2lin L b (g_x g j).
Proof.
  intros L HL mn mx N H HN b. assert (K := C43_log_bounds L HL mn mx 0 H ltac:(lra)).
  destruct (log_offset_spec mn) as [_ [P _]].
  unfold b, Bounds_one. destruct (convertBoundsToLog_ L mn mx 0) as [lmin lmax] eqn:E.
  destruct K as (_ & K1 & _ & K2). destruct (K2 eq_refl) as [-> ->]. clear K2.
  set (bb := mkBounds _ _ _ _).
  assert (I : b_linmin bb <= b_linmax bb) by (cbn; lra).
  destruct (C43_log2lin L HL bb I) as (_ & M & Q). split.
  - intros g [<-|[]]. cbn. lia || (split; [exact HN|exact K1]).
  - eexists. split; [reflexivity|]. cbn [g_N].
    assert (NZ : 1 <= IZR (N - 1)) by (apply IZR_le; lia). refine (conj _ (conj _ _)).
    + unfold g_x. cbn [g_min]. rewrite Rmult_0_l, Rplus_0_r. apply (Q mn); cbn; lra.
    + unfold g_x, g_dx. cbn [g_min g_max g_N].
      replace (lg10 L (mn + log_offset mn) + IZR (N - 1) * ((lg10 L (mx + log_offset mn) - lg10 L (mn + log_offset mn)) / IZR (N - 1)))
        with (lg10 L (mx + log_offset mn)) by (field; lra). apply (Q mx); cbn; lra.
    + intros i j Hij. apply M. unfold g_x. apply Rplus_le_compat_l, Rmult_le_compat_r; [|apply IZR_le; lia].
      unfold g_dx. cbn [g_min g_max g_N]. apply Rlt_le, Rdiv_lt_0_compat; lra.
Qed.
Theorem C43_number_of_points :
  forall mn mx density, (2 <= getNumPointsFromDensity mn mx density)%Z /\
    density * (mx - mn) <= IZR (getNumPointsFromDensity mn mx density).
Proof. intros. split; [apply numpoints_ge2|apply numpoints_density]. Qed.
(** shifting the grid onto an anchor: never exceeds the requested maximum, gives up less than two cells, and puts
    the anchor on the grid whenever there is room, i.e. N * frac * (1 - frac) >= 1 *)
Theorem C43_anchor :
  forall mn mx N a mx' N', mn < a < mx -> (2 <= N)%Z -> adjustForAnchor_ mn mx N a = (mx', N') ->
    mx' <= mx /\
    (let frac := (a - mn) / (mx - mn) in
     1 <= IZR N * frac * (1 - frac) -> (2 <= Zceil (IZR N * frac) < N)%Z ->
       (2 <= N')%Z /\ mn < mx' < mx /\ a <= mx' /\ is_grid_point [mkGrid mn mx' N'] a /\
       mx - mx' < 2 * g_dx (mkGrid mn mx' N')).
Proof.
  intros mn mx N a mx' N' H HN E. split.
  - destruct (adjust_in mn mx N a mx' N' H E) as [[-> _]|(Na & dx & _ & _ & D & _ & _ & _ & _ & B)]; lra.
  - cbv zeta. intros R1 R2.
    replace (1 - (a - mn) / (mx - mn)) with ((mx - a) / (mx - mn)) in R1 by (field; lra).
    destruct (adjust_room mn mx N a mx' N' H E R1 R2) as (A & B & C & G).
    refine (conj _ (conj B (conj C (conj _ _)))).
    + lia.
    + eexists _, _. split; [left; reflexivity|]. split; [|exact G]. cbn. lia.
    + destruct (adjust_in mn mx N a mx' N' H E) as [[_ [_ X]]|(Na & dx & E0 & E1 & DX & E2 & E3 & E4 & E5 & E6)]; [exfalso; tauto|].
      assert (2 <= N')%Z by lia. assert (1 <= IZR (N' - 1)) by (apply IZR_le; lia).
      unfold g_dx. cbn. rewrite E5 at 2.
      replace ((mn + dx * IZR (N' - 1) - mn) / IZR (N' - 1)) with dx by (field; lra). lra.
Qed.
Example C43_anchor_nonvacuous :
  1 < 3 < 5 /\ 1 <= IZR 8 * ((3 - 1) / (5 - 1)) * (1 - (3 - 1) / (5 - 1)) /\
  (2 <= Zceil (IZR 8 * ((3 - 1) / (5 - 1))) < 8)%Z.
Proof.
  split; [lra|]. replace (IZR 8 * ((3 - 1) / (5 - 1))) with (IZR 4) by lra. rewrite Zceil_IZR. split; [lra|lia].
Qed.
(** moved points end up strictly inside when the interval is wide compared to its (non-zero) end points *)
Theorem C43_check_interval :
  forall p mn mx, mn < mx ->
    (mn < p < mx -> checkInterval_ p mn mx = p) /\
    (0 < Rabs mn < 10 * (mx - mn) -> 0 < Rabs mx < 10 * (mx - mn) -> mn < checkInterval_ p mn mx < mx).
Proof. intros p mn mx H. split; [apply check_id|intros [A B] [C D]; apply check_in; assumption]. Qed.
(** the piecewise grids always abut and always cover the whole range, whatever the input *)
Theorem C43_two_grids_cover :
  forall gmin gmax anchor split ppd f, abut gmin gmax (two_grids gmin gmax anchor split ppd f).
Proof. intros. unfold two_grids. destruct (adjustForAnchor_ _ _ _ _). cbn. tauto. Qed.
Theorem C43_three_grids_cover :
  forall gmin gmax anchor m M ppd f g, abut gmin gmax (gridFromIntervals_ gmin gmax anchor m M ppd f g).
Proof. intros. unfold gridFromIntervals_. destruct (adjustForAnchor_ _ _ _ _). cbn. tauto. Qed.
(** and they increase and contain the anchor when the points given are in order and there is room for the anchor *)
Definition room (mn mx ppd a : R) : Prop :=
  let N := (getNumPointsFromDensity mn mx ppd + 1)%Z in let frac := (a - mn) / (mx - mn) in
  1 <= IZR N * frac * (1 - frac) /\ (2 <= Zceil (IZR N * frac) < N)%Z.
Theorem C43_two_grids_increasing :
  forall gmin gmax anchor split ppd f, gmin < anchor < split -> split < gmax -> room gmin split ppd anchor ->
    increasing_grids (two_grids gmin gmax anchor split ppd f) /\ is_grid_point (two_grids gmin gmax anchor split ppd f) anchor.
Proof.
  intros gmin gmax a s ppd f H1 H2 [R1 R2]. unfold two_grids. rewrite (check_id s) by lra. rewrite (check_id a) by lra.
  set (N := (getNumPointsFromDensity gmin s ppd + 1)%Z) in *.
  assert (HN : (2 <= N)%Z) by (assert (K := numpoints_ge2 gmin s ppd); lia).
  destruct (adjustForAnchor_ gmin s N a) as [s' N'] eqn:E.
  destruct (C43_anchor gmin s N a s' N' H1 HN E) as [_ K]. destruct (K R1 R2) as (K1 & K2 & K3 & K4 & _). split.
  - intros g [<-|[<-|[]]]; cbn.
    + split; [exact K1|lra].
    + split; [apply numpoints_ge2|lra].
  - destruct K4 as (g & i & [<-|[]] & Hi & G). eexists _, i. split; [left; reflexivity|]. split; [exact Hi|exact G].
Qed.
Theorem C43_three_grids_increasing :
  forall gmin gmax anchor m M ppd f g, gmin < anchor < gmax -> m < anchor < M ->
    (let m' := if Rle_bool m gmin then anchor - 9 / 10 * (anchor - gmin) else m in
     let M' := if Rle_bool gmax M then anchor + 9 / 10 * (gmax - anchor) else M in room m' M' ppd anchor) ->
    increasing_grids (gridFromIntervals_ gmin gmax anchor m M ppd f g) /\
    is_grid_point (gridFromIntervals_ gmin gmax anchor m M ppd f g) anchor.
Proof.
  intros gmin gmax a m M ppd f g H1 H2. unfold gridFromIntervals_. cbv zeta.
  rewrite (Rabs_pos_eq (a - gmin)), (Rabs_pos_eq (gmax - a)) by lra.
  set (m' := if Rle_bool m gmin then _ else m). set (M' := if Rle_bool gmax M then _ else M).
  assert (A : gmin < m' < a) by (unfold m'; case Rle_bool_spec; lra).
  assert (B : a < M' < gmax) by (unfold M'; case Rle_bool_spec; lra).
  clearbody m' M'. intros [R1 R2].
  set (N := (getNumPointsFromDensity m' M' ppd + 1)%Z) in *.
  assert (HN : (2 <= N)%Z) by (assert (K := numpoints_ge2 m' M' ppd); lia).
  destruct (adjustForAnchor_ m' M' N a) as [s' N'] eqn:E.
  destruct (C43_anchor m' M' N a s' N' ltac:(lra) HN E) as [_ K]. destruct (K R1 R2) as (K1 & K2 & K3 & K4 & _). split.
  - intros h [<-|[<-|[<-|[]]]]; cbn; (split; [first [exact K1|apply numpoints_ge2]|lra]).
  - destruct K4 as (h & i & [<-|[]] & Hi & G). eexists _, i. split; [right; left; reflexivity|]. split; [exact Hi|exact G].
Qed.
Example C43_room_nonvacuous : room 0 1 10 (1 / 2).
Proof.
  unfold room, getNumPointsFromDensity. replace (10 * (1 - 0)) with (IZR 10) by lra. rewrite Zceil_IZR. change (Z.max 2 10 + 1)%Z with 11%Z.
  split; [lra|]. replace (IZR 11 * ((1 / 2 - 0) / (1 - 0))) with (11 / 2) by lra.
  replace (Zceil (11 / 2)) with 6%Z; [lia|]. symmetry. apply Zceil_imp. split; cbn; lra.
Qed.

(** ** C50: "the anchor is always a grid point and the grids always increase" *)
Lemma ceil_of (x : R) (n : Z) : IZR (n - 1) < x <= IZR n -> Zceil x = n.
Proof. apply Zceil_imp. Qed.
Lemma trunc_of (x : R) (n : Z) : (0 <= n)%Z -> IZR n <= x < IZR (n + 1) -> Ztrunc x = n.
Proof. intros Hn [A B]. rewrite Ztrunc_floor; [apply Zfloor_imp; auto|]. apply Rle_trans with (2 := A). apply IZR_le, Hn. Qed.
(** a three-point grid with the anchor at 60%: one point is left, min = max *)
Theorem C50_anchor_degenerate_refuted : adjustForAnchor_ 0 10 3 6 = (0, 1%Z).
Proof.
  unfold adjustForAnchor_. rewrite (Rlt_bool_true 0 6), (Rlt_bool_true 6 10) by lra. cbn [andb].
  replace (Zceil (3 * ((6 - 0) / (10 - 0)))) with 2%Z by (symmetry; apply ceil_of; cbn; lra).
  change ((2 <? 2)%Z || (3 <=? 2)%Z)%bool with false. cbn iota.
  replace (Ztrunc ((10 - 0) / ((6 - 0) / IZR (2 - 1)))) with 1%Z by (symmetry; apply trunc_of; [lia|]; cbn; lra).
  cbn. f_equal. lra.
Qed.
(** five points, anchor at 79%: the adjusted grid ends below the anchor it was adjusted for *)
Theorem C50_anchor_off_grid_refuted :
  exists mx', adjustForAnchor_ 0 100 5 79 = (mx', 3%Z) /\ mx' < 79 /\ 100 - mx' > 40.
Proof.
  exists (158 / 3). split; [|lra].
  unfold adjustForAnchor_. rewrite (Rlt_bool_true 0 79), (Rlt_bool_true 79 100) by lra. cbn [andb].
  replace (Zceil (5 * ((79 - 0) / (100 - 0)))) with 4%Z by (symmetry; apply ceil_of; cbn; lra).
  change ((4 <? 2)%Z || (5 <=? 4)%Z)%bool with false. cbn iota.
  replace (Ztrunc ((100 - 0) / ((79 - 0) / IZR (4 - 1)))) with 3%Z by (symmetry; apply trunc_of; [lia|]; cbn; lra).
  cbn. f_equal. lra.
Qed.
(** even when there is room, at least one whole cell of the requested range is always given up *)
Theorem C50_anchor_loses_a_cell_refuted :
  forall mn mx N a mx' N', mn < a < mx -> adjustForAnchor_ mn mx N a = (mx', N') -> mx' <> mx ->
    exists dx, 0 < dx /\ (exists k, a = mn + dx * IZR k) /\ mx' + dx <= mx.
Proof.
  intros mn mx N a mx' N' H E D. destruct (adjust_in mn mx N a mx' N' H E) as [[X _]|(Na & dx & E0 & E1 & DX & E2 & E3 & E4 & E5 & E6)].
  - contradiction.
  - exists dx. split; [exact DX|]. split; [exists (Na - 1)%Z; lra|lra].
Qed.
(** a point on or below a minimum that is zero in log space (e.g. 1 g/cc) is "adjusted" to the minimum itself, and in a
    narrow interval it is moved out of it *)
Theorem C50_check_interval_refuted :
  checkInterval_ (-1) 0 1 = 0 /\ checkInterval_ 1 2 (5 / 2) < 5 / 2 /\ ~ (5 < checkInterval_ 4 5 (51 / 10)).
Proof.
  unfold checkInterval_. rewrite (Rle_bool_true (-1) 0), (Rle_bool_true 1 2), (Rle_bool_true 4 5) by lra.
  rewrite Rabs_R0, !Rabs_pos_eq by lra.
  rewrite (Rle_bool_false 1 (0 + 1 / 10 * 0)), (Rle_bool_false (5/2) (2 + 1 / 10 * 2)), (Rle_bool_true (51/10) (5 + 1 / 10 * 5)) by lra.
  lra.
Qed.
(** a refined interval below the anchor whose lower end is out of range: the middle grid runs backwards *)
Theorem C50_three_grids_reversed_refuted :
  exists g, In g (gridFromIntervals_ 0 10 8 (-1) (1 / 2) 1 1 1) /\ g_max g < g_min g.
Proof.
  unfold gridFromIntervals_. rewrite (Rle_bool_true (-1) 0), (Rle_bool_false 10 (1 / 2)) by lra. cbv zeta.
  rewrite (Rabs_pos_eq (8 - 0)) by lra. rewrite adjust_out by lra.
  eexists. split; [right; left; reflexivity|]. cbn. lra.
Qed.
(** the one-grid constructor takes the log of the anchor without the offset: with a non-positive minimum the grid point it
    creates is not the anchor but lies [offset] below it *)
Theorem C50_one_grid_anchor_offset_refuted :
  forall L, is_log_pair L -> forall mn a, mn <= 0 -> 0 < a -> mn <= a - log_offset mn ->
    forall b, b_offset b = log_offset mn -> b_linmin b = mn -> a <= b_linmax b ->
      log2lin L b (lg10 L (Rabs a)) = a - log_offset mn /\ log2lin L b (lg10 L (Rabs a)) < a.
Proof.
  intros L HL mn a Hm Ha H b Hb H1 H2. assert (M := min_offset_pos).
  assert (O : 0 < log_offset mn).
  { unfold log_offset. rewrite Rle_bool_true by exact Hm. assert (X := Rabs_pos mn). lra. }
  assert (E : log2lin L b (lg10 L (Rabs a)) = a - log_offset mn); [|split; lra].
  rewrite Rabs_pos_eq by lra. unfold log2lin. rewrite (lp_inv_l L HL) by exact Ha. rewrite Hb, H1.
  case (Rlt_bool_spec mn (a - log_offset mn)); intros X; (rewrite Rlt_bool_true; lra).
Qed.
Example C50_one_grid_anchor_offset_nonvacuous :
  -1 <= 0 /\ 0 < 2 /\ -1 <= 2 - log_offset (-1).
Proof.
  assert (min_offset < 1).
  { unfold min_offset. rewrite Rabs_pos_eq by apply bpow_ge_0. change (bpow radix2 (-52)) with (/ IZR (2^52)). 
    apply (Rmult_lt_reg_r (IZR (2^52))); [cbn; lra|]. rewrite Rmult_assoc, Rinv_l; cbn; lra. }
  unfold log_offset. rewrite Rle_bool_true by lra. rewrite Rabs_left by lra. lra.
Qed.

(** ** C52: the density of minimum pressure *)
Section C52.
Variable L : LogPair.
Variables (P : nat -> nat -> R) (x : nat -> R) (NR NT : nat) (thresh off : R).
Let rho (v : bool) := rho_at_pmin L P x NR NT v thresh off.
(** without the vapour-dome option: at every temperature the density of the table's lowest pressure, or 0 when the pressure
    is positive everywhere *)
Theorem C52_no_dome :
  (0 < NR)%nat -> forall i, exists jm, (jm < NR)%nat /\ (forall j, (j < NR)%nat -> P jm i <= P j i) /\
    (0 < P jm i -> rho false i = 0) /\ (P jm i <= 0 -> rho false i = from_log L (x jm) off).
Proof.
  intros HN i. unfold rho, rho_at_pmin, row. assert (K := scan_final L P x NR false thresh off i).
  destruct (jscan L P x NR false thresh off i) as [pm jm]. destruct K as [[K _]|(m & E1 & E2 & E3 & E4 & E5 & _)]; [lia|].
  cbn in E1, E2, E5. subst pm. specialize (E5 eq_refl). exists jm. split; [exact E2|]. rewrite E5. split; [exact E3|].
  cbn [negb andb]. case Rlt_bool_spec; intros C; cbn; split; intros; lra || reflexivity.
Qed.
(** the reported minimum pressure is the lowest pressure of the table (with the vapour-dome option), or the lower of it and 0 *)
Theorem C52_minimum_pressure :
  (0 < NR)%nat -> (0 < NT)%nat -> forall v, exists p, PMin_all L P x NR NT v thresh off = Some p /\
    (forall i j, (i < NT)%nat -> (j < NR)%nat -> p <= P j i) /\ (v = false -> p <= 0) /\
    ((exists i j, (i < NT)%nat /\ (j < NR)%nat /\ p = P j i) \/ v = false /\ p = 0).
Proof.
  intros HR HT v.
  assert (K : forall i, exists m, (forall j, (j < NR)%nat -> m <= P j i) /\ (exists j, (j < NR)%nat /\ P j i = m) /\
     exists q, snd (row L P x NR v thresh off i) = Some q /\ ((q = m /\ (v = false -> m <= 0)) \/ (v = false /\ 0 < m /\ q = 0))).
  { intros i. assert (K := scan_final L P x NR v thresh off i). unfold row.
    destruct (jscan L P x NR v thresh off i) as [pm jm]. destruct K as [[K _]|(m & E1 & E2 & E3 & E4 & _)]; [lia|].
    cbn in E1. subst pm. exists m. split; [exact E3|]. split; [exact E4|].
    case Rlt_bool_spec; intros C; destruct v; cbn.
    - exists m. split; [reflexivity|]. left. split; [reflexivity|discriminate].
    - exists 0. split; [reflexivity|]. right. auto.
    - exists m. split; [reflexivity|]. left. split; [reflexivity|intros _; exact C].
    - exists m. split; [reflexivity|]. left. split; [reflexivity|intros _; exact C]. }
  destruct (pmin_fold L P x NR NT v thresh off) as (p & E & F1 & (i0 & I1 & I2)).
  - intros i _. destruct (K i) as (m & _ & _ & q & Eq & _). exists q. exact Eq.
  - exact HT.
  - exists p. split; [exact E|]. split; [|split].
    + intros i j Hi Hj. destruct (K i) as (m & M1 & M2 & q & Eq & D). specialize (F1 i q Hi Eq). specialize (M1 j Hj). lra.
    + intros ->. destruct (K i0) as (m & M1 & M2 & q & Eq & D). rewrite I2 in Eq. injection Eq as <-. 
      destruct D as [[-> D]|[_ [_ ->]]]; [apply D; reflexivity|lra].
    + destruct (K i0) as (m & M1 & (j & J1 & J2) & q & Eq & D). rewrite I2 in Eq. injection Eq as <-.
      destruct D as [[-> D]|[Hv [_ ->]]]; [left; exists i0, j; auto|right; auto].
Qed.
(** with it: the densities never increase with temperature, and above the reported density the pressure rises faster than
    the threshold between every two points two apart, at that temperature and at every higher one *)
Theorem C52_dome_non_increasing : forall i, (S i < NT)%nat -> rho true (S i) <= rho true i.
Proof.
  intros i Hi. unfold rho, rho_at_pmin. destruct NT as [|[|k]]; [lia|lia|].
  match goal with |- mono_down ?r k _ <= _ => destruct (mono_down_spec k r) as [A B] end.
  rewrite (A i) by lia. apply Rmax_r.
Qed.
Theorem C52_dome_edge :
  (0 < NR)%nat -> forall i, (i < NT)%nat -> forall t, (i <= t < NT)%nat ->
  exists jm, (jm < NR)%nat /\ from_log L (x jm) off <= rho true i /\
    (exists k, (i <= k < NT)%nat /\ exists jk, (jk < NR)%nat /\ rho true i = from_log L (x jk) off) /\
    forall j, (jm < j < NR)%nat -> (1 < j)%nat ->
      thresh <= ratio (P j t - P (j - 2)%nat t) (from_log L (x j) off - from_log L (x (j - 2)%nat) off).
Proof.
  intros HR.
  assert (RAW : forall t, exists jm, (jm < NR)%nat /\ fst (row L P x NR true thresh off t) = from_log L (x jm) off /\
     forall j, (jm < j < NR)%nat -> (1 < j)%nat ->
      thresh <= ratio (P j t - P (j - 2)%nat t) (from_log L (x j) off - from_log L (x (j - 2)%nat) off)).
  { intros t. assert (K := scan_final L P x NR true thresh off t). unfold row.
    destruct (jscan L P x NR true thresh off t) as [pm jm]. destruct K as [[K _]|(m & E1 & E2 & E3 & E4 & E5 & E6)]; [lia|].
    cbn in E1, E2, E6. subst pm. exists jm. split; [exact E2|]. rewrite Bool.andb_false_r. split; [reflexivity|apply E6; reflexivity]. }
  intros i Hi t Ht.
  assert (MAX : fst (row L P x NR true thresh off t) <= rho true i /\
     exists k, (i <= k < NT)%nat /\ rho true i = fst (row L P x NR true thresh off k)).
  { unfold rho, rho_at_pmin. destruct NT as [|[|k]]; [lia| |].
    - replace t with i by lia. split; [lra|exists i; split; [lia|reflexivity]].
    - set (r := fun i => fst (row L P x NR true thresh off i)) in *. destruct (mono_down_spec k r) as [A B].
      assert (G : forall d i, (S k - i = d)%nat -> (i <= S k)%nat -> (forall t, (i <= t < S (S k))%nat -> r t <= mono_down r k i) /\
        exists q, (i <= q < S (S k))%nat /\ mono_down r k i = r q).
      { clear i Hi Ht. induction d as [|d IH]; intros i Ei Hi.
        - assert (i = S k) by lia. subst i. rewrite B by lia. split; [intros u Hu; replace u with (S k) by lia; lra|].
          exists (S k). split; [lia|reflexivity].
        - destruct (IH (S i) ltac:(lia) ltac:(lia)) as [I1 (q & Q1 & Q2)]. rewrite (A i) by lia. split.
          + intros u Hu. destruct (Nat.eq_dec u i) as [->|]; [apply Rmax_l|]. apply Rle_trans with (2 := Rmax_r _ _). apply I1. lia.
          + unfold Rmax. destruct (Rle_dec (r i) (mono_down r k (S i))); [exists q; split; [lia|exact Q2]|exists i; split; [lia|reflexivity]]. }
      destruct (G (S k - i)%nat i eq_refl ltac:(lia)) as [G1 (q & Q1 & Q2)]. split; [apply G1; exact Ht|]. exists q. split; [exact Q1|exact Q2]. }
  destruct MAX as [M1 (k & K1 & K2)]. destruct (RAW t) as (jm & J1 & J2 & J3). exists jm. split; [exact J1|].
  split; [rewrite <- J2; exact M1|]. split; [|exact J3]. exists k. split; [exact K1|].
  destruct (RAW k) as (jk & J1' & J2' & _). exists jk. split; [exact J1'|]. rewrite K2. exact J2'.
Qed.
End C52.
Print Assumptions C51_real_log10_is_log_pair.
Print Assumptions C51_round_trip.
Print Assumptions C51_round_trip_back.
Print Assumptions C51_monotone.
Print Assumptions C51_argument_positive.
Print Assumptions C41_null.
Print Assumptions C41_shift.
Print Assumptions C41_scale.
Print Assumptions C41_divide_by_cv.
Print Assumptions C41_shift_divide_by_cv.
Print Assumptions C41_all.
Print Assumptions C49_divide_by_cv_inverse_refuted.
Print Assumptions C49_divide_by_cv_order_refuted.
Print Assumptions C43_offset_makes_range_positive.
Print Assumptions C43_log_bounds.
Print Assumptions C43_log2lin.
Print Assumptions C43_one_grid_covers_request.
Print Assumptions C43_number_of_points.
Print Assumptions C43_anchor.
Print Assumptions C43_check_interval.
Print Assumptions C43_two_grids_cover.
Print Assumptions C43_three_grids_cover.
Print Assumptions C43_two_grids_increasing.
Print Assumptions C43_three_grids_increasing.
Print Assumptions C50_anchor_degenerate_refuted.
Print Assumptions C50_anchor_off_grid_refuted.
Print Assumptions C50_anchor_loses_a_cell_refuted.
Print Assumptions C50_check_interval_refuted.
Print Assumptions C50_three_grids_reversed_refuted.
Print Assumptions C50_one_grid_anchor_offset_refuted.
Print Assumptions C52_no_dome.
Print Assumptions C52_minimum_pressure.
Print Assumptions C52_dome_non_increasing.
Print Assumptions C52_dome_edge.
