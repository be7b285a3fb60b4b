From Coq Require Import ZArith Reals List Lra Lia Bool Psatz.
From Flocq Require Import Core.
From Verif Require Import Robust_Model Robust_Proofs SpinerUtil_Model SpinerUtil_Spec.
Import ListNotations.
Local Open Scope R_scope.

Lemma ln10_pos : 0 < ln 10.
Proof. rewrite <- ln_1. apply ln_increasing; lra. Qed.
Lemma real_log10_pair : is_log_pair real_log10.
Proof.
  assert (H := ln10_pos). constructor; cbn.
  - intros x Hx. replace (ln x / ln 10 * ln 10) with (ln x) by (field; lra). apply exp_ln, Hx.
  - intros y. rewrite ln_exp. field. lra.
  - intros y. apply exp_pos.
  - intros x y Hx Hxy. apply Rmult_lt_compat_r; [apply Rinv_0_lt_compat, H|apply ln_increasing; assumption].
Qed.

Lemma EPSpos : 0 < EPS.
Proof. unfold EPS. assert (H := bpow_gt_0 radix2 (-52)). lra. Qed.

Section L.
Variable L : LogPair.
Hypothesis HL : is_log_pair L.
Lemma pw_incr y z : y < z -> pw10 L y < pw10 L z.
Proof.
  intros H. destruct (Rlt_or_le (pw10 L y) (pw10 L z)) as [|C]; [assumption|exfalso].
  destruct C as [C|C].
  - apply (lp_incr L HL) in C; [|apply (lp_pos L HL)]. rewrite !(lp_inv_r L HL) in C. lra.
  - apply (f_equal (lg10 L)) in C. rewrite !(lp_inv_r L HL) in C. lra.
Qed.
Lemma pw_incr_le y z : y <= z -> pw10 L y <= pw10 L z.
Proof. intros [H|H]; [left; apply pw_incr, H|right; congruence]. Qed.
Lemma lg_incr_le x y : 0 < x -> x <= y -> lg10 L x <= lg10 L y.
Proof. intros Hx [H|H]; [left; apply (lp_incr L HL); assumption|right; congruence]. Qed.

Lemma from_to x off : - off <= x -> from_log L (to_log L x off) off = x + EPS.
Proof.
  intros H. assert (E := EPSpos). unfold from_log, to_log. rewrite Rmax_left by assumption.
  rewrite Rabs_pos_eq by lra. rewrite (lp_inv_l L HL) by lra. ring.
Qed.
Lemma from_to_below x off : x <= - off -> from_log L (to_log L x off) off = - off + EPS.
Proof.
  intros H. assert (E := EPSpos). unfold from_log, to_log. rewrite Rmax_right by assumption.
  replace (- off + off) with 0 by ring. rewrite Rabs_R0, Rplus_0_l, (lp_inv_l L HL) by lra. ring.
Qed.
Lemma to_from lx off : EPS <= pw10 L lx -> to_log L (from_log L lx off - EPS) off = lx.
Proof.
  intros H. unfold to_log, from_log. rewrite Rmax_left by lra. rewrite Rabs_pos_eq by lra.
  replace (pw10 L lx - off - EPS + off + EPS) with (pw10 L lx) by ring. apply (lp_inv_r L HL).
Qed.
Lemma to_log_incr x y off : x <= y -> to_log L x off <= to_log L y off.
Proof.
  intros H. assert (E := EPSpos). unfold to_log.
  assert (A : Rmax x (- off) <= Rmax y (- off)) by (apply Rle_max_compat_r; assumption).
  assert (B := Rmax_r x (- off)). assert (C := Rmax_r y (- off)).
  rewrite !Rabs_pos_eq by lra. apply lg_incr_le; lra.
Qed.
Lemma to_log_incr_strict x y off : - off <= x -> x < y -> to_log L x off < to_log L y off.
Proof.
  intros H0 H. assert (E := EPSpos). unfold to_log. rewrite !Rmax_left by lra.
  rewrite !Rabs_pos_eq by lra. apply (lp_incr L HL); lra.
Qed.
End L.

Lemma min8_pos : 0 < min8. Proof. unfold min8. lra. Qed.
Lemma clamp_ge v m : m <= clamp_min v m.
Proof. unfold clamp_min. case Rlt_bool_spec; lra. Qed.
Lemma clamp_id v m : m <= v -> clamp_min v m = v.
Proof. unfold clamp_min. case Rlt_bool_spec; lra. Qed.
Lemma clamp_low v m : v <= m -> clamp_min v m = m.
Proof. unfold clamp_min. case Rlt_bool_spec; lra. Qed.
Lemma cv_pair v : min8 <= v <= 100000000 -> clamp_min v min8 * clamp_min (1 / v) min8 = 1.
Proof.
  unfold min8. intros [A B]. rewrite (clamp_id v) by lra.
  assert (/ 100000000 <= 1 / v). { unfold Rdiv. rewrite Rmult_1_l. apply Rinv_le; lra. }
  rewrite clamp_id by lra. field. lra.
Qed.
Lemma cv_pair_iff v : v <> 0 -> clamp_min v min8 * clamp_min (1 / v) min8 = 1 <-> min8 <= v <= 100000000.
Proof.
  intros V. split; [|apply cv_pair]. unfold min8. intros H.
  destruct (Rlt_or_le v (/100000000)) as [A|A].
  - exfalso. rewrite (clamp_low v) in H by lra. destruct (Rlt_or_le v 0) as [B|B].
    + assert (1 / v < 0). { unfold Rdiv. rewrite Rmult_1_l. apply Rinv_lt_0_compat, B. }
      rewrite clamp_low in H by lra. lra.
    + assert (100000000 < 1 / v).
      { unfold Rdiv. rewrite Rmult_1_l. replace 100000000 with (/ / 100000000) by (field). apply Rinv_lt_contravar; [|assumption].
        apply Rmult_lt_0_compat; lra. }
      rewrite clamp_id in H by lra. nra.
  - split; [assumption|]. destruct (Rle_or_lt v 100000000) as [B|B]; [assumption|exfalso].
    rewrite (clamp_id v) in H by lra.
    assert (1 / v < / 100000000). { unfold Rdiv. rewrite Rmult_1_l. apply Rinv_lt_contravar; [nra|lra]. }
    rewrite clamp_low in H by lra. lra.
Qed.

(** ** Bounds *)
Lemma min_offset_pos : 0 < min_offset.
Proof. unfold min_offset. assert (H := bpow_gt_0 radix2 (-52)). rewrite Rabs_pos_eq; lra. Qed.
Lemma log_offset_spec mn : 0 <= log_offset mn /\ 0 < mn + log_offset mn /\ (0 < mn -> log_offset mn = 0).
Proof.
  assert (M := min_offset_pos). unfold log_offset. case Rle_bool_spec; intros H.
  - rewrite Rabs_left1 by assumption. lra.
  - lra.
Qed.

Section BL.
Variable L : LogPair.
Hypothesis HL : is_log_pair L.
Lemma log2lin_range b xl : b_linmin b <= b_linmax b -> b_linmin b <= log2lin L b xl <= b_linmax b.
Proof.
  intros H. unfold log2lin. case Rlt_bool_spec; case Rlt_bool_spec; intros; try lra; case Rlt_bool_spec; intros; lra.
Qed.
Lemma log2lin_id b v : 0 < v + b_offset b -> b_linmin b <= v <= b_linmax b ->
  log2lin L b (toLog_ L v (b_offset b)) = v.
Proof.
  intros H [A B]. unfold log2lin, toLog_. rewrite Rabs_pos_eq by lra. rewrite (lp_inv_l L HL) by assumption.
  replace (v + b_offset b - b_offset b) with v by ring.
  case (Rlt_bool_spec (b_linmin b) v); intros C.
  - case Rlt_bool_spec; intros; lra.
  - case Rlt_bool_spec; intros; lra.
Qed.
Lemma log2lin_incr b x y : x <= y -> log2lin L b x <= log2lin L b y.
Proof.
  intros H. apply (pw_incr_le L HL) in H. unfold log2lin.
  case (Rlt_bool_spec (b_linmin b) (pw10 L x - b_offset b));
  case (Rlt_bool_spec (b_linmin b) (pw10 L y - b_offset b)); intros;
  repeat (case Rlt_bool_spec; intros); lra.
Qed.
Lemma toLog_incr v w off : 0 < v + off -> v < w -> toLog_ L v off < toLog_ L w off.
Proof. intros H K. unfold toLog_. rewrite !Rabs_pos_eq by lra. apply (lp_incr L HL); lra. Qed.
Lemma convert_spec mn mx sh : mn < mx -> 0 <= sh < 1 ->
  let '(lmin, lmax) := convertBoundsToLog_ L mn mx sh in
  toLog_ L mn (log_offset mn) <= lmin /\ lmin < lmax /\ lmax <= toLog_ L mx (log_offset mn) /\
  (sh = 0 -> lmin = toLog_ L mn (log_offset mn) /\ lmax = toLog_ L mx (log_offset mn)).
Proof.
  intros H S. unfold convertBoundsToLog_. destruct (log_offset_spec mn) as [_ [P _]].
  assert (K := toLog_incr mn mx (log_offset mn) P H).
  set (a := toLog_ L mn (log_offset mn)) in *. set (b := toLog_ L mx (log_offset mn)) in *.
  clearbody a b. refine (conj _ (conj _ (conj _ _))); nra.
Qed.
End BL.

Lemma numpoints_ge2 a b d : (2 <= getNumPointsFromDensity a b d)%Z.
Proof. unfold getNumPointsFromDensity. lia. Qed.
Lemma numpoints_density a b d : d * (b - a) <= IZR (getNumPointsFromDensity a b d).
Proof.
  unfold getNumPointsFromDensity. apply Rle_trans with (IZR (Zceil (d * (b - a)))); [apply Zceil_ub|].
  apply IZR_le. lia.
Qed.

(** everything about one call of adjustForAnchor_ *)
Lemma adjust_out mn mx N a : ~ (mn < a < mx) -> adjustForAnchor_ mn mx N a = (mx, N).
Proof.
  intros H. unfold adjustForAnchor_. case (Rlt_bool_spec mn a); intros A; [|reflexivity].
  case (Rlt_bool_spec a mx); intros B; [|reflexivity]. exfalso. lra.
Qed.
Lemma adjust_in mn mx N a mx' N' : mn < a < mx -> adjustForAnchor_ mn mx N a = (mx', N') ->
  (mx' = mx /\ N' = N /\ ~ (2 <= Zceil (IZR N * ((a - mn) / (mx - mn))) < N)%Z) \/
  exists Na dx, Na = Zceil (IZR N * ((a - mn) / (mx - mn))) /\ (2 <= Na < N)%Z /\
    0 < dx /\ dx * IZR (Na - 1) = a - mn /\ N' = Zfloor ((mx - mn) / dx) /\ (1 <= N')%Z /\
    mx' = mn + dx * IZR (N' - 1) /\ mx - 2 * dx < mx' <= mx - dx.
Proof.
  intros [H1 H2]. unfold adjustForAnchor_.
  rewrite (Rlt_bool_true mn a), (Rlt_bool_true a mx) by assumption. cbn [andb].
  set (Na := Zceil (IZR N * ((a - mn) / (mx - mn)))).
  destruct (Z.ltb_spec Na 2) as [A|A]; cbn [orb]; [intros H; injection H; intros; left; repeat split; auto; lia|].
  destruct (Z.leb_spec N Na) as [B|B]; [intros H; injection H; intros; left; repeat split; auto; lia|].
  intros H. injection H as <- <-. right.
  assert (P : 1 <= IZR (Na - 1)) by (apply IZR_le; lia).
  set (dx := (a - mn) / IZR (Na - 1)).
  assert (DX : 0 < dx) by (apply Rdiv_lt_0_compat; lra).
  assert (E : dx * IZR (Na - 1) = a - mn) by (unfold dx; field; lra).
  assert (Q : 1 <= (mx - mn) / dx).
  { apply (Rmult_le_reg_r dx); [assumption|]. unfold Rdiv. rewrite Rmult_assoc, Rinv_l, Rmult_1_r by lra. nra. }
  assert (TR : Ztrunc ((mx - mn) / dx) = Zfloor ((mx - mn) / dx)) by (apply Ztrunc_floor; lra).
  rewrite TR. set (N' := Zfloor ((mx - mn) / dx)).
  assert (F1 : IZR N' <= (mx - mn) / dx) by apply Zfloor_lb.
  assert (F2 : (mx - mn) / dx < IZR N' + 1) by apply Zfloor_ub.
  exists Na, dx. refine (conj eq_refl (conj _ (conj DX (conj E (conj eq_refl (conj _ (conj _ _))))))).
  - lia.
  - unfold N'. apply Zfloor_lub. exact Q.
  - ring.
  - assert (G : (mx - mn) / dx * dx = mx - mn) by (field; lra).
    rewrite minus_IZR.
    assert (G1 : IZR N' * dx <= mx - mn) by (rewrite <- G; apply Rmult_le_compat_r; lra).
    assert (G2 : mx - mn < (IZR N' + 1) * dx) by (rewrite <- G; apply Rmult_lt_compat_r; lra).
    lra.
Qed.
Lemma adjust_room mn mx N a mx' N' : mn < a < mx -> adjustForAnchor_ mn mx N a = (mx', N') ->
  1 <= IZR N * ((a - mn) / (mx - mn)) * ((mx - a) / (mx - mn)) -> (2 <= Zceil (IZR N * ((a - mn) / (mx - mn))) < N)%Z ->
  (2 <= Zceil (IZR N * ((a - mn) / (mx - mn))) <= N')%Z /\ mn < mx' < mx /\ a <= mx' /\
  g_x (mkGrid mn mx' N') (Zceil (IZR N * ((a - mn) / (mx - mn))) - 1) = a.
Proof.
  intros H1 H2 Hr HN.
  assert (EX : exists Na dx, Na = Zceil (IZR N * ((a - mn) / (mx - mn))) /\ (2 <= Na < N)%Z /\
    0 < dx /\ dx * IZR (Na - 1) = a - mn /\ N' = Zfloor ((mx - mn) / dx) /\ (1 <= N')%Z /\
    mx' = mn + dx * IZR (N' - 1) /\ mx - 2 * dx < mx' <= mx - dx).
  { destruct (adjust_in mn mx N a mx' N' H1 H2) as [C|C]; [exfalso; tauto|exact C]. }
  destruct EX as (Na & dx & E0 & E1 & DX & E2 & E3 & E4 & E5 & E6). rewrite <- E0 in *.
  assert (NA : IZR N * ((a - mn) / (mx - mn)) <= IZR Na) by (rewrite E0; apply Zceil_ub).
  set (f := (a - mn) / (mx - mn)) in *.
  assert (Ff : (mx - a) / (mx - mn) = 1 - f) by (unfold f; field; lra). rewrite Ff in Hr.
  assert (Fp : 0 < f) by (apply Rdiv_lt_0_compat; lra).
  assert (Fq : 0 < 1 - f) by (rewrite <- Ff; apply Rdiv_lt_0_compat; lra).
  assert (R1 : 1 <= IZR Na * (1 - f)) by (apply Rle_trans with (1 := Hr); apply Rmult_le_compat_r; lra).
  assert (LE : (Na <= N')%Z).
  { rewrite E3. apply Zfloor_lub. apply (Rmult_le_reg_r dx); [assumption|].
    replace ((mx - mn) / dx * dx) with (mx - mn) by (field; lra).
    rewrite minus_IZR in E2.
    assert (f * (mx - mn) = a - mn) by (unfold f; field; lra).
    assert (Y : IZR Na * f <= IZR Na - 1) by lra.
    assert (dx * (IZR Na * f) <= a - mn) by nra.
    apply (Rmult_le_reg_r f); [assumption|]. lra. }
  assert (P1 : 1 <= IZR (Na - 1)) by (apply IZR_le; lia).
  assert (P2 : IZR (Na - 1) <= IZR (N' - 1)) by (apply IZR_le; lia).
  refine (conj (conj _ LE) (conj (conj _ _) (conj _ _))).
  - lia.
  - rewrite E5. nra.
  - lra.
  - rewrite E5. nra.
  - unfold g_x, g_dx. cbn. rewrite E5.
    replace ((mn + dx * IZR (N' - 1) - mn) / IZR (N' - 1)) with dx by (field; lra). lra.
Qed.

Lemma check_in p mn mx : mn < mx -> 0 < Rabs mn -> 0 < Rabs mx -> Rabs mn < 10 * (mx - mn) -> Rabs mx < 10 * (mx - mn) ->
  mn < checkInterval_ p mn mx < mx.
Proof.
  intros H A B C D. unfold checkInterval_. case (Rle_bool_spec p mn); intros E.
  - case Rle_bool_spec; intros; lra.
  - case Rle_bool_spec; intros; lra.
Qed.
Lemma check_id p mn mx : mn < p < mx -> checkInterval_ p mn mx = p.
Proof. intros H. unfold checkInterval_. rewrite (Rle_bool_false p mn) by lra. rewrite (Rle_bool_false mx p) by lra. reflexivity. Qed.

(** ** SetRhoPMin *)
Section PM.
Variable L : LogPair.
Variables (P : nat -> nat -> R) (x : nat -> R) (NR NT : nat) (vapor : bool) (thresh off : R).
Let slope (i j : nat) : R := ratio (P j i - P (j - 2)%nat i) (from_log L (x j) off - from_log L (x (j - 2)%nat) off).
Definition scan_inv (i p : nat) (s : option R * nat) : Prop :=
  (p = 0%nat /\ s = (None, 0%nat)) \/
  (exists m, fst s = Some m /\ (snd s < p)%nat /\ (forall j, (j < p)%nat -> m <= P j i) /\
     (exists j, (j < p)%nat /\ P j i = m) /\
     (vapor = false -> P (snd s) i = m) /\
     (vapor = true -> forall j, (snd s < j < p)%nat -> (1 < j)%nat -> thresh <= slope i j)).
Lemma scan_step i p s : scan_inv i p s -> scan_inv i (S p) (jstep L P x vapor thresh off i s p).
Proof.
  intros H. right. unfold jstep. destruct s as [pm jm].
  assert (Q : exists m jm', (if lt_opt (P p i) pm then (Some (P p i), p) else (pm, jm)) = (Some m, jm') /\
     (jm' < S p)%nat /\ (forall j, (j < S p)%nat -> m <= P j i) /\ (exists j, (j < S p)%nat /\ P j i = m) /\
     (vapor = false -> P jm' i = m) /\
     (vapor = true -> forall j, (jm' < j < p)%nat -> (1 < j)%nat -> thresh <= slope i j)).
  { destruct H as [[-> E]|(m & E1 & E2 & E3 & E4 & E5 & E6)].
    - injection E as -> ->. cbn. exists (P 0%nat i), 0%nat. split; [reflexivity|]. split; [lia|]. split.
      + intros j Hj. replace j with 0%nat by lia. lra.
      + split; [exists 0%nat; split; [lia|reflexivity]|]. split; [reflexivity|intros _ j Hj; lia].
    - cbn in E1, E2, E5, E6. subst pm. unfold lt_opt. case Rlt_bool_spec; intros C.
      + exists (P p i), p. split; [reflexivity|]. split; [lia|]. split.
        * intros j Hj. destruct (Nat.eq_dec j p) as [->|]; [lra|]. assert (m <= P j i) by (apply E3; lia). lra.
        * split; [exists p; split; [lia|reflexivity]|]. split; [reflexivity|intros _ j Hj; lia].
      + exists m, jm. split; [reflexivity|]. split; [lia|]. split.
        * intros j Hj. destruct (Nat.eq_dec j p) as [->|]; [lra|]. apply E3; lia.
        * split; [destruct E4 as (j & Hj & E4); exists j; split; [lia|exact E4]|]. split; [exact E5|exact E6]. }
  destruct Q as (m & jm' & EQ & Q1 & Q2 & Q3 & Q4 & Q5). rewrite EQ. exists m.
  destruct (Nat.ltb_spec 1 p) as [G|G]; cbn [andb].
  - destruct vapor.
    + fold (slope i p). case Rlt_bool_spec; intros C.
      * refine (conj eq_refl (conj _ (conj Q2 (conj Q3 (conj _ _))))); cbn [snd]; [lia|discriminate|intros _ j Hj; lia].
      * refine (conj eq_refl (conj Q1 (conj Q2 (conj Q3 (conj Q4 _))))). intros _ j Hj J1. cbn [snd] in *.
        destruct (Nat.eq_dec j p) as [->|]; [exact C|apply Q5; [reflexivity|lia|lia]].
    + refine (conj eq_refl (conj Q1 (conj Q2 (conj Q3 (conj Q4 _))))). discriminate.
  - refine (conj eq_refl (conj Q1 (conj Q2 (conj Q3 (conj Q4 _))))). intros _ j Hj J1. cbn [snd] in *. lia.
Qed.
Lemma scan_final i : scan_inv i NR (jscan L P x NR vapor thresh off i).
Proof.
  unfold jscan. assert (G : forall len a s, scan_inv i a s ->
    scan_inv i (a + len) (fold_left (jstep L P x vapor thresh off i) (seq a len) s)).
  { induction len as [|len IH]; intros a s Hs; [rewrite Nat.add_0_r; exact Hs|].
    cbn [seq fold_left]. replace (a + S len)%nat with (S a + len)%nat by lia. apply IH, scan_step, Hs. }
  apply (G NR 0%nat). left. split; reflexivity.
Qed.
Lemma mono_down_spec : forall i r, 
  (forall k, (k <= i)%nat -> mono_down r i k = Rmax (r k) (mono_down r i (S k))) /\
  (forall k, (i < k)%nat -> mono_down r i k = r k).
Proof.
  assert (ONE : forall r i k, (if Rlt_bool (r i) (r (S i)) then (fun q => if Nat.eqb q i then r (S i) else r q) else r) k =
     if Nat.eqb k i then Rmax (r i) (r (S i)) else r k).
  { intros r i k. case Rlt_bool_spec; intros C.
    - destruct (Nat.eqb k i); [rewrite Rmax_right by lra; reflexivity|reflexivity].
    - destruct (Nat.eqb_spec k i) as [->|]; [rewrite Rmax_left by lra; reflexivity|reflexivity]. }
  induction i as [|i IH]; intros r; cbn [mono_down].
  - split; intros k Hk.
    + replace k with 0%nat by lia. rewrite !ONE. cbn. reflexivity.
    + rewrite ONE. destruct (Nat.eqb_spec k 0); [lia|reflexivity].
  - match goal with |- context [mono_down ?z i] => set (r1 := z) end.
    assert (R1 : forall k, r1 k = if Nat.eqb k (S i) then Rmax (r (S i)) (r (S (S i))) else r k) by (intros; apply ONE).
    clearbody r1. destruct (IH r1) as [A B]. split; intros k Hk.
    + destruct (Nat.eq_dec k (S i)) as [->|N].
      * rewrite !B by lia. rewrite !R1. rewrite Nat.eqb_refl. destruct (Nat.eqb_spec (S (S i)) (S i)); [lia|reflexivity].
      * rewrite A by lia. rewrite R1. destruct (Nat.eqb_spec k (S i)); [lia|reflexivity].
    + rewrite B by lia. rewrite R1. destruct (Nat.eqb_spec k (S i)); [lia|reflexivity].
Qed.
Lemma pmin_fold : (forall i, (i < NT)%nat -> exists p, snd (row L P x NR vapor thresh off i) = Some p) -> (0 < NT)%nat ->
  exists p, PMin_all L P x NR NT vapor thresh off = Some p /\
    (forall i q, (i < NT)%nat -> snd (row L P x NR vapor thresh off i) = Some q -> p <= q) /\
    (exists i, (i < NT)%nat /\ snd (row L P x NR vapor thresh off i) = Some p).
Proof.
  intros HS HN. unfold PMin_all. set (rr := row L P x NR vapor thresh off) in *.
  assert (G : forall len a s, (a + len <= NT)%nat ->
    (forall p, s = Some p -> (forall i q, (i < a)%nat -> snd (rr i) = Some q -> p <= q) /\ exists i, (i < a)%nat /\ snd (rr i) = Some p) ->
    (s = None -> a = 0%nat) ->
    let t := fold_left (fun m i => min_opt (snd (rr i)) m) (seq a len) s in
    (forall p, t = Some p -> (forall i q, (i < a + len)%nat -> snd (rr i) = Some q -> p <= q) /\ exists i, (i < a + len)%nat /\ snd (rr i) = Some p) /\
    (t = None -> (a + len = 0)%nat)).
  { induction len as [|len IH]; intros a s Ha H1 H2; cbn [seq fold_left].
    - rewrite Nat.add_0_r. split; assumption.
    - replace (a + S len)%nat with (S a + len)%nat by lia. destruct (HS a ltac:(lia)) as [pa Ea]. apply IH; [lia| |].
      + intros p Hp. rewrite Ea in Hp. destruct s as [p0|]; cbn in Hp.
        * destruct (H1 p0 eq_refl) as [F1 F2].
          revert Hp. case (Rlt_bool_spec p0 pa); intros C Hp; injection Hp as <-; split.
          -- intros i q Hi Eq. destruct (Nat.eq_dec i a) as [->|]; [rewrite Ea in Eq; injection Eq as <-; lra|]. apply (F1 i q); [lia|exact Eq].
          -- destruct F2 as (i & Hi & E). exists i. split; [lia|exact E].
          -- intros i q Hi Eq. destruct (Nat.eq_dec i a) as [->|]; [rewrite Ea in Eq; injection Eq as <-; lra|].
             assert (p0 <= q) by (apply (F1 i q); [lia|exact Eq]). lra.
          -- exists a. split; [lia|exact Ea].
        * injection Hp as <-. split; [|exists a; split; [lia|exact Ea]].
          intros i q Hi Eq. rewrite (H2 eq_refl) in *. replace i with 0%nat in Eq by lia. rewrite Ea in Eq. injection Eq as <-. lra.
      + rewrite Ea. destruct s; cbn; discriminate. }
  destruct (G NT 0%nat None ltac:(lia)) as [G1 G2]; [discriminate|reflexivity|].
  destruct (fold_left _ _ _) as [p|]; [|specialize (G2 eq_refl); lia].
  exists p. split; [reflexivity|]. apply G1. reflexivity.
Qed.
End PM.
