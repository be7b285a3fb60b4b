(** Root finding in doubles *)
From Coq Require Import ZArith Reals Bool Lia Lra Psatz List.
From Flocq Require Import Core Mult_error IEEE754.BinarySingleNaN IEEE754.PrimFloat.
From Coq Require FloatOps.
From Verif Require Import Arith RootFinding_Model RootFinding_Proofs Float_Spec Float_Tools Float_Sum_Proofs.
Local Open Scope R_scope.
Notation float := PrimFloat.float.

(** * Comparisons *)
Lemma leb_num x y : PrimFloat.leb x y = true -> is_num x /\ is_num y.
Proof. rewrite !is_num_B, leb_equiv. destruct (Prim2B x) as [s|[|]| |[|] m e H], (Prim2B y) as [s'|[|]| |[|] m' e' H']; try discriminate; split; reflexivity. Qed.
Lemma leb_refl x : is_num x -> PrimFloat.leb x x = true.
Proof.
  intros H. destruct (PrimFloat.leb x x) eqn:E; [reflexivity|]. exfalso.
  destruct (PrimFloat.ltb x x) eqn:L; [apply ltb_leb in L; congruence|]. apply (nltb_leb x x H H) in L. congruence.
Qed.
Lemma ltb_num x y : PrimFloat.ltb x y = true -> is_num x /\ is_num y.
Proof. intros H. apply leb_num, ltb_leb, H. Qed.
Lemma num_or x : is_num x \/ PrimFloat.is_nan x = true.
Proof. unfold is_num. destruct (PrimFloat.is_nan x); auto. Qed.

(** clamping into [a,b] keeps a NaN and nothing else outside *)
Lemma clamp_float w a b : PrimFloat.leb a b = true ->
  let x := @amax FArith (@amin FArith w b) a in
  PrimFloat.is_nan x = true \/ (PrimFloat.leb a x = true /\ PrimFloat.leb x b = true).
Proof.
  intros Hab x. destruct (leb_num _ _ Hab) as [Na Nb]. unfold x, amax, amin. cbn [num ltb FArith].
  destruct (num_or w) as [Nw|Nw].
  - right. destruct (PrimFloat.ltb b w) eqn:E.
    + destruct (PrimFloat.ltb b a) eqn:E2; [split; [apply leb_refl; exact Na|exact Hab]|]. split; [exact Hab|apply leb_refl; exact Nb].
    + apply nltb_leb in E; [|assumption|assumption]. destruct (PrimFloat.ltb w a) eqn:E2.
      * split; [apply leb_refl; exact Na|exact Hab].
      * apply nltb_leb in E2; [split; assumption|assumption|assumption].
  - left. assert (E : PrimFloat.ltb b w = false).
    { destruct (PrimFloat.ltb b w) eqn:E; [|reflexivity]. apply ltb_num in E as [_ E]. unfold is_num in E. congruence. }
    rewrite E. assert (E' : PrimFloat.ltb w a = false).
    { destruct (PrimFloat.ltb w a) eqn:E'; [|reflexivity]. apply ltb_num in E' as [E' _]. unfold is_num in E'. congruence. }
    rewrite E'. exact Nw.
Qed.

(** * x - x is zero or NaN *)
Lemma self_difference x : fin (PrimFloat.sub x x) /\ FR (PrimFloat.sub x x) = 0 \/ PrimFloat.is_nan (PrimFloat.sub x x) = true.
Proof.
  destruct (PrimFloat.is_finite x) eqn:E.
  - left. assert (Z : FR x - FR x = 0) by ring. destruct (sub_value x x E E) as [A B].
    + rewrite Z, rnd_0, Rabs_R0. apply bpow_gt_0.
    + rewrite Z, rnd_0 in B. split; assumption.
  - right. rewrite is_nan_equiv, sub_equiv. assert (F : is_finite (Prim2B x) = false) by (rewrite <- is_finite_equiv; exact E).
    destruct (Prim2B x) as [s|[|]| |s m e H]; try discriminate F; reflexivity.
Qed.
Lemma lit_zero : @lit FArith 0 = PrimFloat.zero. Proof. vm_compute. reflexivity. Qed.
Lemma lit_two : @lit FArith 2 = PrimFloat.two. Proof. vm_compute. reflexivity. Qed.
Lemma FR_two : fin PrimFloat.two /\ FR PrimFloat.two = 2.
Proof. split; [reflexivity|]. rewrite FR_SF. vm_compute FloatOps.Prim2SF. unfold SF2R, F2R. cbn [Fnum Fexp cond_Zopp]. simpl. lra. Qed.
Lemma FR_zero : fin PrimFloat.zero /\ FR PrimFloat.zero = 0.
Proof. split; [reflexivity|]. rewrite FR_SF. reflexivity. Qed.
Lemma width_stops xtol : PrimFloat.ltb xtol PrimFloat.zero = false -> @eq_width_stops FArith xtol.
Proof.
  intros H x. cbn [num ltb mul sub FArith]. rewrite lit_two.
  destruct (PrimFloat.ltb (PrimFloat.mul PrimFloat.two xtol) (PrimFloat.sub x x)) eqn:E; [|reflexivity]. exfalso.
  destruct (self_difference x) as [[F0 V0]|N].
  2: { apply ltb_num in E as [_ E]. unfold is_num in E. congruence. }
  destruct (PrimFloat.is_finite xtol) eqn:Fx.
  - rewrite ltb_value in H by (exact Fx || reflexivity). destruct FR_zero as [_ Z]. rewrite Z in H. apply Rltb_false in H.
    destruct FR_two as [F2 V2].
    destruct (mul_outcome _ _ F2 Fx) as [F V|V _|V L].
    + rewrite ltb_value in E by assumption. apply Rltb_true in E. rewrite V0, V, V2 in E.
      assert (0 <= rnd (2 * FR xtol)) by (apply rnd_nonneg; lra). lra.
    + rewrite V in E. revert E F0. rewrite ltb_equiv, fin_B, infinity_equiv, Prim2B_B2Prim. destruct (Prim2B (PrimFloat.sub x x)); discriminate.
    + rewrite V2 in L. assert (0 <= rnd (2 * FR xtol)) by (apply rnd_nonneg; lra). pose proof (bpow_gt_0 radix2 1024). lra.
  - assert (F : is_finite (Prim2B xtol) = false) by (rewrite <- is_finite_equiv; exact Fx).
    revert E H F0. rewrite !ltb_equiv, mul_equiv, fin_B.
    destruct (Prim2B xtol) as [s|s| |s m e HH] eqn:EX; try discriminate F.
    + destruct s.
      * intros _ H. exfalso. revert H. vm_compute. discriminate.
      * intros E _. exfalso. revert E. destruct (Prim2B (PrimFloat.sub x x)) as [s|[|]| |[|] m e HH]; vm_compute; try discriminate.
    + intros E _ _. revert E. destruct (Prim2B (PrimFloat.sub x x)) as [s|[|]| |[|] m e HH]; vm_compute; discriminate.
Qed.

(** * Exact residuals *)
(** doubles of at least 2^-401 are multiples of 2^-453 *)
Lemma on_grid x : bpow radix2 (-401) <= Rabs (FR x) -> exists m, FR x = IZR m * bpow radix2 (-453).
Proof.
  intros H. pose proof (FR_format x) as F. unfold generic_format in F. set (m := Ztrunc (scaled_mantissa radix2 (FLT_exp (-1074) 53) (FR x))) in F.
  assert (M : (-400 <= mag radix2 (FR x))%Z) by (apply mag_ge_bpow; exact H).
  assert (C : (-453 <= cexp radix2 (FLT_exp (-1074) 53) (FR x))%Z) by (unfold cexp, FLT_exp; lia).
  unfold F2R in F. cbn [Fnum Fexp] in F. set (c := cexp radix2 (FLT_exp (-1074) 53) (FR x)) in *.
  exists (m * 2 ^ (c + 453))%Z. rewrite F at 1. rewrite mult_IZR. replace c with ((c + 453) + -453)%Z at 1 by ring. rewrite bpow_plus.
  change (2 ^ (c + 453))%Z with (Zpower radix2 (c + 453)). rewrite (IZR_Zpower radix2 (c + 453)) by lia. ring.
Qed.
Lemma residual_gap x t : bpow radix2 (-400) <= Rabs (FR t) -> FR x <> FR t -> bpow radix2 (-460) <= Rabs (FR x - FR t).
Proof.
  intros Ht Hne. pose proof (bpow_gt_0 radix2 (-460)) as P.
  destruct (Rlt_or_le (Rabs (FR x)) (bpow radix2 (-401))) as [L|L].
  - assert (E : bpow radix2 (-400) = 2 * bpow radix2 (-401)) by (rewrite big_2; reflexivity).
    assert (Q : bpow radix2 (-460) <= bpow radix2 (-401)) by (apply bpow_le; lia).
    rewrite Rabs_minus_sym. pose proof (Rabs_triang_inv (FR t) (FR x)). lra.
  - assert (L' : bpow radix2 (-401) <= Rabs (FR t)). { apply Rle_trans with (2 := Ht). apply bpow_le. lia. }
    destruct (on_grid x L) as [m Em]. destruct (on_grid t L') as [k Ek]. rewrite Em, Ek.
    replace (IZR m * bpow radix2 (-453) - IZR k * bpow radix2 (-453)) with (IZR (m - k) * bpow radix2 (-453)) by (rewrite minus_IZR; ring).
    rewrite Rabs_mult, (Rabs_right (bpow radix2 (-453))) by (apply Rle_ge, bpow_ge_0).
    apply Rle_trans with (1 * bpow radix2 (-453)); [rewrite Rmult_1_l; apply bpow_le; lia|]. apply Rmult_le_compat_r; [apply bpow_ge_0|].
    rewrite <- abs_IZR. apply IZR_le. assert (m - k <> 0)%Z by (intros E; apply Hne; rewrite Em, Ek; f_equal; f_equal; lia). lia.
Qed.
Lemma rnd_bpow e : (-1074 <= e)%Z -> rnd (bpow radix2 e) = bpow radix2 e.
Proof. intros H. apply round_generic; [apply _|]. apply generic_format_bpow. unfold FLT_exp. lia. Qed.

Lemma rnd_opp x : rnd (- x) = - rnd x. Proof. unfold rnd. apply round_NE_opp. Qed.

(** the computed residual has the exact sign *)
Record resid (r g : R) : Prop := { re_zero : g = 0 -> r = 0; re_pos : 0 < g -> bpow radix2 (-460) <= r; re_neg : g < 0 -> r <= - bpow radix2 (-460);
  re_big : Rabs r <= bpow radix2 402; re_near : Rabs (r - g) <= u * Rabs g; re_gap : g = 0 \/ bpow radix2 (-460) <= Rabs g; re_gbig : Rabs g <= bpow radix2 401 }.
Lemma residual_value y t : fin y -> fin t -> bpow radix2 (-400) <= Rabs (FR t) <= bpow radix2 400 -> Rabs (FR y) <= bpow radix2 400 ->
  fin (PrimFloat.sub y t) /\ resid (FR (PrimFloat.sub y t)) (FR y - FR t).
Proof.
  intros Fy Ft Ht Hy. set (g := FR y - FR t).
  assert (G : Rabs g <= bpow radix2 401). { unfold g, Rminus. apply Rle_trans with (1 := Rabs_triang _ _). rewrite Rabs_Ropp. change 401%Z with (400 + 1)%Z. rewrite <- big_2. lra. }
  assert (GB : Rabs g <= big). { apply Rle_trans with (1 := G). apply bpow_le. lia. }
  destruct (sub_err y t Fy Ft GB) as (F & E & K). fold g in E, K. split; [exact F|]. rewrite E in *.
  assert (Z : bpow radix2 (-460) = rnd (bpow radix2 (-460))) by (symmetry; apply rnd_bpow; lia).
  assert (gap : g = 0 \/ bpow radix2 (-460) <= Rabs g).
  { destruct (Req_dec g 0) as [H|H]; [left; exact H|right]. apply residual_gap; [apply Ht|]. intros X. apply H. unfold g. lra. }
  constructor; try assumption.
  - intros ->. apply rnd_0.
  - intros H. rewrite Z. apply rnd_le. destruct gap as [->|Q]; [lra|]. rewrite Rabs_right in Q by lra. exact Q.
  - intros H. assert (rnd g <= rnd (- bpow radix2 (-460))). { apply rnd_le. destruct gap as [->|Q]; [lra|]. rewrite Rabs_left in Q by lra. lra. }
    rewrite rnd_opp, <- Z in H0. exact H0.
  - pose proof u_small. assert (Rabs (rnd g) <= Rabs g + u * Rabs g). { replace (rnd g) with (g + (rnd g - g)) by ring. apply Rle_trans with (1 := Rabs_triang _ _). lra. }
    pose proof (Rabs_pos g). change 402%Z with (401 + 1)%Z. rewrite <- big_2. nra.
Qed.
Lemma product_sign a b g h : fin a -> fin b -> resid (FR a) g -> resid (FR b) h ->
  PrimFloat.leb (PrimFloat.mul a b) PrimFloat.zero = Rle_bool (g * h) 0 /\ PrimFloat.ltb PrimFloat.zero (PrimFloat.mul a b) = Rlt_bool 0 (g * h).
Proof.
  intros Fa Fb Ra Rb. destruct FR_zero as [F0 V0].
  assert (B : Rabs (FR a * FR b) <= bpow radix2 804).
  { rewrite Rabs_mult. change 804%Z with (402 + 402)%Z. rewrite bpow_plus. apply Rmult_le_compat; try apply Rabs_pos; [apply (re_big _ _ Ra)|apply (re_big _ _ Rb)]. }
  assert (BR : Rabs (rnd (FR a * FR b)) < bpow radix2 1024).
  { apply Rle_lt_trans with (bpow radix2 804); [|apply bpow_lt; lia]. apply Rabs_le_inv in B. apply Rabs_le. rewrite <- (rnd_bpow 804) by lia. split.
    - replace (- rnd (bpow radix2 804)) with (rnd (- bpow radix2 804)) by (apply rnd_opp). apply rnd_le. lra.
    - apply rnd_le. lra. }
  destruct (mul_value a b Fa Fb BR) as [F E]. rewrite leb_value, ltb_value by assumption. rewrite V0, E.
  pose proof (bpow_gt_0 radix2 (-460)) as P.
  assert (Q : bpow radix2 (-920) = bpow radix2 (-460) * bpow radix2 (-460)) by (rewrite <- bpow_plus; reflexivity).
  assert (S : (0 < g * h -> 0 < rnd (FR a * FR b)) /\ (g * h <= 0 -> rnd (FR a * FR b) <= 0)).
  { destruct Ra as [a0 ap an _ _ _ _], Rb as [b0 bp bn _ _ _ _]. set (e := bpow radix2 (-460)) in *. split; intros H.
    - assert (e * e <= FR a * FR b).
      { destruct (Rtotal_order g 0) as [L|[L|L]]; destruct (Rtotal_order h 0) as [M|[M|M]]; try (exfalso; nra).
        - specialize (an L). specialize (bn M). nra.
        - specialize (ap L). specialize (bp M). nra. }
      rewrite <- Q in H0. apply rnd_le in H0. rewrite rnd_bpow in H0 by lia. pose proof (bpow_gt_0 radix2 (-920)). lra.
    - assert (FR a * FR b <= 0).
      { destruct (Rtotal_order g 0) as [L|[L|L]]; destruct (Rtotal_order h 0) as [M|[M|M]]; try (rewrite (a0 L)); try (rewrite (b0 M)); try lra; try (exfalso; nra).
        - specialize (an L). specialize (bp M). nra.
        - specialize (ap L). specialize (bn M). nra. }
      apply rnd_le in H0. rewrite rnd_0 in H0. exact H0. }
  destruct S as [S1 S2]. split.
  - destruct (Rle_bool_spec (g * h) 0) as [H|H]; [apply Rle_bool_true; auto|apply Rle_bool_false; auto].
  - destruct (Rlt_bool_spec 0 (g * h)) as [H|H]; [apply Rlt_bool_true; auto|apply Rlt_bool_false; auto].
Qed.

(** * Midpoints *)
Lemma fmt_double x : generic_format radix2 (FLT_exp (-1074) 53) x -> rnd (2 * x) = 2 * x.
Proof.
  intros H. apply round_generic; [apply _|]. replace (2 * x) with (x * bpow radix2 1) by (change (bpow radix2 1) with 2; ring).
  apply Mult_error.mult_bpow_pos_exact_FLT; [exact H|lia].
Qed.
Lemma half_value : fin (@ofQ FArith 1 2) /\ FR (@ofQ FArith 1 2) = / 2.
Proof. split; [reflexivity|]. rewrite FR_SF. vm_compute FloatOps.Prim2SF. unfold SF2R, F2R. cbn [Fnum Fexp cond_Zopp]. simpl. lra. Qed.
Lemma midpoint v w : fin v -> fin w -> Rabs (FR v) <= bpow radix2 400 -> Rabs (FR w) <= bpow radix2 400 -> FR v <= FR w ->
  let m := @mul FArith (@ofQ FArith 1 2) (PrimFloat.add v w) in fin m /\ FR v <= FR m <= FR w.
Proof.
  intros Fv Fw Bv Bw H m. destruct half_value as [Fh Vh].
  assert (B : Rabs (FR v + FR w) <= bpow radix2 401). { apply Rle_trans with (1 := Rabs_triang _ _). change 401%Z with (400 + 1)%Z. rewrite <- big_2. lra. }
  destruct (add_err v w Fv Fw) as (Fs & Es & _). { apply Rle_trans with (1 := B). apply bpow_le. lia. }
  assert (S : 2 * FR v <= FR (PrimFloat.add v w) <= 2 * FR w).
  { rewrite Es. rewrite <- (fmt_double (FR v)), <- (fmt_double (FR w)) by apply FR_format. split; apply rnd_le; lra. }
  assert (H2 : FR v <= rnd (FR (@ofQ FArith 1 2) * FR (PrimFloat.add v w)) <= FR w).
  { rewrite Vh. rewrite <- (rnd_FR v), <- (rnd_FR w). split; apply rnd_le; lra. }
  destruct (mul_value _ _ Fh Fs) as [Fm Em].
  { apply Rle_lt_trans with (bpow radix2 400); [|apply bpow_lt; lia]. apply Rabs_le_inv in Bv, Bw. apply Rabs_le. lra. }
  split; [exact Fm|]. unfold m. cbn [mul FArith]. rewrite Em. exact H2.
Qed.
