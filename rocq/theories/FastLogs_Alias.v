(** Proofs about the integer-aliased fast logs. *)
From Coq Require Import ZArith Reals Lra Lia Psatz.
From Flocq Require Import Core Relative.
From Verif Require Import FastLogs_Model FastLogs_Proofs.
Local Open Scope R_scope.

Local Instance prec53 : Prec_gt_0 53. Proof. unfold Prec_gt_0. lia. Qed.
Local Instance vexp : Valid_exp (FLT_exp (-1074) 53) := FLT_exp_valid (-1074) 53.
Notation u53 := (bpow radix2 (-53)).
Lemma u53_val : u53 = / 9007199254740992.
Proof. reflexivity. Qed.

Lemma rnd_rel x : bpow radix2 (-1022) <= Rabs x -> exists e, Rabs e <= u53 /\ rnd x = x * (1 + e).
Proof.
  intros H. destruct (relative_error_N_FLT_ex radix2 (-1074) 53 ltac:(lia) (fun x => negb (Z.even x)) x H)
    as [e [He Hr]].
  exists e. split; [|exact Hr]. rewrite u53_val. 
  replace (bpow radix2 (- (53) + 1)) with (/ 4503599627370496) in He by reflexivity. lra.
Qed.
Lemma rnd_le x y : x <= y -> rnd x <= rnd y.
Proof. apply round_le; typeclasses eauto. Qed.
Lemma rnd_0 : rnd 0 = 0.
Proof. apply round_0. typeclasses eauto. Qed.
Lemma bpow_small_1 : bpow radix2 (-1022) <= 1.
Proof. change 1 with (bpow radix2 0). apply bpow_le. lia. Qed.

(** the literal in the source is within half an ulp (2^-106) of the constant used *)
Lemma scale_down_literal :
  Rabs (222044604925031 / 1000000000000000000000000000000 - scale_down) <= bpow radix2 (-106).
Proof.
  unfold scale_down.
  replace (bpow radix2 (-104)) with (/ 20282409603651670423947251286016) by reflexivity.
  replace (bpow radix2 (-106)) with (/ 81129638414606681695789005144064) by reflexivity.
  apply Rabs_le. lra.
Qed.
Lemma scale_down_val : scale_down = (1 - 12 * u53) / IZR (2^52).
Proof.
  unfold scale_down. rewrite u53_val. change (IZR (2^52)) with 4503599627370496.
  replace (bpow radix2 (-104)) with (/ 20282409603651670423947251286016) by reflexivity. lra.
Qed.
Lemma scale_down_pos : 0 < scale_down.
Proof. rewrite scale_down_val, u53_val. change (IZR (2^52)) with 4503599627370496. lra. Qed.

(** v = rnd (rnd i * scale_down) * 2^52 is between 0 and i and within 2^-49 |i| of it *)
Lemma alias_rel (i : Z) : exists t, rnd (rnd (IZR i) * scale_down) * scale_up = IZR i * t /\
  1 - 16 * u53 <= t <= 1.
Proof.
  destruct (Z.eq_dec i 0) as [->|Hi].
  - exists 1. rewrite rnd_0, Rmult_0_l, rnd_0. rewrite u53_val. split; [ring|lra].
  - assert (H1 : 1 <= Rabs (IZR i)). { rewrite <- abs_IZR. apply IZR_le. lia. }
    destruct (rnd_rel (IZR i)) as [e1 [He1 E1]]. { assert (X := bpow_small_1). lra. }
    apply Rabs_le_inv in He1.
    destruct (rnd_rel (rnd (IZR i) * scale_down)) as [e2 [He2 E2]].
    { rewrite E1, !Rabs_mult, (Rabs_pos_eq scale_down) by (left; apply scale_down_pos).
      rewrite (Rabs_pos_eq (1 + e1)) by (rewrite u53_val in He1; lra).
      apply Rle_trans with (bpow radix2 (-60)); [apply bpow_le; lia|].
      replace (bpow radix2 (-60)) with (/ 1152921504606846976) by reflexivity.
      rewrite scale_down_val. rewrite u53_val in *. change (IZR (2^52)) with 4503599627370496.
      assert (1 * (1 - / 9007199254740992) <= Rabs (IZR i) * (1 + e1)).
      { apply Rmult_le_compat; lra. }
      lra. }
    apply Rabs_le_inv in He2.
    exists ((1 + e1) * (1 - 12 * u53) * (1 + e2)). split.
    + rewrite E2, E1, scale_down_val. unfold scale_up. field. apply IZR_neq. lia.
    + rewrite u53_val in *. set (u := / 9007199254740992) in *.
      assert (0 < u < / 1000) by (unfold u; lra).
      assert (A : (1 - u) * (1 - u) <= (1 + e1) * (1 + e2)) by (apply Rmult_le_compat; lra).
      assert (B : (1 + e1) * (1 + e2) <= (1 + u) * (1 + u)) by (apply Rmult_le_compat; lra).
      replace ((1 + e1) * (1 - 12 * u) * (1 + e2)) with ((1 + e1) * (1 + e2) * (1 - 12 * u)) by ring.
      split.
      * apply Rle_trans with ((1 - u) * (1 - u) * (1 - 12 * u)); [nra|]. apply Rmult_le_compat_r; lra.
      * apply Rle_trans with ((1 + u) * (1 + u) * (1 - 12 * u)); [|nra]. apply Rmult_le_compat_r; lra.
Qed.

(** multiplication by 2^52 is exact on the results of alias_rel *)
Lemma scale_up_bpow : scale_up = bpow radix2 52.
Proof. reflexivity. Qed.
Lemma rnd_scale_up x : rnd x = x -> rnd (x * scale_up) = x * scale_up.
Proof.
  intros Hx. rewrite scale_up_bpow. unfold rnd. apply round_generic; [typeclasses eauto|].
  assert (Hg : generic_format radix2 (FLT_exp (-1074) 53) x).
  { rewrite <- Hx. apply generic_format_round; typeclasses eauto. }
  apply FLT_format_generic in Hg; [|typeclasses eauto]. destruct Hg as [[m e] H1 H2 H3].
  apply generic_format_FLT. exists (Float radix2 m (e + 52)).
  - rewrite H1. unfold F2R. cbn [Fnum Fexp]. rewrite bpow_plus. ring.
  - exact H2.
  - cbn [Fexp] in *. lia.
Qed.
Lemma rnd_idem x : rnd (rnd x) = rnd x.
Proof. unfold rnd. apply round_generic; [typeclasses eauto|]. apply generic_format_round; typeclasses eauto. Qed.

Lemma to_int_alias (i : Z) : 
  Rabs (IZR (to_int (rnd (rnd (IZR i) * scale_down)) - i)) <= 16 * u53 * Rabs (IZR i) + 1 /\
  (Z.abs (to_int (rnd (rnd (IZR i) * scale_down))) <= Z.abs i)%Z.
Proof.
  unfold to_int. rewrite rnd_scale_up by apply rnd_idem.
  destruct (alias_rel i) as [t [-> Ht]].
  assert (Hu : 0 < u53 < / 1000) by (rewrite u53_val; lra).
  assert (Hd : Rabs (IZR i * t - IZR i) <= 16 * u53 * Rabs (IZR i)).
  { replace (IZR i * t - IZR i) with (IZR i * (t - 1)) by ring. rewrite Rabs_mult, Rmult_comm.
    apply Rmult_le_compat_r; [apply Rabs_pos|]. apply Rabs_le. lra. }
  set (v := IZR i * t) in *.
  assert (Hv : Rabs v <= Rabs (IZR i)).
  { unfold v. rewrite Rabs_mult. rewrite (Rabs_pos_eq t) by lra.
    assert (X := Rabs_pos (IZR i)). nra. }
  split.
  - rewrite minus_IZR. replace (IZR (Ztrunc v) - IZR i) with ((IZR (Ztrunc v) - v) + (v - IZR i)) by ring.
    eapply Rle_trans; [apply Rabs_triang|]. rewrite Rplus_comm. apply Rplus_le_compat; [exact Hd|].
    apply Rabs_le. destruct (Rle_dec 0 v).
    + rewrite Ztrunc_floor by lra. assert (A := Zfloor_lb v). assert (B := Zfloor_ub v). lra.
    + rewrite Ztrunc_ceil by lra. assert (A := Zceil_ub v). assert (B := Zceil_lb v). lra.
  - rewrite <- Ztrunc_abs. apply le_IZR. rewrite abs_IZR.
    rewrite Ztrunc_floor by apply Rabs_pos. assert (A := Zfloor_lb (Rabs v)). lra.
Qed.

(** *** Order 1 *)
Lemma o1_aliased_mono b b' : (b <= b')%Z -> lg_o1_aliased b <= lg_o1_aliased b'.
Proof.
  intros H. unfold lg_o1_aliased, lg_o1_int. apply rnd_le. apply Rmult_le_compat_r.
  - left. apply scale_down_pos.
  - apply rnd_le. apply IZR_le. lia.
Qed.
Lemma Ztrunc_mono x y : x <= y -> (Ztrunc x <= Ztrunc y)%Z.
Proof. apply Ztrunc_le. Qed.
Lemma to_int_mono x y : x <= y -> (to_int x <= to_int y)%Z.
Proof.
  intros H. unfold to_int. apply Ztrunc_le. apply rnd_le. apply Rmult_le_compat_r; [|exact H].
  unfold scale_up. apply IZR_le. lia.
Qed.
Lemma o1_aliased_roundtrip b :
  Rabs (IZR (pow2_o1_aliased (lg_o1_aliased b) - b)) <= 16 * u53 * Rabs (IZR (b - one_as_int)) + 1.
Proof.
  unfold pow2_o1_aliased, lg_o1_aliased.
  destruct (to_int_alias (lg_o1_int b)) as [H _]. unfold lg_o1_int in *.
  match goal with |- Rabs (IZR ?x) <= _ => match type of H with Rabs (IZR ?y) <= _ => replace x with y by ring end end.
  exact H.
Qed.
Lemma o1_aliased_roundtrip_pos b : (0 < b < 2047 * 2^52)%Z ->
  (b <= pow2_o1_aliased (lg_o1_aliased b) <= one_as_int \/
   one_as_int <= pow2_o1_aliased (lg_o1_aliased b) <= b)%Z.
Proof.
  intros Hb. unfold pow2_o1_aliased, lg_o1_aliased, to_int, lg_o1_int. rewrite rnd_scale_up by apply rnd_idem.
  destruct (alias_rel (b - one_as_int)) as [t [-> Ht]].
  assert (Hu : 0 < u53 < / 1000) by (rewrite u53_val; lra).
  set (i := (b - one_as_int)%Z).
  destruct (Z_le_gt_dec 0 i) as [Hi|Hi].
  - right. assert (0 <= IZR i) by (apply (IZR_le 0); exact Hi).
    assert (0 <= Ztrunc (IZR i * t) <= i)%Z; [|lia].
    rewrite Ztrunc_floor by nra. split; [apply Zfloor_lub; simpl; nra|].
    apply le_IZR. eapply Rle_trans; [apply Zfloor_lb|]. nra.
  - left. assert (IZR i <= 0) by (apply (IZR_le _ 0); lia).
    assert (i <= Ztrunc (IZR i * t) <= 0)%Z; [|lia].
    rewrite Ztrunc_ceil by nra. split; [|apply Zceil_glb; simpl; nra].
    apply le_IZR. eapply Rle_trans; [|apply Zceil_ub]. nra.
Qed.

(** *** Order 2, integer core *)
Lemma land_mask x : Z.land x mantissa_mask = (x mod 2^52)%Z.
Proof. change mantissa_mask with (Z.ones 52). apply Z.land_ones. lia. Qed.
Lemma land_low x : Z.land x low_mask = (x mod 2^26)%Z.
Proof. change low_mask with (Z.ones 26). apply Z.land_ones. lia. Qed.
Lemma fsq_eq f : frac_squared f = ((f / 2^26) * (f / 2^26) + (f / 2^26) * (f mod 2^26) / 2^25)%Z.
Proof. unfold frac_squared. rewrite land_low, !Z.shiftr_div_pow2 by lia. reflexivity. Qed.
Lemma hilo f : (0 <= f < 2^52 -> 0 <= f / 2^26 < 2^26 /\ 0 <= f mod 2^26 < 2^26 /\ f = 2^26 * (f / 2^26) + f mod 2^26)%Z.
Proof.
  intros H. split; [|split].
  - split; [apply Z.div_pos; lia|]. apply Z.div_lt_upper_bound; lia.
  - apply Z.mod_pos_bound. lia.
  - apply Z.div_mod. lia.
Qed.
Lemma fsq_bounds f : (0 <= f < 2^52)%Z ->
  (2^52 * frac_squared f <= f * f /\ f * f < 2^52 * (frac_squared f + 2))%Z.
Proof.
  intros Hf. rewrite fsq_eq. destruct (hilo f Hf) as [Hh [Hl E]].
  set (h := (f / 2^26)%Z) in *. set (l := (f mod 2^26)%Z) in *.
  assert (D1 := Z.mul_div_le (h * l) (2^25) ltac:(lia)).
  assert (D2 := Z.mul_succ_div_gt (h * l) (2^25) ltac:(lia)).
  set (q := (h * l / 2^25)%Z) in *.
  assert (E2 : (f * f = 2^52 * (h * h) + 2^27 * (h * l) + l * l)%Z) by (rewrite E; ring).
  assert (Hll : (0 <= l * l < 2^52)%Z) by nia.
  rewrite E2. change (2^52)%Z with (2^27 * 2^25)%Z in *. nia.
Qed.
Lemma fsq_le f : (0 <= f < 2^52 -> 0 <= f - frac_squared f)%Z.
Proof. intros H. destruct (fsq_bounds f H) as [H1 _]. nia. Qed.
Lemma lg_o2_int_eq b : lg_o2_int b =
  let x := (b - one_as_int)%Z in let f := (x mod 2^52)%Z in (x + (f - frac_squared f) / 3)%Z.
Proof.
  unfold lg_o2_int. rewrite land_mask. cbv zeta. f_equal. apply Z.quot_div_nonneg; [|lia].
  apply fsq_le. apply Z.mod_pos_bound. lia.
Qed.
Lemma fsq_step f : (0 <= f -> f + 1 < 2^52 -> frac_squared (f + 1) <= frac_squared f + 3)%Z.
Proof.
  intros H0 H1. destruct (hilo f ltac:(lia)) as [Hh [Hl E]]. rewrite !fsq_eq.
  set (h := (f / 2^26)%Z) in *. set (l := (f mod 2^26)%Z) in *.
  destruct (Z.eq_dec l (2^26 - 1)) as [El|El].
  - assert (Q : ((f + 1) / 2^26 = h + 1)%Z).
    { symmetry. apply Z.div_unique with 0%Z; lia. }
    assert (M : ((f + 1) mod 2^26 = 0)%Z).
    { symmetry. apply Z.mod_unique with (h + 1)%Z; lia. }
    rewrite Q, M, Z.mul_0_r, Z.div_0_l by lia.
    assert (2 * h - 2 <= h * l / 2^25)%Z; [|lia].
    apply Z.div_le_lower_bound; [lia|]. rewrite El. change (2^26)%Z with (2 * 2^25)%Z in *. lia.
  - assert (Q : ((f + 1) / 2^26 = h)%Z).
    { symmetry. apply Z.div_unique with (l + 1)%Z; lia. }
    assert (M : ((f + 1) mod 2^26 = l + 1)%Z).
    { symmetry. apply Z.mod_unique with h; lia. }
    rewrite Q, M.
    assert (h * (l + 1) / 2^25 <= h * l / 2^25 + 2)%Z; [|lia].
    rewrite <- Z.div_add by lia. apply Z.div_le_mono; lia.
Qed.
Lemma lg_o2_int_step b : (lg_o2_int b <= lg_o2_int (b + 1))%Z.
Proof.
  rewrite !lg_o2_int_eq. cbv zeta.
  replace (b + 1 - one_as_int)%Z with (b - one_as_int + 1)%Z by ring.
  set (x := (b - one_as_int)%Z).
  assert (Hm := Z.mod_pos_bound x (2^52) ltac:(lia)).
  assert (Hdm := Z.div_mod x (2^52) ltac:(lia)).
  set (f := (x mod 2^52)%Z) in *.
  destruct (Z.eq_dec f (2^52 - 1)) as [Ef|Ef].
  - assert (M : ((x + 1) mod 2^52 = 0)%Z).
    { symmetry. apply Z.mod_unique with (x / 2^52 + 1)%Z; lia. }
    rewrite M, Ef.
    replace ((2^52 - 1 - frac_squared (2^52 - 1)) / 3)%Z with 0%Z by reflexivity.
    replace ((0 - frac_squared 0) / 3)%Z with 0%Z by reflexivity. lia.
  - assert (M : ((x + 1) mod 2^52 = f + 1)%Z).
    { symmetry. apply Z.mod_unique with (x / 2^52)%Z; lia. }
    rewrite M. assert (S := fsq_step f ltac:(lia) ltac:(lia)).
    assert (((f - frac_squared f) / 3 <= (f + 1 - frac_squared (f + 1)) / 3 + 1)%Z); [|lia].
    rewrite <- Z.div_add by lia. apply Z.div_le_mono; lia.
Qed.
Lemma lg_o2_int_mono b b' : (b <= b' -> lg_o2_int b <= lg_o2_int b')%Z.
Proof.
  intros H. replace b' with (b + Z.of_nat (Z.to_nat (b' - b)))%Z by lia.
  induction (Z.to_nat (b' - b)) as [|k IH]; [rewrite Z.add_0_r; lia|].
  replace (b + Z.of_nat (S k))%Z with (b + Z.of_nat k + 1)%Z by lia.
  etransitivity; [exact IH|]. apply lg_o2_int_step.
Qed.
Lemma o2_aliased_mono b b' : (b <= b')%Z -> lg_o2_aliased b <= lg_o2_aliased b'.
Proof.
  intros H. unfold lg_o2_aliased. apply rnd_le. apply Rmult_le_compat_r.
  - left. apply scale_down_pos.
  - apply rnd_le. apply IZR_le. apply lg_o2_int_mono, H.
Qed.

(** the real function the order-2 integer code approximates: G, with inverse H, on [0,1) cells *)
Definition G (z : R) : R := let t := z - IZR (Zfloor z) in IZR (Zfloor z) + (4 * t - t * t) / 3.
Definition H (y : R) : R := let t := y - IZR (Zfloor y) in IZR (Zfloor y) + (2 - sqrt (4 - 3 * t)).
Lemma HG z : H (G z) = z.
Proof.
  unfold H, G. cbv zeta. assert (Ht := floor_frac z).
  set (n := Zfloor z) in *. set (t := z - IZR n) in *.
  assert (Hr : 0 <= (4 * t - t * t) / 3 < 1) by nra.
  assert (E : Zfloor (IZR n + (4 * t - t * t) / 3) = n).
  { apply Zfloor_imp. rewrite plus_IZR. lra. }
  rewrite E.
  replace (4 - 3 * (IZR n + (4 * t - t * t) / 3 - IZR n)) with ((2 - t) * (2 - t)) by field.
  rewrite sqrt_square by lra. unfold t. ring.
Qed.
Lemma q_lip s t : 0 <= s -> s <= t -> t <= 1 ->
  0 <= (2 - sqrt (4 - 3 * t)) - (2 - sqrt (4 - 3 * s)) <= 3 / 2 * (t - s).
Proof.
  intros H0 H1 H2.
  assert (A : 1 <= sqrt (4 - 3 * t)). { rewrite <- sqrt_1 at 1. apply sqrt_le_1; lra. }
  assert (B : sqrt (4 - 3 * t) <= sqrt (4 - 3 * s)) by (apply sqrt_le_1; lra).
  assert (C := sqrt_sqrt (4 - 3 * t) ltac:(lra)). assert (D := sqrt_sqrt (4 - 3 * s) ltac:(lra)).
  set (a := sqrt (4 - 3 * t)) in *. set (b := sqrt (4 - 3 * s)) in *.
  split; [lra|]. assert (3 * (t - s) = (b - a) * (b + a)) by lra. nra.
Qed.
Lemma sqrt4 : sqrt (4 - 3 * 0) = 2.
Proof. replace (4 - 3 * 0) with (2 * 2) by ring. apply sqrt_square. lra. Qed.
Lemma sqrt1' : sqrt (4 - 3 * 1) = 1.
Proof. replace (4 - 3 * 1) with 1 by ring. apply sqrt_1. Qed.
Lemma H_lip y z : y <= z -> 0 <= H z - H y <= 3 / 2 * (z - y).
Proof.
  intros Hyz. unfold H. cbv zeta.
  assert (Fy := floor_frac y). assert (Fz := floor_frac z).
  assert (Hle : (Zfloor y <= Zfloor z)%Z) by (apply Zfloor_le, Hyz).
  set (n := Zfloor y) in *. set (m := Zfloor z) in *.
  destruct (Z.eq_dec n m) as [E|E].
  - rewrite E in *. assert (Q := q_lip (y - IZR m) (z - IZR m) ltac:(lra) ltac:(lra) ltac:(lra)). lra.
  - assert (Hnm : IZR n + 1 <= IZR m). { rewrite <- plus_IZR. apply IZR_le. lia. }
    assert (Q1 := q_lip (y - IZR n) 1 ltac:(lra) ltac:(lra) ltac:(lra)).
    assert (Q2 := q_lip 0 (z - IZR m) ltac:(lra) ltac:(lra) ltac:(lra)).
    rewrite sqrt1' in Q1. rewrite sqrt4 in Q2. lra.
Qed.
Lemma H_lip_abs y z : Rabs (H y - H z) <= 3 / 2 * Rabs (y - z).
Proof.
  destruct (Rle_dec y z) as [L|L].
  - assert (A := H_lip y z L). rewrite !Rabs_left1 by lra. lra.
  - assert (A := H_lip z y ltac:(lra)). rewrite !Rabs_pos_eq by lra. lra.
Qed.

Notation T52 := (4503599627370496).
Lemma floor_div (x : Z) : Zfloor (IZR x / T52) = (x / 2^52)%Z.
Proof. rewrite <- (Zfloor_div x (2^52)) by lia. reflexivity. Qed.
Lemma frac_div (x : Z) : IZR x / T52 - IZR (x / 2^52) = IZR (x mod 2^52) / T52.
Proof.
  rewrite (Z.div_mod x (2^52)) at 1 by lia. rewrite plus_IZR, mult_IZR.
  change (IZR (2^52)) with T52. field.
Qed.
Lemma lg_o2_int_G b : Rabs (IZR (lg_o2_int b) - T52 * G (IZR (b - one_as_int) / T52)) <= 1.
Proof.
  rewrite lg_o2_int_eq. cbv zeta. set (x := (b - one_as_int)%Z).
  unfold G. rewrite floor_div, frac_div. cbv zeta.
  assert (Hm := Z.mod_pos_bound x (2^52) ltac:(lia)).
  assert (Hx : IZR x = T52 * IZR (x / 2^52) + IZR (x mod 2^52)).
  { rewrite (Z.div_mod x (2^52)) at 1 by lia. rewrite plus_IZR, mult_IZR. reflexivity. }
  set (f := (x mod 2^52)%Z) in *. set (n := (x / 2^52)%Z) in *.
  destruct (fsq_bounds f Hm) as [B1 B2].
  assert (D1 := Z.mul_div_le (f - frac_squared f) 3 ltac:(lia)).
  assert (D2 := Z.mul_succ_div_gt (f - frac_squared f) 3 ltac:(lia)).
  set (q := ((f - frac_squared f) / 3)%Z) in *. set (s := frac_squared f) in *.
  apply IZR_le in B1. apply IZR_lt in B2. apply IZR_le in D1. apply IZR_lt in D2.
  unfold Z.succ in D2.
  rewrite ?mult_IZR, ?plus_IZR, ?minus_IZR in *. change (IZR (2^52)) with T52 in *.
  replace (T52 * (IZR n + (4 * (IZR f / T52) - IZR f / T52 * (IZR f / T52)) / 3))
    with (T52 * IZR n + (4 * IZR f - IZR f * IZR f / T52) / 3) by field.
  assert (B1' : IZR s <= IZR f * IZR f / T52) by lra.
  assert (B2' : IZR f * IZR f / T52 < IZR s + 2) by lra.
  rewrite Hx. apply Rabs_le. lra.
Qed.

(** the truncated square root *)
Lemma frac_sqrt_err f : (0 <= f < 2^52)%Z ->
  Rabs (IZR (frac_sqrt f) - T52 * sqrt (4 - 3 * (IZR f / T52))) <= 6.
Proof.
  intros Hf. unfold frac_sqrt.
  set (a := (18014398509481984 - 3 * f)%Z).
  assert (Ha : (2^52 <= a <= 2^54)%Z) by (unfold a; lia).
  assert (HaR : T52 <= IZR a <= 4 * T52). { split; [apply (IZR_le (2^52)); lia|].
    replace (4 * T52) with (IZR (2^54)) by (simpl; lra). apply IZR_le; lia. }
  assert (Ea : IZR a = T52 * (4 - 3 * (IZR f / T52))).
  { unfold a. rewrite minus_IZR, mult_IZR. lra. }
  set (y := 4 - 3 * (IZR f / T52)) in *.
  assert (Hy : 1 <= y <= 4) by lra.
  assert (Bs := bpow_small_1).
  destruct (rnd_rel (IZR a)) as [e1 [He1 E1]]. { rewrite Rabs_pos_eq; lra. }
  rewrite E1. apply Rabs_le_inv in He1. rewrite u53_val in He1.
  assert (Hs : exists d, Rabs d <= / 9007199254740992 /\ sqrt (IZR a * (1 + e1)) = sqrt (IZR a) * (1 + d)).
  { exists (sqrt (1 + e1) - 1). split.
    - assert (Q := sqrt_sqrt (1 + e1) ltac:(lra)). assert (P := sqrt_pos (1 + e1)).
      set (w := sqrt (1 + e1)) in *. apply Rabs_le. nra.
    - rewrite sqrt_mult by lra. ring. }
  destruct Hs as [d [Hd Ed]]. rewrite Ed. apply Rabs_le_inv in Hd.
  assert (Hsa : sqrt (IZR a) = 67108864 * sqrt y).
  { rewrite Ea. rewrite sqrt_mult by lra. f_equal.
    replace T52 with (67108864 * 67108864) by lra. apply sqrt_square. lra. }
  assert (Hsy : 1 <= sqrt y <= 2).
  { split; [rewrite <- sqrt_1 at 1; apply sqrt_le_1; lra|].
    rewrite <- (sqrt_square 2) by lra. apply sqrt_le_1; lra. }
  set (w := sqrt y) in *. rewrite Hsa.
  assert (P1 : 1 <= 67108864 * w * (1 + d)) by nra.
  destruct (rnd_rel (67108864 * w * (1 + d))) as [e2 [He2 E2]]. { rewrite Rabs_pos_eq; lra. }
  rewrite E2. apply Rabs_le_inv in He2. rewrite u53_val in He2.
  assert (P2 : 1 <= 67108864 * (67108864 * w * (1 + d) * (1 + e2))) by nra.
  destruct (rnd_rel (67108864 * (67108864 * w * (1 + d) * (1 + e2)))) as [e3 [He3 E3]].
  { rewrite Rabs_pos_eq; lra. }
  rewrite E3. apply Rabs_le_inv in He3. rewrite u53_val in He3.
  set (v := 67108864 * (67108864 * w * (1 + d) * (1 + e2)) * (1 + e3)).
  assert (Hv : v = T52 * w * ((1 + d) * (1 + e2) * (1 + e3))) by (unfold v; ring).
  assert (Hk : 1 - 4 / 9007199254740992 <= (1 + d) * (1 + e2) * (1 + e3) <= 1 + 4 / 9007199254740992).
  { set (u := / 9007199254740992) in *. assert (Hu : 0 < u < / 1000) by (unfold u; lra).
    assert (A1 : (1 - u) * (1 - u) <= (1 + d) * (1 + e2)) by (apply Rmult_le_compat; lra).
    assert (A2 : (1 + d) * (1 + e2) <= (1 + u) * (1 + u)) by (apply Rmult_le_compat; lra).
    change (4 / 9007199254740992) with (4 * u).
    split.
    - apply Rle_trans with ((1 - u) * (1 - u) * (1 - u)); [nra|]. apply Rmult_le_compat; nra.
    - apply Rle_trans with ((1 + u) * (1 + u) * (1 + u)); [|nra]. apply Rmult_le_compat; nra. }
  set (k := (1 + d) * (1 + e2) * (1 + e3)) in *.
  assert (Hvw : Rabs (v - T52 * w) <= 5).
  { rewrite Hv. replace (T52 * w * k - T52 * w) with (T52 * w * (k - 1)) by ring.
    apply Rabs_le. nra. }
  assert (Hv0 : 0 <= v). { rewrite Hv. apply Rmult_le_pos; lra. }
  rewrite Ztrunc_floor by exact Hv0.
  assert (A := Zfloor_lb v). assert (B := Zfloor_ub v).
  apply Rabs_le_inv in Hvw. apply Rabs_le. lra.
Qed.
Lemma pow2_o2_int_H j :
  Rabs (IZR (pow2_o2_int j - one_as_int) - T52 * H (IZR j / T52)) <= 6.
Proof.
  unfold pow2_o2_int, H. rewrite land_mask, floor_div, frac_div. cbv zeta.
  assert (Hm := Z.mod_pos_bound j (2^52) ltac:(lia)).
  assert (Hx : IZR j = T52 * IZR (j / 2^52) + IZR (j mod 2^52)).
  { rewrite (Z.div_mod j (2^52)) at 1 by lia. rewrite plus_IZR, mult_IZR. reflexivity. }
  assert (E := frac_sqrt_err _ Hm).
  set (f := (j mod 2^52)%Z) in *. set (n := (j / 2^52)%Z) in *.
  set (w := sqrt _) in *.
  rewrite !minus_IZR, !plus_IZR, !minus_IZR, plus_IZR. rewrite Hx.
  apply Rabs_le_inv in E. apply Rabs_le. lra.
Qed.

Lemma o2_int_roundtrip b k :
  Rabs (IZR (pow2_o2_int k - b)) <= 8 + 3 / 2 * Rabs (IZR (k - lg_o2_int b)).
Proof.
  assert (A := pow2_o2_int_H k). assert (B := lg_o2_int_G b).
  assert (C := HG (IZR (b - one_as_int) / T52)).
  set (g := G (IZR (b - one_as_int) / T52)) in *.
  assert (L := H_lip_abs (IZR k / T52) g). rewrite C in L.
  replace (IZR (pow2_o2_int k - b)) with
    ((IZR (pow2_o2_int k - one_as_int) - T52 * H (IZR k / T52))
     + T52 * (H (IZR k / T52) - IZR (b - one_as_int) / T52)).
  2:{ rewrite !minus_IZR. field. }
  eapply Rle_trans; [apply Rabs_triang|].
  rewrite (Rabs_mult T52), (Rabs_pos_eq T52) by lra.
  assert (M : T52 * Rabs (IZR k / T52 - g) <= Rabs (IZR (k - lg_o2_int b)) + 1).
  { rewrite <- (Rabs_pos_eq T52) at 1 by lra. rewrite <- Rabs_mult.
    replace (T52 * (IZR k / T52 - g)) with (IZR (k - lg_o2_int b) + (IZR (lg_o2_int b) - T52 * g)).
    - eapply Rle_trans; [apply Rabs_triang|]. lra.
    - rewrite minus_IZR. field. }
  lra.
Qed.
Lemma o2_aliased_roundtrip b :
  Rabs (IZR (pow2_o2_aliased (lg_o2_aliased b) - b)) <= 10 + 24 * u53 * Rabs (IZR (lg_o2_int b)).
Proof.
  unfold pow2_o2_aliased, lg_o2_aliased.
  destruct (to_int_alias (lg_o2_int b)) as [A _].
  eapply Rle_trans; [apply (o2_int_roundtrip b)|]. lra.
Qed.

(** the int64 range is respected *)
Lemma lg_o2_int_range b : (0 < b < 2047 * 2^52)%Z -> (- 2^62 < lg_o2_int b < 2^62)%Z.
Proof.
  intros Hb. split.
  - apply Z.lt_le_trans with (lg_o2_int 1); [reflexivity|]. apply lg_o2_int_mono. lia.
  - apply Z.le_lt_trans with (lg_o2_int (2047 * 2^52 - 1)); [apply lg_o2_int_mono; lia|reflexivity].
Qed.

(** pow2 is monotone, and exact on integers *)
Lemma frac_sqrt_mono f f' : (f <= f' -> frac_sqrt f' <= frac_sqrt f)%Z.
Proof.
  intros Hf. unfold frac_sqrt. apply Ztrunc_le. apply rnd_le.
  apply Rmult_le_compat_l; [lra|]. apply rnd_le. apply sqrt_le_1_alt. apply rnd_le.
  apply IZR_le. lia.
Qed.
Lemma rnd_bpow e : (-1074 <= e)%Z -> rnd (bpow radix2 e) = bpow radix2 e.
Proof.
  intros He. unfold rnd. apply round_generic; [typeclasses eauto|].
  apply generic_format_bpow. unfold FLT_exp. lia.
Qed.
Lemma frac_sqrt_gen (a : Z) e : (0 <= e <= 100)%Z -> (18014398509481984 - 3 * a = 2^(2 * e))%Z ->
  frac_sqrt a = (2^(26 + e))%Z.
Proof.
  intros He E. unfold frac_sqrt. rewrite E.
  rewrite (IZR_Zpower radix2) by lia. rewrite rnd_bpow by lia.
  rewrite sqrt_bpow. rewrite rnd_bpow by lia.
  change (IZR 67108864) with (bpow radix2 26). rewrite <- bpow_plus. rewrite rnd_bpow by lia.
  rewrite <- (IZR_Zpower radix2) by lia. apply Ztrunc_IZR.
Qed.
Lemma frac_sqrt_0 : frac_sqrt 0 = (2^53)%Z.
Proof. apply (frac_sqrt_gen 0 27); lia. Qed.
Lemma frac_sqrt_52 : frac_sqrt (2^52) = (2^52)%Z.
Proof. apply (frac_sqrt_gen (2^52) 26); lia. Qed.
Lemma frac_sqrt_range f : (0 <= f < 2^52 -> 2^52 <= frac_sqrt f <= 2^53)%Z.
Proof.
  intros Hf. split.
  - rewrite <- frac_sqrt_52 at 1. apply frac_sqrt_mono. lia.
  - rewrite <- frac_sqrt_0. apply frac_sqrt_mono. lia.
Qed.
Lemma pow2_o2_int_eq j : pow2_o2_int j = (2^52 * (j / 2^52) + (2^53 - frac_sqrt (j mod 2^52)) + one_as_int)%Z.
Proof.
  unfold pow2_o2_int. rewrite land_mask. assert (E := Z.div_mod j (2^52) ltac:(lia)).
  change 9007199254740992%Z with (2^53)%Z. lia.
Qed.
Lemma pow2_o2_int_cell j : (2^52 * (j / 2^52) <= pow2_o2_int j - one_as_int <= 2^52 * (j / 2^52) + 2^52)%Z.
Proof.
  rewrite pow2_o2_int_eq. assert (Hm := Z.mod_pos_bound j (2^52) ltac:(lia)).
  assert (Rg := frac_sqrt_range (j mod 2^52) Hm). lia.
Qed.
Lemma pow2_o2_int_mono j j' : (j <= j' -> pow2_o2_int j <= pow2_o2_int j')%Z.
Proof.
  intros Hj. assert (Hd : (j / 2^52 <= j' / 2^52)%Z) by (apply Z.div_le_mono; lia).
  destruct (Z.eq_dec (j / 2^52) (j' / 2^52)) as [E|E].
  - rewrite !pow2_o2_int_eq, E.
    assert (E1 := Z.div_mod j (2^52) ltac:(lia)). assert (E2 := Z.div_mod j' (2^52) ltac:(lia)).
    assert (frac_sqrt (j' mod 2^52) <= frac_sqrt (j mod 2^52))%Z; [|lia].
    apply frac_sqrt_mono. lia.
  - assert (A := pow2_o2_int_cell j). assert (B := pow2_o2_int_cell j'). lia.
Qed.
Lemma pow2_o2_int_pow n : pow2_o2_int (n * 2^52) = (n * 2^52 + one_as_int)%Z.
Proof. rewrite pow2_o2_int_eq. rewrite Z.mod_mul, Z.div_mul, frac_sqrt_0 by lia. lia. Qed.

(** the integer core equals the portable log on the value of the bit pattern *)
Lemma bits_frexp b : (2^52 <= b)%Z ->
  frexp_e (bits_value b) = (b / 2^52 - 1022)%Z /\
  frexp_m (bits_value b) = /2 * (1 + IZR (b mod 2^52) / T52).
Proof.
  intros Hb. unfold bits_value. change (IZR (2^52)) with T52.
  assert (Hm := Z.mod_pos_bound b (2^52) ltac:(lia)).
  assert (Hf : 0 <= IZR (b mod 2^52) < T52). { split; [apply (IZR_le 0); lia|apply (IZR_lt _ (2^52)); lia]. }
  set (t := IZR (b mod 2^52) / T52).
  assert (Ht : 0 <= t < 1) by (unfold t; lra).
  replace ((1 + t) * bpow radix2 (b / 2^52 - 1023)) with (/2 * (1 + t) * bpow radix2 (b / 2^52 - 1022)).
  - apply frexp_unique. lra.
  - replace (b / 2^52 - 1022)%Z with (1 + (b / 2^52 - 1023))%Z by ring. rewrite bpow_plus.
    change (bpow radix2 1) with 2. field.
Qed.
Lemma one_div b : ((b - one_as_int) / 2^52 = b / 2^52 - 1023 /\ (b - one_as_int) mod 2^52 = b mod 2^52)%Z.
Proof.
  replace (b - one_as_int)%Z with (b + (-1023) * 2^52)%Z by (unfold one_as_int; lia).
  rewrite Z.div_add, Z.mod_add by lia. split; [ring|reflexivity].
Qed.
Lemma o1_int_is_portable b : (2^52 <= b)%Z -> IZR (lg_o1_int b) / T52 = lg_o1_portable (bits_value b).
Proof.
  intros Hb. destruct (bits_frexp b Hb) as [E M]. unfold lg_o1_portable. rewrite E, M.
  unfold lg_o1_int. rewrite (Z.div_mod b (2^52)) at 1 by lia.
  rewrite !minus_IZR, plus_IZR, mult_IZR. unfold one_as_int. change (IZR (2^52)) with T52.
  change (IZR (2^62 - 2^52)) with (4607182418800017408). field.
Qed.
Lemma o2_int_is_portable b : (2^52 <= b)%Z ->
  Rabs (IZR (lg_o2_int b) / T52 - lg_o2_portable (bits_value b)) <= / T52.
Proof.
  intros Hb. destruct (bits_frexp b Hb) as [E M].
  assert (A := lg_o2_int_G b).
  replace (lg_o2_portable (bits_value b)) with (G (IZR (b - one_as_int) / T52)).
  - replace (IZR (lg_o2_int b) / T52 - G (IZR (b - one_as_int) / T52))
      with ((IZR (lg_o2_int b) - T52 * G (IZR (b - one_as_int) / T52)) * / T52) by field.
    rewrite Rabs_mult, (Rabs_pos_eq (/ T52)) by lra. lra.
  - unfold G. rewrite floor_div, frac_div. destruct (one_div b) as [-> ->].
    unfold lg_o2_portable. rewrite E, M. rewrite !minus_IZR. cbv zeta. field.
Qed.

(** the literal 2.22044604925031e-16 is not 2^-52: lg(2) is not 1 and pow2(lg(2)) is 6 ulps low *)
Lemma two_bits : lg_o1_int (2^62) = (2^52)%Z.
Proof. reflexivity. Qed.
Lemma lg_two : lg_o1_aliased (2^62) = 1 - 12 * u53.
Proof.
  unfold lg_o1_aliased. rewrite two_bits.
  rewrite (IZR_Zpower radix2) by lia. rewrite rnd_bpow by lia.
  rewrite scale_down_val. change (IZR (2^52)) with (bpow radix2 52).
  replace (bpow radix2 52 * ((1 - 12 * u53) / bpow radix2 52)) with (1 - 12 * u53)
    by (field; apply Rgt_not_eq, bpow_gt_0).
  apply round_generic; [typeclasses eauto|].
  apply generic_format_FLT. exists (Float radix2 9007199254740980 (-53)).
  - unfold F2R. cbn [Fnum Fexp]. rewrite u53_val. lra.
  - cbn [Fnum]. simpl. lia.
  - cbn [Fexp]. lia.
Qed.
Lemma pow_lg_two : pow2_o1_aliased (lg_o1_aliased (2^62)) = (2^62 - 6)%Z.
Proof.
  assert (E := lg_two). unfold pow2_o1_aliased, to_int. rewrite rnd_scale_up.
  - rewrite E, u53_val. unfold scale_up. change (IZR (2^52)) with 4503599627370496.
    replace ((1 - 12 * / 9007199254740992) * 4503599627370496) with (IZR 4503599627370490) by lra.
    rewrite Ztrunc_IZR. reflexivity.
  - unfold lg_o1_aliased. apply rnd_idem.
Qed.
