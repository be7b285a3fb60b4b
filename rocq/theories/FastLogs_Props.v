(** Property theorems C05: the fast logarithm pair. *)
From Coq Require Import ZArith Reals Lra Lia.
From Coquelicot Require Import Coquelicot.
From Flocq Require Import Core.
From Verif Require Import FastLogs_Model FastLogs_Proofs FastLogs_Alias.
Local Open Scope R_scope.

(** Specification: (lg, pow2) is a logarithm-like pair: mutually inverse, strictly increasing, continuous,
    exact on powers of two, and within [err] of the true base-2 logarithm. *)
Record log_like (lg pow2 : R -> R) (err : R) : Prop := {
  ll_inv_l : forall x, 0 < x -> pow2 (lg x) = x;
  ll_pos : forall y, 0 < pow2 y;
  ll_inv_r : forall y, lg (pow2 y) = y;
  ll_lg_increasing : forall x y, 0 < x -> x < y -> lg x < lg y;
  ll_pow_increasing : forall y z, y < z -> pow2 y < pow2 z;
  ll_continuous : forall x, 0 < x -> continuous lg x;
  ll_exact : forall n : Z, lg (powerRZ 2 n) = IZR n;
  ll_close : forall x, 0 < x -> Rabs (ln x / ln 2 - lg x) <= err
}.

Lemma bpow2_powerRZ n : bpow radix2 n = powerRZ 2 n.
Proof. rewrite bpow_powerRZ. reflexivity. Qed.

Theorem C05_portable_order1 : log_like lg_o1_portable pow2_o1_portable (1 / 4).
Proof.
  constructor.
  - exact o1_pow_lg.
  - intros y. apply o1_lg_pow.
  - intros y. apply o1_lg_pow.
  - exact o1_strict.
  - exact (inv_strict _ _ o1_lg_pow o1_strict).
  - exact (bij_continuous _ _ o1_pow_lg o1_lg_pow o1_strict).
  - intros n. rewrite <- bpow2_powerRZ. apply o1_pow2.
  - intros x Hx. assert (H := o1_close x Hx). unfold log2R in H. rewrite Rabs_pos_eq; lra.
Qed.
Print Assumptions C05_portable_order1.

Theorem C05_portable_order2 : log_like lg_o2_portable pow2_o2_portable (1 / 4).
Proof.
  constructor.
  - exact o2_pow_lg.
  - intros y. apply o2_lg_pow.
  - intros y. apply o2_lg_pow.
  - exact o2_strict.
  - exact (inv_strict _ _ o2_lg_pow o2_strict).
  - exact (bij_continuous _ _ o2_pow_lg o2_lg_pow o2_strict).
  - intros n. rewrite <- bpow2_powerRZ. apply o2_pow2.
  - intros x Hx. assert (H := o2_close x Hx). unfold log2R in H. lra.
Qed.
Print Assumptions C05_portable_order2.

(** the second-order log is differentiable everywhere on (0,inf), including the cell boundaries at the
    powers of two, with positive derivative (the header's "continuity of the derivative") *)
Theorem C05_order2_differentiable :
  forall x, 0 < x -> exists d, 0 < d /\ is_derive lg_o2_portable x d.
Proof. intros x Hx. exists (dlg_o2 x). split; [apply dlg_o2_pos, Hx|apply o2_derive, Hx]. Qed.
Print Assumptions C05_order2_differentiable.

(** *** Integer-aliased variants: b is the bit pattern of a positive finite double
    (0 < b < 2047 * 2^52). *)

(** monotone in the bit pattern (hence in the value), and pow2 monotone in its argument *)
Theorem C05_aliased_monotone :
  (forall b b', (b <= b')%Z -> lg_o1_aliased b <= lg_o1_aliased b' /\ lg_o2_aliased b <= lg_o2_aliased b') /\
  (forall x y, x <= y -> (pow2_o1_aliased x <= pow2_o1_aliased y)%Z /\
                         (pow2_o2_aliased x <= pow2_o2_aliased y)%Z).
Proof.
  split.
  - intros b b' H. split; [apply o1_aliased_mono, H|apply o2_aliased_mono, H].
  - intros x y H. assert (T := to_int_mono x y H). split.
    + unfold pow2_o1_aliased. lia.
    + apply pow2_o2_int_mono, T.
Qed.
Print Assumptions C05_aliased_monotone.

(** the integer cores compute the portable logarithm of the encoded value: exactly for order 1, within
    one unit 2^-52 for order 2 (normal numbers) *)
Theorem C05_aliased_core_is_portable :
  forall b, (2^52 <= b)%Z ->
    IZR (lg_o1_int b) / 4503599627370496 = lg_o1_portable (bits_value b) /\
    Rabs (IZR (lg_o2_int b) / 4503599627370496 - lg_o2_portable (bits_value b)) <= / 4503599627370496.
Proof. intros b Hb. split; [apply o1_int_is_portable, Hb|apply o2_int_is_portable, Hb]. Qed.
Print Assumptions C05_aliased_core_is_portable.

(** all integer intermediates fit in int64 *)
Theorem C05_aliased_int64_range :
  forall b, (0 < b < 2047 * 2^52)%Z ->
    (- 2^62 < lg_o1_int b < 2^62 /\ - 2^62 < lg_o2_int b < 2^62 /\
     - 2^62 <= to_int (lg_o1_aliased b) <= 2^62 /\ - 2^62 <= to_int (lg_o2_aliased b) <= 2^62 /\
     0 < pow2_o1_aliased (lg_o1_aliased b) < 2047 * 2^52)%Z.
Proof.
  intros b Hb.
  assert (H1 : (- 2^62 < lg_o1_int b < 2^62)%Z) by (unfold lg_o1_int, one_as_int; lia).
  assert (H2 := lg_o2_int_range b Hb).
  destruct (to_int_alias (lg_o1_int b)) as [_ A]. destruct (to_int_alias (lg_o2_int b)) as [_ B].
  assert (C := o1_aliased_roundtrip_pos b Hb).
  fold (lg_o1_aliased b) in A. fold (lg_o2_aliased b) in B. unfold one_as_int in C.
  repeat split; try lia.
Qed.
Print Assumptions C05_aliased_int64_range.

(** round trip in units of the last place: bounded by a small constant plus 2^-49 (3*2^-50) of the
    distance |bits(x) - bits(1)| *)
Theorem C05_aliased_roundtrip :
  forall b,
    Rabs (IZR (pow2_o1_aliased (lg_o1_aliased b) - b)) <= 1 + bpow radix2 (-49) * Rabs (IZR (lg_o1_int b)) /\
    Rabs (IZR (pow2_o2_aliased (lg_o2_aliased b) - b)) <= 10 + 3 * bpow radix2 (-50) * Rabs (IZR (lg_o2_int b)).
Proof.
  intros b. assert (A := o1_aliased_roundtrip b). assert (B := o2_aliased_roundtrip b).
  rewrite u53_val in *. fold (lg_o1_int b) in A.
  replace (bpow radix2 (-49)) with (16 * / 9007199254740992) by (simpl; lra).
  replace (bpow radix2 (-50)) with (8 * / 9007199254740992) by (simpl; lra).
  split; lra.
Qed.
Print Assumptions C05_aliased_roundtrip.
(** so at most 2^14 units for every positive double *)
Theorem C05_aliased_roundtrip_uniform :
  forall b, (0 < b < 2047 * 2^52)%Z ->
    (Z.abs (pow2_o1_aliased (lg_o1_aliased b) - b) <= 2^14 /\
     Z.abs (pow2_o2_aliased (lg_o2_aliased b) - b) <= 2^14)%Z.
Proof.
  intros b Hb. destruct (C05_aliased_roundtrip b) as [A B].
  assert (H1 : Rabs (IZR (lg_o1_int b)) <= 4611686018427387904).
  { rewrite <- abs_IZR. apply IZR_le. unfold lg_o1_int, one_as_int. lia. }
  assert (H2 : Rabs (IZR (lg_o2_int b)) <= 4611686018427387904).
  { rewrite <- abs_IZR. apply IZR_le. assert (X := lg_o2_int_range b Hb). lia. }
  replace (bpow radix2 (-49)) with (/ 562949953421312) in A by reflexivity.
  replace (bpow radix2 (-50)) with (/ 1125899906842624) in B by reflexivity.
  rewrite <- abs_IZR in A, B.
  split; apply le_IZR; change (IZR (2^14)) with 16384; lra.
Qed.
Print Assumptions C05_aliased_roundtrip_uniform.

(** powers of two are exact in the integer core of pow2 *)
Theorem C05_aliased_pow2_exact_on_integers :
  forall n : Z, pow2_o2_int (n * 2^52) = (n * 2^52 + one_as_int)%Z.
Proof. exact pow2_o2_int_pow. Qed.
Print Assumptions C05_aliased_pow2_exact_on_integers.

(** but the source literal for 2^-52 is 6 ulps low (2.22044604925031e-16), so the aliased lg(2.0) is not 1
    and pow2(lg(2.0)) is not 2.0 although the comment in the source says the factor is 2^-52 *)
Theorem C54_aliased_lg2_refuted :
  lg_o1_aliased (2^62) < 1 /\ lg_o1_int (2^62) = (2^52)%Z /\
  bits_value (2^62) = 2 /\ pow2_o1_aliased (lg_o1_aliased (2^62)) = (2^62 - 6)%Z.
Proof.
  split; [|split; [reflexivity|split; [|exact pow_lg_two]]].
  - rewrite lg_two, u53_val. lra.
  - unfold bits_value. change ((2^62) mod 2^52)%Z with 0%Z. change (2^62 / 2^52 - 1023)%Z with 1%Z.
    change (bpow radix2 1) with 2. unfold Rdiv. rewrite Rmult_0_l. lra.
Qed.
Print Assumptions C54_aliased_lg2_refuted.

(** log10/pow10: the two conversion literals multiply to 1 within 10^-16, so pow10(log10 x) = pow2(c lg x)
    with |c - 1| <= 10^-16 *)
Theorem C05_log10_pow10 :
  forall lg pow2 x, exists c, Rabs (c - 1) <= / 10000000000000000 /\
    fm_pow10 pow2 (fm_log10 lg x) = pow2 (c * lg x).
Proof.
  intros lg pow2 x. exists (LOG10OLOG2 * LOG2OLOG10). split.
  - unfold LOG10OLOG2, LOG2OLOG10. apply Rabs_le. lra.
  - unfold fm_pow10, fm_log10. f_equal. ring.
Qed.
Print Assumptions C05_log10_pow10.

(** non-vacuity: 3.0 has bit pattern 2^62 + 2^51 *)
Example C05_instance : (2^52 <= 2^62 + 2^51 < 2047 * 2^52)%Z /\ bits_value (2^62 + 2^51) = 3 /\
  lg_o1_portable 3 = 3 / 2.
Proof.
  split; [lia|]. split.
  - unfold bits_value. change ((2^62 + 2^51) mod 2^52)%Z with (2^51)%Z.
    change ((2^62 + 2^51) / 2^52 - 1023)%Z with 1%Z. change (bpow radix2 1) with 2.
    change (IZR (2^51)) with 2251799813685248. change (IZR (2^52)) with 4503599627370496. lra.
  - replace (lg_o1_portable 3) with (lg_o1_portable (3/4 * bpow radix2 2))
      by (f_equal; change (bpow radix2 2) with 4; lra).
    unfold lg_o1_portable. destruct (frexp_unique (3/4) 2) as [-> ->]; lra.
Qed.
