(** Property theorems C01 (robust helpers), C02 (integer powers), C03 (sanity predicates). *)
From Coq Require Import ZArith Reals Bool Lra Lia.
From Flocq Require Import Core.
From Verif Require Import Robust_Model Robust_Proofs.
Local Open Scope R_scope.

(** ** C01 *)
(** the denominator used by ratio() is bounded away from 0 for every b, also after rounding *)
Theorem C01_ratio_never_divides_by_zero :
  forall b, 0 < SMALL /\ SMALL <= Rabs (ratio_denominator b) /\
    SMALL <= Rabs (round radix2 (FLT_exp (-1074) 53) ZnearestE (ratio_denominator b)).
Proof. intros b. exact (conj SMALL_pos (conj (ratio_denominator_bound b) (ratio_denominator_rnd_bound b))). Qed.
Print Assumptions C01_ratio_never_divides_by_zero.

(** and has the sign of b (zero counts as positive) *)
Theorem C01_ratio_keeps_sign :
  forall b, (0 <= b -> b < ratio_denominator b) /\ (b < 0 -> ratio_denominator b < b).
Proof. exact ratio_denominator_sign. Qed.
Print Assumptions C01_ratio_keeps_sign.

(** in binary64, round to nearest even, the guard is exactly absorbed for |b| >= 2^-960 *)
Theorem C01_ratio_absorbed :
  forall b, generic_format radix2 (FLT_exp (-1074) 53) b ->
    bpow radix2 (-960) <= Rabs b ->
    round radix2 (FLT_exp (-1074) 53) ZnearestE (ratio_denominator b) = b.
Proof. exact ratio_absorbed. Qed.
Print Assumptions C01_ratio_absorbed.
Example C01_ratio_absorbed_nonvacuous :
  generic_format radix2 (FLT_exp (-1074) 53) 1 /\ bpow radix2 (-960) <= Rabs 1.
Proof.
  split.
  - replace 1 with (F2R (Float radix2 1 0)) by (unfold F2R; simpl; lra).
    apply generic_format_F2R. intros _. unfold cexp, FLT_exp.
    replace (F2R (Float radix2 1 0)) with (bpow radix2 0) by (unfold F2R; simpl; lra).
    rewrite mag_bpow. simpl. lia.
  - rewrite Rabs_R1. left. exact bpow960_lt_1.
Qed.

(** in exact arithmetic the relative error of the guarded quotient is at most SMALL/|b| *)
Theorem C01_ratio_relative_error :
  forall a b, b <> 0 -> Rabs (ratio_exact a b - a / b) <= Rabs (a / b) * (SMALL / Rabs b).
Proof. exact ratio_exact_error. Qed.
Print Assumptions C01_ratio_relative_error.

Theorem C01_make_positive :
  forall v, 0 < make_positive v /\ v <= make_positive v /\ (EPS <= v -> make_positive v = v).
Proof. exact make_positive_ok. Qed.
Print Assumptions C01_make_positive.

(** make_bounded: strictly inside, identity on the interior, monotone; needs a positive upper bound *)
Theorem C01_make_bounded :
  forall v lo hi, 0 < hi -> lo + EPS <= hi * (1 - EPS) ->
    lo < make_bounded v lo hi < hi /\
    (lo + EPS <= v -> v <= hi * (1 - EPS) -> make_bounded v lo hi = v) /\
    (forall w, v <= w -> make_bounded v lo hi <= make_bounded w lo hi).
Proof.
  exact (fun v lo hi H1 H2 => conj (make_bounded_ok v lo hi H1 H2)
    (conj (make_bounded_id v lo hi) (fun w => make_bounded_mono v w lo hi))).
Qed.
Print Assumptions C01_make_bounded.
Example C01_make_bounded_nonvacuous : 0 < 1 /\ 0 + EPS <= 1 * (1 - EPS).
Proof.
  split; [lra|]. unfold EPS. assert (bpow radix2 (-52) <= bpow radix2 (-10)) by (apply bpow_le; lia).
  assert (bpow radix2 (-10) = / 1024) by (simpl; lra). lra.
Qed.
(** with a negative upper bound the result exceeds it *)
Theorem C54_make_bounded_negative_hi_refuted :
  exists v lo hi, lo < hi /\ hi < make_bounded v lo hi.
Proof.
  exists 0, (-2), (-1). split; [lra|]. unfold make_bounded. pose proof EPS_pos.
  assert (EPS < 1).
  { unfold EPS. assert (bpow radix2 (-52) <= bpow radix2 (-10)) by (apply bpow_le; lia).
    assert (bpow radix2 (-10) = / 1024) by (simpl; lra). lra. }
  apply Rmin_glb_lt; [|lra]. pose proof (Rmax_l 0 (-2 + EPS)). lra.
Qed.
Print Assumptions C54_make_bounded_negative_hi_refuted.

(** safe_arg_exp is exp where representable, flushes < 2^-1022 to zero, +inf above, and is monotone
    ([None] is +infinity) *)
Theorem C01_safe_arg_exp :
  (forall x, min_exp_arg <= x -> x <= max_exp_arg -> safe_arg_exp x = Some (exp x)) /\
  (forall x, x < min_exp_arg -> safe_arg_exp x = Some 0 /\ 0 < exp x < bpow radix2 (-1022)) /\
  (forall x y, x <= y ->
     match safe_arg_exp x, safe_arg_exp y with
     | _, None => True | None, Some _ => False | Some a, Some b => a <= b end).
Proof. exact (conj safe_exp_mid (conj safe_exp_low safe_exp_mono)). Qed.
Print Assumptions C01_safe_arg_exp.

(** ** C02: terminates for every P and equals repeated multiplication *)
Theorem C02_integer_power :
  forall (P : Z) (x : R),
    ((0 <= P)%Z -> ipow P x = Some (x ^ Z.to_nat P)) /\
    ((P < 0)%Z -> ipow P x = Some (/ x ^ Z.to_nat (- P))).
Proof.
  intros P x. rewrite ipow_ok. destruct P; split; intros H; try lia; reflexivity.
Qed.
Print Assumptions C02_integer_power.
Example C02_values : ipow 7 2 = Some 128 /\ ipow (-3) 2 = Some (/ 8).
Proof. rewrite !ipow_ok. simpl. split; f_equal; lra. Qed.

(** ** C03 *)
Theorem C03_non_positive_value :
  forall v, non_positive_value v = true <-> v <= 0.
Proof.
  intros v. unfold non_positive_value, violates_condition, is_strictly_positive.
  destruct (Rlt_bool_spec 0 v); simpl; split; intros; try discriminate; try lra; reflexivity.
Qed.
Print Assumptions C03_non_positive_value.

Theorem C03_bad_value_accepts_zero : bad_value 0 = false.
Proof.
  unfold bad_value, violates_condition, is_normal_or_zero. rewrite Req_bool_true by reflexivity. reflexivity.
Qed.
Print Assumptions C03_bad_value_accepts_zero.

(** bad_value accepts every normal number whose 1e10-fold is still finite *)
Theorem C03_bad_value_range :
  forall v, bpow radix2 (-1022) <= Rabs v -> 10000000000 * Rabs v < bpow radix2 1024 ->
    bad_value v = false.
Proof.
  intros v H1 H2. unfold bad_value, violates_condition, is_normal_or_zero, isnormal.
  pose proof (bpow_gt_0 radix2 (-1022)).
  rewrite Rabs_mult, (Rabs_right 10000000000) by lra.
  rewrite !Rle_bool_true, !Rlt_bool_true by lra. rewrite orb_true_r. reflexivity.
Qed.
Print Assumptions C03_bad_value_range.

(** negative_value flags the non-negative value 0 (error_utils.hpp:81-85 uses is_strictly_positive) *)
Theorem C54_negative_value_refuted : exists v, 0 <= v /\ negative_value v = true.
Proof.
  exists 0. split; [lra|]. unfold negative_value, violates_condition, is_strictly_positive.
  rewrite Rlt_bool_false by lra. reflexivity.
Qed.
Print Assumptions C54_negative_value_refuted.
(** away from 0 it is right *)
Theorem C03_negative_value :
  forall v, v <> 0 -> (negative_value v = true <-> v < 0).
Proof.
  intros v Hv. unfold negative_value, violates_condition, is_strictly_positive.
  destruct (Rlt_bool_spec 0 v); simpl; split; intros; try discriminate; try lra; reflexivity.
Qed.
Print Assumptions C03_negative_value.
