From Coq Require Import ZArith Reals Bool Lra Lia.
From Flocq Require Import Core.
From Verif Require Import Robust_Model.
Local Open Scope R_scope.

Lemma SMALL_pos : 0 < SMALL.
Proof. unfold SMALL. pose proof (bpow_gt_0 radix2 (-1022)). lra. Qed.
Lemma EPS_pos : 0 < EPS.
Proof. unfold EPS. pose proof (bpow_gt_0 radix2 (-52)). lra. Qed.

Lemma sgn_cases b : (0 <= b /\ sgn b = 1) \/ (b < 0 /\ sgn b = -1).
Proof. unfold sgn. destruct (Rle_bool_spec 0 b); [left|right]; auto. Qed.

Lemma ratio_denominator_bound b : SMALL <= Rabs (ratio_denominator b).
Proof.
  unfold ratio_denominator. pose proof SMALL_pos.
  destruct (sgn_cases b) as [[Hb ->]|[Hb ->]].
  - rewrite Rabs_right; lra.
  - rewrite Rabs_left; lra.
Qed.

Lemma ratio_denominator_nz b : ratio_denominator b <> 0.
Proof.
  intros H. pose proof (ratio_denominator_bound b). rewrite H, Rabs_R0 in H0.
  pose proof SMALL_pos. lra.
Qed.

Lemma ratio_denominator_sign b :
  (0 <= b -> b < ratio_denominator b) /\ (b < 0 -> ratio_denominator b < b).
Proof.
  unfold ratio_denominator. pose proof SMALL_pos.
  destruct (sgn_cases b) as [[Hb ->]|[Hb ->]]; split; intros; lra.
Qed.

Lemma SMALL_lt_ulp : SMALL < bpow radix2 (-1018).
Proof.
  unfold SMALL. change (-1018)%Z with (4 + -1022)%Z. rewrite bpow_plus.
  pose proof (bpow_gt_0 radix2 (-1022)).
  replace (bpow radix2 4) with 16 by (simpl; lra). lra.
Qed.

(** In binary64 (FLT format, emin = -1074, precision 53, ties to even) the guard is absorbed. *)
#[global] Instance prec53_gt_0 : Prec_gt_0 53.
Proof. reflexivity. Qed.
#[global] Instance vexp64 : Valid_exp (FLT_exp (-1074) 53).
Proof. apply FLT_exp_valid. reflexivity. Qed.

Definition b64 := generic_format radix2 (FLT_exp (-1074) 53).
Definition rnd64 := round radix2 (FLT_exp (-1074) 53) ZnearestE.

Lemma absorbed_pos b :
  b64 b -> bpow radix2 (-960) <= b -> rnd64 (b + SMALL) = b.
Proof.
  intros Fb Hb. pose proof SMALL_pos as Hs. pose proof SMALL_lt_ulp as Hu.
  assert (Hb0 : 0 < b) by (pose proof (bpow_gt_0 radix2 (-960)); lra).
  (* ulp b >= 2^-1011 *)
  assert (Hulp : bpow radix2 (-1012) <= ulp radix2 (FLT_exp (-1074) 53) b).
  { rewrite ulp_neq_0 by lra. apply bpow_le. unfold cexp, FLT_exp.
    assert (-959 <= mag radix2 b)%Z.
    { apply mag_ge_bpow. change (-959 - 1)%Z with (-960)%Z. rewrite Rabs_right; lra. }
    lia. }
  assert (H12 : bpow radix2 (-1018) < bpow radix2 (-1012) / 2).
  { change (-1012)%Z with (6 + -1018)%Z. rewrite bpow_plus.
    pose proof (bpow_gt_0 radix2 (-1018)). replace (bpow radix2 6) with 64 by (simpl; lra). lra. }
  unfold rnd64. apply round_N_eq_DN_pt with (d := b) (u := succ radix2 (FLT_exp (-1074) 53) b).
  - exact vexp64.
  - split; [exact Fb|]. split; [lra|].
    intros g Fg Hg. destruct (Rle_or_lt g b) as [|L]; [assumption|exfalso].
    assert (succ radix2 (FLT_exp (-1074) 53) b <= g) by (apply succ_le_lt; first [exact vexp64 | assumption]).
    rewrite succ_eq_pos in H by lra. lra.
  - split; [apply generic_format_succ; first [exact vexp64|assumption]|]. split.
    + rewrite succ_eq_pos by lra. lra.
    + intros g Fg Hg. apply succ_le_lt; try exact vexp64; try assumption. lra.
  - rewrite succ_eq_pos by lra. lra.
Qed.

Lemma rnd64_opp x : rnd64 (- x) = - rnd64 x.
Proof. unfold rnd64. apply round_NE_opp. Qed.

Lemma ratio_absorbed b : b64 b -> not_tiny b -> rnd64 (ratio_denominator b) = b.
Proof.
  intros Fb Hb. unfold not_tiny in Hb. unfold ratio_denominator.
  destruct (sgn_cases b) as [[H ->]|[H ->]].
  - rewrite Rabs_right in Hb by lra. rewrite Rmult_1_l. apply absorbed_pos; assumption.
  - rewrite Rabs_left in Hb by lra.
    replace (b + -1 * SMALL) with (- (- b + SMALL)) by lra.
    rewrite rnd64_opp. rewrite absorbed_pos; [lra| |assumption].
    apply generic_format_opp. exact Fb.
Qed.

(** the rounded denominator is never zero either *)
Lemma b64_small : b64 SMALL.
Proof.
  unfold b64, SMALL. replace (10 * bpow radix2 (-1022)) with (F2R (Float radix2 10 (-1022))).
  2: { unfold F2R. simpl. reflexivity. }
  apply generic_format_F2R. intros _. unfold cexp, FLT_exp.
  assert (mag radix2 (F2R (Float radix2 10 (-1022))) = (-1018) :> Z)%Z.
  { apply mag_unique. unfold F2R. simpl Fnum. simpl Fexp.
    rewrite Rabs_right.
    2: { apply Rle_ge. apply Rmult_le_pos; [lra|apply bpow_ge_0]. }
    pose proof (bpow_gt_0 radix2 (-1022)). split.
    - change (-1018 - 1)%Z with (3 + -1022)%Z. rewrite bpow_plus.
      replace (bpow radix2 3) with 8 by (simpl; lra). lra.
    - change (-1018)%Z with (4 + -1022)%Z. rewrite bpow_plus.
      replace (bpow radix2 4) with 16 by (simpl; lra). lra. }
  rewrite H. simpl. lia.
Qed.

Lemma ratio_denominator_rnd_bound b : SMALL <= Rabs (rnd64 (ratio_denominator b)).
Proof.
  unfold ratio_denominator. pose proof SMALL_pos.
  assert (K : forall c, 0 <= c -> SMALL <= rnd64 (c + SMALL)).
  { intros c Hc. unfold rnd64. apply round_ge_generic; [apply vexp64|apply valid_rnd_N|apply b64_small|lra]. }
  destruct (sgn_cases b) as [[Hb ->]|[Hb ->]].
  - rewrite Rmult_1_l. specialize (K b Hb). rewrite Rabs_right; lra.
  - replace (b + -1 * SMALL) with (- (- b + SMALL)) by lra. rewrite rnd64_opp, Rabs_Ropp.
    specialize (K (- b)). rewrite Rabs_right; [apply K; lra|]. assert (0 <= - b) by lra. specialize (K H0). lra.
Qed.

Lemma ratio_eq a b : not_tiny b -> ratio a b = a / b.
Proof. intros H. unfold ratio. rewrite Rle_bool_true by exact H. reflexivity. Qed.

Lemma ratio_nz_cases a b : ratio a b = a / b \/ ratio a b = a / ratio_denominator b.
Proof. unfold ratio, ratio_exact. destruct (Rle_bool _ _); auto. Qed.

Lemma not_tiny_nz b : not_tiny b -> b <> 0.
Proof.
  unfold not_tiny. intros H E. rewrite E, Rabs_R0 in H. pose proof (bpow_gt_0 radix2 (-960)). lra.
Qed.

Lemma bpow_neg_inv n : bpow radix2 (- Zpos n) = / 2 ^ Pos.to_nat n.
Proof.
  rewrite bpow_opp. f_equal. rewrite <- IZR_Zpower by lia.
  change (radix_val radix2) with 2%Z. rewrite pow_IZR.
  rewrite positive_nat_Z. reflexivity.
Qed.

(** convenient sufficient condition *)
Lemma not_tiny_ge b c : bpow radix2 (-960) <= c -> c <= Rabs b -> not_tiny b.
Proof. unfold not_tiny. intros. lra. Qed.

Lemma bpow960_lt_1 : bpow radix2 (-960) < 1.
Proof. change 1 with (bpow radix2 0). apply bpow_lt. lia. Qed.

Lemma not_tiny_1 b : 1 <= Rabs b -> not_tiny b.
Proof. unfold not_tiny. pose proof bpow960_lt_1. lra. Qed.

Lemma ratio_exact_error a b : b <> 0 ->
  Rabs (ratio_exact a b - a / b) <= Rabs (a / b) * (SMALL / Rabs b).
Proof.
  intros Hb. unfold ratio_exact.
  pose proof (ratio_denominator_nz b) as Hn. pose proof SMALL_pos as Hs.
  assert (Hab : 0 < Rabs b) by (apply Rabs_pos_lt; assumption).
  assert (Hle : Rabs b <= Rabs (ratio_denominator b)).
  { unfold ratio_denominator. destruct (sgn_cases b) as [[H ->]|[H ->]].
    - rewrite !Rabs_right; lra.
    - rewrite !Rabs_left; lra. }
  replace (a / ratio_denominator b - a / b) with
    ((a / b) * ((b - ratio_denominator b) / ratio_denominator b)) by (field; auto).
  rewrite Rabs_mult. apply Rmult_le_compat_l; [apply Rabs_pos|].
  unfold Rdiv. rewrite Rabs_mult, Rabs_inv.
  replace (Rabs (b - ratio_denominator b)) with SMALL.
  - apply Rmult_le_compat_l; [lra|]. apply Rinv_le; lra.
  - unfold ratio_denominator. replace (b - (b + sgn b * SMALL)) with (- sgn b * SMALL) by lra.
    destruct (sgn_cases b) as [[H ->]|[H ->]].
    + rewrite Rabs_left; lra.
    + rewrite Rabs_right; lra.
Qed.

Lemma make_positive_ok v : 0 < make_positive v /\ v <= make_positive v /\
   (EPS <= v -> make_positive v = v).
Proof.
  unfold make_positive. pose proof EPS_pos. pose proof (Rmax_l v EPS). pose proof (Rmax_r v EPS).
  repeat split; try lra. intros. apply Rmax_left. lra.
Qed.

Lemma make_bounded_ok v lo hi :
  0 < hi -> lo + EPS <= hi * (1 - EPS) -> lo < make_bounded v lo hi < hi.
Proof.
  intros Hh Hw. unfold make_bounded. pose proof EPS_pos. split.
  - apply Rmin_glb_lt; [|lra]. pose proof (Rmax_r v (lo + EPS)). lra.
  - pose proof (Rmin_r (Rmax v (lo + EPS)) (hi * (1 - EPS))). nra.
Qed.

Lemma make_bounded_id v lo hi :
  lo + EPS <= v -> v <= hi * (1 - EPS) -> make_bounded v lo hi = v.
Proof.
  intros H1 H2. unfold make_bounded. rewrite Rmax_left by lra. rewrite Rmin_left by lra. reflexivity.
Qed.

Lemma make_bounded_mono v w lo hi : v <= w -> make_bounded v lo hi <= make_bounded w lo hi.
Proof.
  intros H. unfold make_bounded. apply Rle_min_compat_r. apply Rle_max_compat_r. exact H.
Qed.

Lemma safe_exp_mid x : min_exp_arg <= x -> x <= max_exp_arg -> safe_arg_exp x = Some (exp x).
Proof.
  intros H1 H2. unfold safe_arg_exp.
  rewrite Rlt_bool_false by exact H1. rewrite Rlt_bool_false by exact H2. reflexivity.
Qed.

Lemma exp_min_arg : exp min_exp_arg = bpow radix2 (-1022).
Proof.
  unfold min_exp_arg. rewrite bpow_exp. f_equal.
  change (IZR (-1022)) with (-1022). change (IZR radix2) with 2. lra.
Qed.

(** option ordering with None = +inf *)
Definition ole (a b : option R) : Prop :=
  match a, b with
  | _, None => True
  | None, Some _ => False
  | Some x, Some y => x <= y
  end.

Lemma safe_exp_mono x y : x <= y -> ole (safe_arg_exp x) (safe_arg_exp y).
Proof.
  intros H. unfold safe_arg_exp.
  destruct (Rlt_bool_spec x min_exp_arg), (Rlt_bool_spec y min_exp_arg),
    (Rlt_bool_spec max_exp_arg x), (Rlt_bool_spec max_exp_arg y); simpl; try lra; auto.
  all: try (match goal with
       | |- 0 <= exp _ => left; apply exp_pos
       | |- exp _ <= exp _ => destruct H; [left; apply exp_increasing; lra|subst; lra]
       end).
Qed.

Lemma safe_exp_low x : x < min_exp_arg ->
  safe_arg_exp x = Some 0 /\ 0 < exp x < bpow radix2 (-1022).
Proof.
  intros H. unfold safe_arg_exp. rewrite Rlt_bool_true by exact H. split; [reflexivity|].
  split; [apply exp_pos|]. rewrite <- exp_min_arg. apply exp_increasing. exact H.
Qed.

Lemma ipow_pos_ok : forall P fuel x, (P <= fuel)%nat -> ipow_pos fuel P x = Some (x ^ P).
Proof.
  induction P as [P IH] using (well_founded_induction lt_wf). intros fuel x Hf.
  destruct P as [|[|P']].
  - destruct fuel; reflexivity.
  - destruct fuel; simpl; rewrite Rmult_1_r; reflexivity.
  - destruct fuel as [|n]; [lia|].
    cbn [ipow_pos]. destruct (Nat.odd (S (S P'))) eqn:Eo.
    + rewrite IH by lia. replace (S (S P') - 1)%nat with (S P') by lia. reflexivity.
    + assert (Hd : (S (S P') = 2 * Nat.div2 (S (S P')))%nat).
      { rewrite (Nat.div2_odd (S (S P'))) at 1. rewrite Eo. simpl Nat.b2n. lia. }
      assert (Nat.div2 (S (S P')) < S (S P'))%nat by lia.
      rewrite IH by lia. rewrite Hd at 3. rewrite <- pow_add. do 2 f_equal. lia.
Qed.

Lemma ipow_ok P x :
  ipow P x = Some (match P with
                   | Zneg p => / x ^ Pos.to_nat p
                   | _ => x ^ Z.to_nat P end).
Proof.
  destruct P; unfold ipow.
  - reflexivity.
  - rewrite ipow_pos_ok by lia. reflexivity.
  - rewrite ipow_pos_ok by lia. unfold Rdiv. rewrite Rmult_1_l. reflexivity.
Qed.
