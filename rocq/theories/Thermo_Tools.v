(** Shared lemmas for the analytic EOS proofs *)
From Coq Require Import Reals Bool Lra Lia.
From Flocq Require Import Core.
From Coquelicot Require Import Coquelicot.
From Verif Require Import Robust_Model Robust_Proofs Thermo_Spec.
Local Open Scope R_scope.

(** magnitudes below [tiny] = 2^-960 are the ones for which robust::ratio is not plain division *)
Definition tiny : R := bpow radix2 (-960).
Global Arguments tiny : simpl never.
Global Arguments SMALL : simpl never.
Lemma tiny_pos : 0 < tiny.
Proof. apply bpow_gt_0. Qed.
Lemma tiny_lt_EPS : tiny < EPS.
Proof.
  unfold tiny, EPS. assert (bpow radix2 (-960) < bpow radix2 (-52)) by (apply bpow_lt; lia). pose proof (bpow_gt_0 radix2 (-52)). lra.
Qed.
Lemma SMALL_lt_tiny : SMALL < tiny.
Proof.
  unfold tiny, SMALL. assert (bpow radix2 (-1022) <= bpow radix2 (-970)) by (apply bpow_le; lia).
  replace (bpow radix2 (-960)) with (1024 * bpow radix2 (-970)). 2: { change 1024 with (bpow radix2 10). rewrite <- bpow_plus. reflexivity. }
  pose proof (bpow_gt_0 radix2 (-970)). lra.
Qed.
Lemma tiny_lt_1 : tiny < 1.
Proof. exact bpow960_lt_1. Qed.
Lemma ratio_pos a b : tiny <= b -> ratio a b = a / b.
Proof. intros H. apply ratio_eq. unfold not_tiny. fold tiny. pose proof tiny_pos. rewrite Rabs_right; lra. Qed.
Lemma ratio_abs a b : tiny <= Rabs b -> ratio a b = a / b.
Proof. intros H. apply ratio_eq. exact H. Qed.

Lemma loc_gt (c x : R) : c < x -> locally x (fun y => c < y).
Proof.
  intros H. exists (mkposreal (x - c) ltac:(lra)). intros y Hy.
  unfold ball in Hy. cbn in Hy. unfold AbsRing_ball, abs, minus, plus, opp in Hy. cbn in Hy. apply Rabs_def2 in Hy. lra.
Qed.
Lemma loc_lt (c x : R) : x < c -> locally x (fun y => y < c).
Proof.
  intros H. exists (mkposreal (c - x) ltac:(lra)). intros y Hy.
  unfold ball in Hy. cbn in Hy. unfold AbsRing_ball, abs, minus, plus, opp in Hy. cbn in Hy. apply Rabs_def2 in Hy. lra.
Qed.
Lemma loc_gt_f (f : R -> R) (c x : R) : continuous f x -> c < f x -> locally x (fun y => c < f y).
Proof. intros HC H. specialize (HC (fun y => c < y) (loc_gt c (f x) H)). exact HC. Qed.
Lemma loc_lt_f (f : R -> R) (c x : R) : continuous f x -> f x < c -> locally x (fun y => f y < c).
Proof. intros HC H. specialize (HC (fun y => y < c) (loc_lt c (f x) H)). exact HC. Qed.
Lemma derive_cont (f : R -> R) (x d : R) : is_derive f x d -> continuous f x.
Proof. intros H. apply (ex_derive_continuous (V := R_NormedModule)). exists d. exact H. Qed.
(** change the function near the point, then compute the derivative *)
Lemma derive_loc (f g : R -> R) (x d : R) : locally x (fun y => g y = f y) -> is_derive g x d -> is_derive f x d.
Proof. intros HL H. apply (is_derive_ext_loc (V := R_NormedModule) g); assumption. Qed.
Lemma loc_and (x : R) (P Q : R -> Prop) : locally x P -> locally x Q -> locally x (fun y => P y /\ Q y).
Proof. apply filter_and. Qed.
Lemma loc_imp (x : R) (P Q : R -> Prop) : (forall y, P y -> Q y) -> locally x P -> locally x Q.
Proof. apply filter_imp. Qed.

Lemma Rmax_r_eq a b : a <= b -> Rmax a b = b.
Proof. apply Rmax_right. Qed.

Lemma plus_small_eq x : tiny <= x -> plus_small x = x.
Proof. intros H. unfold plus_small. rewrite Rle_bool_true; [reflexivity|exact H]. Qed.

(** positivity *)
Ltac pos :=
  first [ assumption | lra
  | match goal with
    | |- 0 < _ * _ => apply Rmult_lt_0_compat; pos
    | |- 0 < _ / _ => apply Rdiv_lt_0_compat; pos
    | |- 0 < / _ => apply Rinv_0_lt_compat; pos
    | |- 0 < exp _ => apply exp_pos
    | |- 0 < _ + _ => apply Rplus_lt_0_compat; pos
    | |- 0 <= _ * _ => apply Rmult_le_pos; pos
    | |- 0 <= _ / _ => apply Rlt_le, Rdiv_lt_0_compat; pos
    | |- 0 <= _ + _ => apply Rplus_le_le_0_compat; pos
    | |- 0 <= _ => apply Rlt_le; pos
    | |- _ > 0 => apply Rlt_gt; pos
    | |- _ >= 0 => apply Rle_ge; pos
    | |- ?a <> 0 => apply Rgt_not_eq; pos
    | |- _ /\ _ => split; pos
    end ].

(** continuity of a function defined by cases on an ordered threshold *)
Lemma cont_glue (f h : R -> R) (c x : R) : continuous f x -> continuous h x -> f c = h c ->
  continuous (fun r => if Rle_bool c r then f r else h r) x.
Proof.
  intros Hf Hh E P HP. change (locally x (fun r => P (if Rle_bool c r then f r else h r))).
  destruct (total_order_T c x) as [[L|L]|L].
  - rewrite Rle_bool_true in HP by lra. pose proof (Hf P HP) as K. change (locally x (fun r => P (f r))) in K.
    generalize (loc_and x _ _ K (loc_gt c x L)). apply loc_imp. intros y (Y1 & Y2). rewrite Rle_bool_true by lra. exact Y1.
  - subst x. rewrite Rle_bool_true in HP by lra. pose proof (Hf P HP) as K1. rewrite E in HP. pose proof (Hh P HP) as K2.
    change (locally c (fun r => P (f r))) in K1. change (locally c (fun r => P (h r))) in K2.
    generalize (loc_and c _ _ K1 K2). apply loc_imp. intros y (Y1 & Y2). destruct (Rle_bool c y); assumption.
  - rewrite Rle_bool_false in HP by lra. pose proof (Hh P HP) as K. change (locally x (fun r => P (h r))) in K.
    generalize (loc_and x _ _ K (loc_lt c x L)). apply loc_imp. intros y (Y1 & Y2). rewrite Rle_bool_false by lra. exact Y1.
Qed.
Lemma cont_loc (f g : R -> R) (x : R) : locally x (fun y => g y = f y) -> continuous g x -> continuous f x.
Proof. intros H Hc. apply (continuous_ext_loc _ g); assumption. Qed.
