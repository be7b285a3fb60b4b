(** Where the Hugoniot denominator 1 - s(eta) is positive, and what eta_root returns *)
From Coq Require Import Reals Bool Lra Lia Psatz.
From Flocq Require Import Core.
From Verif Require Import Arith RootFinding_Model RootFinding_Proofs Robust_Model Robust_Proofs Gruneisen_Model.
Local Open Scope R_scope.

Lemma EPS_pos : 0 < EPS.
Proof. unfold EPS. pose proof (bpow_gt_0 radix2 (-52)). lra. Qed.
Lemma EPS_small : EPS < 1 / 100000000000000.
Proof. unfold EPS. cbn. lra. Qed.
Lemma near_zero_0 : is_near_zero 0 EPS = true.
Proof. unfold is_near_zero. rewrite Rabs_R0. apply Rlt_bool_true, EPS_pos. Qed.
Lemma near_zero_big x : EPS <= Rabs x -> is_near_zero x EPS = false.
Proof. intros H. unfold is_near_zero. apply Rlt_bool_false, H. Qed.

Definition pos_below (s1 s2 s3 u : R) : Prop := forall x, 0 <= x < u -> 0 < poly s1 s2 s3 x.

Section Cubic.
Variables s1 s2 s3 : R.
Notation f := (poly s1 s2 s3).
Notation Q x y := (s1 + s2 * (x + y) + s3 * (x * x + x * y + y * y)).
Lemma f_diff x y : f x - f y = - (x - y) * Q x y.
Proof. unfold poly. ring. Qed.
Lemma f_0 : f 0 = 1.
Proof. unfold poly. ring. Qed.
Lemma f_cont z : continuity_pt f z.
Proof.
  apply derivable_continuous_pt. unfold poly.
  repeat first [apply derivable_pt_minus | apply derivable_pt_mult | apply derivable_pt_const | apply derivable_pt_id | apply derivable_pt_pow].
Qed.
Lemma disc_homog : discriminant3 s1 s2 s3 = -18 * s3 * s2 * s1 * 1 - 4 * (- s2) ^ 3 * 1 + s2 ^ 2 * s1 ^ 2 - 4 * s3 * s1 ^ 3 - 27 * s3 ^ 2 * (1 * 1).
Proof. unfold discriminant3. ring. Qed.
(** a root p and a second (or the same, double) root q make the discriminant non-negative *)
Lemma two_roots_disc p q : s3 <> 0 -> f p = 0 -> Q p q = 0 -> 0 <= discriminant3 s1 s2 s3.
Proof.
  intros Hs Hp HQ. set (r := - s2 / s3 - p - q).
  assert (E2 : s2 = - s3 * (p + q + r)) by (unfold r; field; exact Hs).
  assert (E1 : s1 = s3 * (p * q + r * (p + q))). { rewrite E2 in HQ. lra. }
  assert (E0 : s3 * (p * q * r) = 1). { unfold poly in Hp. rewrite E1, E2 in Hp. lra. }
  assert (E : discriminant3 s1 s2 s3 = (s3 ^ 2 * ((p - q) * (p - r) * (q - r))) ^ 2).
  { rewrite disc_homog. rewrite <- E0, E1, E2. ring. }
  rewrite E. apply pow2_ge_0.
Qed.
Lemma Q_of_roots p q : p <> q -> f p = 0 -> f q = 0 -> Q p q = 0.
Proof.
  intros Hn Hp Hq. pose proof (f_diff p q) as H. rewrite Hp, Hq in H.
  assert (H' : (p - q) * Q p q = 0) by lra. apply Rmult_integral in H'. destruct H'; [exfalso; apply Hn; lra|assumption].
Qed.
(** extrema *)
Section Ext.
Hypothesis Hs : s3 <> 0.
Hypothesis HD : 0 <= discriminant3 s1 s2 s3.
Lemma quarter_disc : 0 <= s2 ^ 2 - 3 * s3 * s1.
Proof.
  assert (E : 27 * s3 ^ 2 * discriminant3 s1 s2 s3 = 4 * (s2 ^ 2 - 3 * s3 * s1) ^ 3 - (2 * (- s2) ^ 3 - 9 * (s3 * s2 * - s1) + 27 * s3 ^ 2) ^ 2).
  { unfold discriminant3. ring. }
  apply Rnot_lt_le. intros C. set (D := s2 ^ 2 - 3 * s3 * s1) in *.
  assert (H1 : 0 <= 27 * s3 ^ 2 * discriminant3 s1 s2 s3). { apply Rmult_le_pos; [|exact HD]. pose proof (pow2_ge_0 s3). lra. }
  assert (H2 : D ^ 3 < 0). { replace (D ^ 3) with (- ((- D) ^ 3)) by ring. assert (0 < (- D) ^ 3) by (apply pow_lt; lra). lra. }
  match type of E with _ = _ - ?z ^ 2 => pose proof (pow2_ge_0 z) end. lra.
Qed.
Definition e1 := (s2 + sqrt (s2 ^ 2 - 3 * s3 * s1)) / (-3 * s3).
Definition e2 := (s2 - sqrt (s2 ^ 2 - 3 * s3 * s1)) / (-3 * s3).
Lemma sq : sqrt (s2 ^ 2 - 3 * s3 * s1) * sqrt (s2 ^ 2 - 3 * s3 * s1) = s2 ^ 2 - 3 * s3 * s1.
Proof. apply sqrt_sqrt, quarter_disc. Qed.
Lemma e_sum : s2 = - (3 / 2) * s3 * (e1 + e2).
Proof. unfold e1, e2. field. exact Hs. Qed.
Lemma e_prod : s1 = 3 * s3 * (e1 * e2).
Proof.
  unfold e1, e2. pose proof sq as H. set (q := sqrt _) in *.
  replace (3 * s3 * ((s2 + q) / (-3 * s3) * ((s2 - q) / (-3 * s3)))) with ((s2 * s2 - q * q) / (3 * s3)) by (field; exact Hs).
  rewrite H. field. exact Hs.
Qed.
Definition em := Rmin e1 e2.
Definition eM := Rmax e1 e2.
Lemma em_le : em <= eM.
Proof. unfold em, eM. apply Rle_trans with e1; [apply Rmin_l|apply Rmax_l]. Qed.
Lemma m_sum : s2 = - (3 / 2) * s3 * (em + eM).
Proof. rewrite e_sum at 1. f_equal. unfold em, eM, Rmin, Rmax. destruct (Rle_dec e1 e2); ring. Qed.
Lemma m_prod : s1 = 3 * s3 * (em * eM).
Proof. rewrite e_prod at 1. f_equal. unfold em, eM, Rmin, Rmax. destruct (Rle_dec e1 e2); ring. Qed.
(** Simpson's rule for the derivative 3 s3 (t-m)(t-M) *)
Lemma Q_simpson x y : Q x y = s3 * (/ 2 * ((x - em) * (x - eM) + (y - em) * (y - eM)) + 2 * (((x + y) / 2 - em) * ((x + y) / 2 - eM))).
Proof. rewrite m_prod at 1. rewrite m_sum at 1. field. Qed.
Lemma disc_extrema : discriminant3 s1 s2 s3 = -27 * s3 ^ 2 * (f em * f eM).
Proof.
  pose proof m_sum as H2. pose proof m_prod as H1. generalize dependent eM. generalize dependent em. intros m M H2 H1.
  unfold discriminant3, poly. rewrite H1, H2. field.
Qed.
Lemma prod_le0 : f em * f eM <= 0.
Proof.
  pose proof disc_extrema as E. rewrite E in HD. assert (0 < s3 ^ 2) by (rewrite <- Rsqr_pow2; apply Rsqr_pos_lt; exact Hs).
  apply Rnot_lt_le. intros C. assert (0 < s3 ^ 2 * (f em * f eM)) by (apply Rmult_lt_0_compat; assumption). lra.
Qed.
(** sign of the mean slope between two abscissae *)
Lemma S_mid x y : em <= x -> x < y -> y <= eM -> / 2 * ((x - em) * (x - eM) + (y - em) * (y - eM)) + 2 * (((x + y) / 2 - em) * ((x + y) / 2 - eM)) < 0.
Proof.
  intros. set (m := em) in *. set (M := eM) in *. assert ((x - m) * (x - M) <= 0) by nra. assert ((y - m) * (y - M) <= 0) by nra.
  assert (0 < ((x + y) / 2 - m) * (M - (x + y) / 2)) by (apply Rmult_lt_0_compat; lra). lra.
Qed.
Lemma S_hi x y : eM <= x -> x < y -> 0 < / 2 * ((x - em) * (x - eM) + (y - em) * (y - eM)) + 2 * (((x + y) / 2 - em) * ((x + y) / 2 - eM)).
Proof.
  intros. pose proof em_le. set (m := em) in *. set (M := eM) in *. assert (0 <= (x - m) * (x - M)) by (apply Rmult_le_pos; lra). assert (0 <= (y - m) * (y - M)) by (apply Rmult_le_pos; lra).
  assert (0 < ((x + y) / 2 - m) * ((x + y) / 2 - M)) by (apply Rmult_lt_0_compat; lra). lra.
Qed.
Lemma S_lo x y : x < y -> y <= em -> 0 < / 2 * ((x - em) * (x - eM) + (y - em) * (y - eM)) + 2 * (((x + y) / 2 - em) * ((x + y) / 2 - eM)).
Proof.
  intros. pose proof em_le. set (m := em) in *. set (M := eM) in *. assert (0 <= (m - x) * (M - x)) by (apply Rmult_le_pos; lra). assert (0 <= (m - y) * (M - y)) by (apply Rmult_le_pos; lra).
  assert (0 < (m - (x + y) / 2) * (M - (x + y) / 2)) by (apply Rmult_lt_0_compat; lra). lra.
Qed.
Lemma f_decr x y S : x < y -> Q x y = s3 * S -> 0 < s3 * S -> f y < f x.
Proof. intros Hxy E H. pose proof (f_diff x y) as D. rewrite E in D. assert (0 < (y - x) * (s3 * S)) by (apply Rmult_lt_0_compat; lra). lra. Qed.
Lemma f_incr x y S : x < y -> Q x y = s3 * S -> s3 * S < 0 -> f x < f y.
Proof. intros Hxy E H. pose proof (f_diff x y) as D. rewrite E in D. assert (0 < (y - x) * (- (s3 * S))) by (apply Rmult_lt_0_compat; lra). lra. Qed.
Lemma mid_neg x y : s3 < 0 -> em <= x -> x < y -> y <= eM -> f y < f x.
Proof. intros. apply (f_decr x y _ ltac:(assumption) (Q_simpson x y)). pose proof (S_mid x y). nra. Qed.
Lemma hi_neg x y : s3 < 0 -> eM <= x -> x < y -> f x < f y.
Proof. intros. apply (f_incr x y _ ltac:(assumption) (Q_simpson x y)). pose proof (S_hi x y). nra. Qed.
Lemma lo_neg x y : s3 < 0 -> x < y -> y <= em -> f x < f y.
Proof. intros. apply (f_incr x y _ ltac:(assumption) (Q_simpson x y)). pose proof (S_lo x y). nra. Qed.
Lemma mid_pos x y : 0 < s3 -> em <= x -> x < y -> y <= eM -> f x < f y.
Proof. intros. apply (f_incr x y _ ltac:(assumption) (Q_simpson x y)). pose proof (S_mid x y). nra. Qed.
Lemma hi_pos x y : 0 < s3 -> eM <= x -> x < y -> f y < f x.
Proof. intros. apply (f_decr x y _ ltac:(assumption) (Q_simpson x y)). pose proof (S_hi x y). nra. Qed.
Lemma lo_pos x y : 0 < s3 -> x < y -> y <= em -> f y < f x.
Proof. intros. apply (f_decr x y _ ltac:(assumption) (Q_simpson x y)). pose proof (S_lo x y). nra. Qed.
(** s3 > 0: the local minimum is <= 0 *)
Lemma min_le0 : 0 < s3 -> f em <= 0.
Proof.
  intros H. pose proof em_le as [L|L].
  - pose proof (mid_pos em eM H (Rle_refl _) L (Rle_refl _)). pose proof prod_le0. nra.
  - pose proof prod_le0 as P. rewrite <- L in P. nra.
Qed.
(** bounds of the search *)
Lemma bounds_neg : s3 < 0 -> cubic_bounds s1 s2 s3 = (Rmax em 0, Rmin (Rmax eM (Rmax em 0)) 1).
Proof. intros H. unfold cubic_bounds. rewrite Rle_bool_true by exact HD. rewrite Rlt_bool_true by exact H. reflexivity. Qed.
Lemma bounds_pos : 0 < s3 -> cubic_bounds s1 s2 s3 = (0, if Rlt_bool 0 em then Rmin em 1 else 1).
Proof.
  intros H. unfold cubic_bounds. rewrite Rle_bool_true by exact HD. rewrite Rlt_bool_false by lra. fold e1 e2. fold em.
  destruct (Rlt_bool 0 em); reflexivity.
Qed.
End Ext.
Lemma bounds_one : discriminant3 s1 s2 s3 < 0 -> cubic_bounds s1 s2 s3 = (0, 1).
Proof. intros H. unfold cubic_bounds. rewrite Rle_bool_false by exact H. reflexivity. Qed.

(** a sign change above u, and nothing else known: below u the polynomial is positive *)
Lemma ivt_root x : 0 <= x -> f x <= 0 -> exists p, 0 < p <= x /\ f p = 0.
Proof.
  intros Hx Hf. destruct (sign_change_root f 0 x Hx) as (p & Hp & E); [intros; apply f_cont| |].
  - unfold sign_change. rewrite f_0. lra.
  - exists p. split; [|exact E]. assert (p <> 0) by (intros ->; rewrite f_0 in E; lra). lra.
Qed.
Lemma below_single u v : s3 <> 0 -> discriminant3 s1 s2 s3 < 0 -> u <= v -> f u * f v <= 0 -> pos_below s1 s2 s3 u.
Proof.
  intros Hs HD Huv Hsc x Hx. apply Rnot_le_lt. intros C. destruct (ivt_root x ltac:(lra) C) as (p & Hp & Ep).
  destruct (sign_change_root f u v Huv) as (r & Hr & Er); [intros; apply f_cont|exact Hsc|].
  pose proof (two_roots_disc p r Hs Ep (Q_of_roots p r ltac:(lra) Ep Er)). lra.
Qed.
(** discriminant < 0 and f(1) >= 0: positive on [0,1) *)
Lemma all_single : s3 <> 0 -> discriminant3 s1 s2 s3 < 0 -> 0 <= f 1 -> pos_below s1 s2 s3 1.
Proof.
  intros Hs HD H1 x Hx. apply Rnot_le_lt. intros C. destruct C as [C|C].
  - destruct (ivt_root x ltac:(lra) ltac:(lra)) as (p & Hp & Ep).
    destruct (sign_change_root f x 1 ltac:(lra)) as (r & Hr & Er); [intros; apply f_cont|unfold sign_change; nra|].
    assert (p <> r). { intros ->. assert (r = x) by lra. subst r. lra. }
    pose proof (two_roots_disc p r Hs Ep (Q_of_roots p r ltac:(lra) Ep Er)). lra.
  - (* double root at x, or another root *)
    destruct (Req_dec (Q x x) 0) as [Z|Z].
    + pose proof (two_roots_disc x x Hs C Z). lra.
    + (* f changes sign at x *)
      assert (K : exists y, 0 < y < 1 /\ f y < 0).
      { assert (Hx0 : 0 < x). { destruct (Req_dec x 0) as [E|E]; [subst; rewrite f_0 in C; lra|lra]. }
        set (K := Rabs s2 + 4 * Rabs s3 + 1). assert (HK : 0 < K) by (unfold K; pose proof (Rabs_pos s2); pose proof (Rabs_pos s3); lra).
        set (d := Rmin (Rmin (x / 2) ((1 - x) / 2)) (Rabs (Q x x) / (2 * K))).
        assert (Hd : 0 < d). { unfold d. repeat apply Rmin_pos; try lra. apply Rdiv_lt_0_compat; [apply Rabs_pos_lt; exact Z|lra]. }
        assert (D1 : d <= x / 2) by (unfold d; eapply Rle_trans; [apply Rmin_l|apply Rmin_l]).
        assert (D2 : d <= (1 - x) / 2) by (unfold d; eapply Rle_trans; [apply Rmin_l|apply Rmin_r]).
        assert (D3 : d * (2 * K) <= Rabs (Q x x)).
        { assert (d <= Rabs (Q x x) / (2 * K)) by apply Rmin_r. apply Rmult_le_compat_r with (r := 2 * K) in H; [|lra].
          replace (Rabs (Q x x) / (2 * K) * (2 * K)) with (Rabs (Q x x)) in H by (field; lra). exact H. }
        assert (A2 := Rle_abs s2). assert (A2' := Rle_abs (- s2)). assert (A3 := Rle_abs s3). assert (A3' := Rle_abs (- s3)). rewrite Rabs_Ropp in A2', A3'.
        assert (QB : forall h, Rabs h = d -> Rabs (Q (x + h) x - Q x x) < Rabs (Q x x)).
        { intros h Hh. replace (Q (x + h) x - Q x x) with (h * (s2 + s3 * (3 * x + h))) by ring. rewrite Rabs_mult, Hh.
          assert (Bh : Rabs h <= 1) by lra.
          assert (H3 : Rabs (s2 + s3 * (3 * x + h)) <= K).
          { eapply Rle_trans; [apply Rabs_triang|]. rewrite Rabs_mult. unfold K.
            assert (Rabs (3 * x + h) <= 4). { eapply Rle_trans; [apply Rabs_triang|]. rewrite (Rabs_right (3 * x)) by lra. lra. }
            assert (Rabs s3 * Rabs (3 * x + h) <= Rabs s3 * 4) by (apply Rmult_le_compat_l; [apply Rabs_pos|assumption]). lra. }
          assert (d * Rabs (s2 + s3 * (3 * x + h)) <= d * K) by (apply Rmult_le_compat_l; lra).
          assert (0 < Rabs (Q x x)) by (apply Rabs_pos_lt; exact Z). lra. }
        destruct (Rlt_dec 0 (Q x x)) as [P|P].
        - (* decreasing through x: negative to the right *)
          exists (x + d). split; [lra|]. pose proof (f_diff (x + d) x) as F. rewrite C in F.
          specialize (QB d ltac:(apply Rabs_right; lra)). rewrite (Rabs_right (Q x x)) in QB by lra. apply Rabs_def2 in QB.
          assert (0 < d * Q (x + d) x) by (apply Rmult_lt_0_compat; lra). lra.
        - exists (x - d). split; [lra|]. pose proof (f_diff (x - d) x) as F. rewrite C in F.
          specialize (QB (- d) ltac:(rewrite Rabs_Ropp; apply Rabs_right; lra)). rewrite (Rabs_left (Q x x)) in QB by lra. apply Rabs_def2 in QB.
          replace (x + - d) with (x - d) in QB by ring.
          assert (0 < d * - Q (x - d) x) by (apply Rmult_lt_0_compat; lra). lra. }
      destruct K as (y & Hy & Fy). destruct (ivt_root y ltac:(lra) ltac:(lra)) as (p & Hp & Ep).
      destruct (sign_change_root f y 1 ltac:(lra)) as (r & Hr & Er); [intros; apply f_cont|unfold sign_change; nra|].
      assert (p <> r). { intros ->. assert (r = y) by lra. subst r. lra. }
      pose proof (two_roots_disc p r Hs Ep (Q_of_roots p r ltac:(lra) Ep Er)). lra.
Qed.
End Cubic.

(** the tested quantity of the search never changes sign before u *)
Section Search.
Variables s1 s2 s3 : R.
Notation f := (poly s1 s2 s3).
Hypothesis Hs : s3 <> 0.
Hypothesis Hsum : Rabs s1 + Rabs s2 + Rabs s3 <= 900.
Lemma f_guess x : 0 <= x <= 1 / 1000 -> 0 < f x.
Proof.
  intros Hx. unfold poly. assert (A1 := Rle_abs s1). assert (A2 := Rle_abs s2). assert (A3 := Rle_abs s3).
  assert (B1 := Rabs_pos s1). assert (B2 := Rabs_pos s2). assert (B3 := Rabs_pos s3).
  assert (x ^ 2 <= 1 / 1000) by (cbn; nra). assert (x ^ 3 <= 1 / 1000) by (cbn; assert (x * x <= 1) by nra; nra).
  assert (0 <= x ^ 2) by (apply pow_le; lra). assert (0 <= x ^ 3) by (apply pow_le; lra).
  assert (s1 * x <= Rabs s1 * (1 / 1000)). { apply Rle_trans with (Rabs s1 * x); [apply Rmult_le_compat_r; lra|apply Rmult_le_compat_l; lra]. }
  assert (s2 * x ^ 2 <= Rabs s2 * (1 / 1000)). { apply Rle_trans with (Rabs s2 * x ^ 2); [apply Rmult_le_compat_r; lra|apply Rmult_le_compat_l; lra]. }
  assert (s3 * x ^ 3 <= Rabs s3 * (1 / 1000)). { apply Rle_trans with (Rabs s3 * x ^ 3); [apply Rmult_le_compat_r; lra|apply Rmult_le_compat_l; lra]. }
  lra.
Qed.
(** properties of the search interval (a,c) *)
Lemma bounds_spec : let (a, c) := cubic_bounds s1 s2 s3 in
  0 <= a /\ 0 <= c <= 1 /\ (forall x, 0 <= x <= a -> x <= 1 -> 0 < f x) /\ 1 <= f a /\
  (a < c \/ 1 <= f c) /\
  (forall u v, 0 <= u -> u <= v -> v <= c -> f u * f v <= 0 -> pos_below s1 s2 s3 u) /\
  (0 <= f c -> Rabs (f c) < EPS -> pos_below s1 s2 s3 c) /\
  (EPS <= f c -> pos_below s1 s2 s3 1).
Proof.
  pose proof EPS_pos as HE. pose proof EPS_small as HE2.
  destruct (Rlt_dec (discriminant3 s1 s2 s3) 0) as [HD|HD].
  - rewrite bounds_one by exact HD. pose proof (f_0 s1 s2 s3). refine (conj _ (conj _ (conj _ (conj _ (conj _ (conj _ (conj _ _))))))); try lra.
    + intros x Hx _. replace x with 0 by lra. lra.
    + intros u v H0 H1 H2 H3. exact (below_single s1 s2 s3 u v Hs HD H1 H3).
    + intros H0 _. exact (all_single s1 s2 s3 Hs HD H0).
    + intros H0. apply (all_single s1 s2 s3 Hs HD). lra.
  - assert (HD' : 0 <= discriminant3 s1 s2 s3) by lra. clear HD. rename HD' into HD.
    pose proof (f_0 s1 s2 s3) as F0.
    destruct (Rlt_dec s3 0) as [Hn|Hp].
    + rewrite (bounds_neg s1 s2 s3 HD Hn).
      pose proof (mid_neg s1 s2 s3 Hs HD) as MN. pose proof (hi_neg s1 s2 s3 Hs HD) as HN. pose proof (lo_neg s1 s2 s3 Hs HD) as LN.
      pose proof (em_le s1 s2 s3) as ML.
      set (m := em s1 s2 s3) in *. set (M := eM s1 s2 s3) in *. set (a := Rmax m 0). set (c := Rmin (Rmax M a) 1).
      assert (Ha : 0 <= a) by apply Rmax_r. assert (Hma : m <= a) by apply Rmax_l.
      assert (Aam : a = 0 \/ (a = m /\ 0 < m)). { unfold a, Rmax. destruct (Rle_dec m 0); lra. }
      assert (Hc : 0 <= c <= 1). { unfold c. split; [apply Rmin_glb; [apply Rle_trans with a; [exact Ha|apply Rmax_r]|lra]|apply Rmin_r]. }
      assert (Fa : forall x, 0 <= x <= a -> 1 <= f x).
      { intros x Hx. destruct Aam as [E|[E Hm]]; [replace x with 0 by lra; lra|].
        destruct (Req_dec x 0) as [Z|Z]; [subst x; lra|]. assert (f 0 < f x) by (apply LN; lra). lra. }
      assert (HcM : c <= Rmax M a) by apply Rmin_l.
      (* on [a,c]: either c <= M or c <= a *)
      assert (CM : c <= M \/ c <= a). { unfold Rmax in HcM. destruct (Rle_dec M a); lra. }
      refine (conj Ha (conj Hc (conj _ (conj _ (conj _ (conj _ (conj _ _))))))).
      * intros x Hx _. specialize (Fa x Hx). lra.
      * apply Fa. lra.
      * destruct (Rlt_dec a c); [left; assumption|right]. apply Fa. lra.
      * intros u v H0 H1 H2 H3 x Hx. apply Rnot_le_lt. intros C.
        assert (a < x). { apply Rnot_le_lt. intros C'. specialize (Fa x ltac:(lra)). lra. }
        assert (c <= M) by lra.
        assert (f u < f x) by (apply MN; lra). assert (f v <= f u). { destruct H1 as [H1|H1]; [apply Rlt_le, MN; lra|subst; lra]. } nra.
      * intros H0 _ x Hx. destruct (Rle_dec x a) as [L|L]; [specialize (Fa x ltac:(lra)); lra|].
        assert (f c < f x) by (apply MN; lra). lra.
      * intros H0 x Hx. destruct (Rle_dec x a) as [L|L]; [specialize (Fa x ltac:(lra)); lra|].
        destruct (Rle_dec x c) as [L2|L2].
        { destruct (Req_dec x c) as [E|E]; [subst; lra|]. assert (f c < f x) by (apply MN; lra). lra. }
        assert (Ec : c = Rmax M a). { unfold c, Rmin. destruct (Rle_dec (Rmax M a) 1) as [?|N]; [reflexivity|]. exfalso. unfold c, Rmin in L2. destruct (Rle_dec (Rmax M a) 1); lra. }
        assert (MC : M <= c) by (rewrite Ec; apply Rmax_l). assert (f c < f x) by (apply HN; lra). lra.
    + assert (Hp' : 0 < s3). { destruct (Rtotal_order s3 0) as [?|[?|?]]; [contradiction|contradiction|assumption]. } clear Hp. rename Hp' into Hp.
      rewrite (bounds_pos s1 s2 s3 Hs HD Hp).
      pose proof (mid_pos s1 s2 s3 Hs HD) as MN. pose proof (hi_pos s1 s2 s3 Hs HD) as HN. pose proof (lo_pos s1 s2 s3 Hs HD) as LN.
      pose proof (em_le s1 s2 s3) as ML. pose proof (min_le0 s1 s2 s3 Hs HD Hp) as MIN.
      set (m := em s1 s2 s3) in *. set (M := eM s1 s2 s3) in *.
      destruct (Rlt_bool_spec 0 m) as [Hm|Hm].
      * set (c := Rmin m 1). assert (Hc : 0 < c <= 1) by (split; [apply Rmin_glb_lt; lra|apply Rmin_r]). assert (Hcm : c <= m) by apply Rmin_l.
        refine (conj (Rle_refl 0) (conj _ (conj _ (conj _ (conj _ (conj _ (conj _ _))))))); try lra.
        -- intros x Hx _. replace x with 0 by lra. lra.
        -- intros u v H0 H1 H2 H3 x Hx. apply Rnot_le_lt. intros C. assert (f u < f x) by (apply LN; lra).
           assert (f v <= f u). { destruct H1 as [H1|H1]; [apply Rlt_le, LN; lra|subst; lra]. } nra.
        -- intros H0 _ x Hx. assert (f c < f x) by (apply LN; lra). lra.
        -- intros H0 x Hx. assert (Ec : c = 1). { unfold c, Rmin in *. destruct (Rle_dec m 1); [exfalso; lra|reflexivity]. }
           rewrite Ec in *. assert (f 1 < f x) by (apply LN; lra). lra.
      * assert (UP : forall x, 0 <= x <= M -> 1 <= f x).
        { intros x Hx. destruct (Req_dec x 0) as [Z|Z]; [subst x; lra|]. assert (f 0 < f x) by (apply MN; lra). lra. }
        refine (conj (Rle_refl 0) (conj _ (conj _ (conj _ (conj _ (conj _ (conj _ _))))))); try lra.
        -- intros x Hx _. replace x with 0 by lra. lra.
        -- intros u v H0 H1 H2 H3 x Hx. apply Rnot_le_lt. intros C.
           assert (M < x). { apply Rnot_le_lt. intros C'. specialize (UP x ltac:(lra)). lra. }
           assert (f u < f x) by (apply HN; lra). assert (f v <= f u). { destruct H1 as [H1|H1]; [apply Rlt_le, HN; lra|subst; lra]. } nra.
        -- intros H0 _ x Hx. destruct (Rle_dec x M) as [L|L]; [specialize (UP x ltac:(lra)); lra|]. assert (f 1 < f x) by (apply HN; lra). lra.
        -- intros H0 x Hx. destruct (Rle_dec x M) as [L|L]; [specialize (UP x ltac:(lra)); lra|]. assert (f 1 < f x) by (apply HN; lra). lra.
Qed.
Definition rf_exit (xtol ytol u v : R) : Prop :=
  v - u <= 2 * xtol \/ Rmin (Rabs (f u)) (Rabs (f v)) <= ytol.
Lemma eta_root_cubic root : EPS <= Rabs s3 -> eta_root s1 s2 s3 = Some root ->
  (~ 0 < root < 1 -> pos_below s1 s2 s3 1) /\
  (0 < root < 1 -> exists u v, 0 <= u <= v /\ v <= 1 /\ root = (u + v) / 2 /\ pos_below s1 s2 s3 u /\
     (f u * f v <= 0 \/ Rabs (f root) < EPS) /\ rf_exit (100 * EPS) (10 * EPS) u v).
Proof.
  intros H3. unfold eta_root. rewrite (near_zero_big s3 H3). cbn [negb]. rewrite !andb_false_r. cbn [andb].
  pose proof bounds_spec as BS. destruct (cubic_bounds s1 s2 s3) as [a c]. destruct BS as (Ha & Hc & Fa & Fa1 & Hac & Hbr & Hnz & Hpos).
  pose proof EPS_pos as HE. pose proof EPS_small as HE2.
  destruct (Rlt_bool_spec (f a * f c) 0) as [HP|HP].
  - assert (Fc : f c < 0) by nra.
    assert (Hac' : a < c) by lra.
    assert (Gc : 1 / 1000 < c). { apply Rnot_le_lt. intros C. pose proof (f_guess c ltac:(lra)). lra. }
    pose proof (f_guess (1 / 1000) ltac:(lra)) as Fg.
    assert (HQ : @rf_bracket RArith (fun z => f z - 0) (1 / 1000) a c = Some (1 / 1000, c, f (1 / 1000) - 0, f c - 0)).
    { unfold rf_bracket, check_bracket, lit; cbn [leb mul ofQ RArith].
      rewrite Rle_bool_false by nra. rewrite Rle_bool_true by nra. reflexivity. }
    destruct (@regula_falsi RArith f 0 (1 / 1000) a c (100 * EPS) (10 * EPS)) as [|st x n] eqn:ER; [discriminate|].
    destruct st; [|discriminate]. destruct x as [x|]; [|discriminate]. intros E. injection E as <-.
    destruct (rf_from_bracket f 0 (1 / 1000) a c (1 / 1000) c (1 / 1000) c (100 * EPS) (10 * EPS) x n ltac:(lra) ltac:(lra) HQ
      ltac:(lra) ltac:(lra) ltac:(lra) ltac:(nra) ER) as (u & v & U1 & U2 & U3 & U4 & U5 & U6).
    unfold sign_change in U5. rewrite !Rminus_0_r in U5. rewrite !Rminus_0_r in U6.
    assert (Hx1 : x < 1). { apply Rnot_le_lt. intros C. assert (u = c) by lra. assert (v = c) by lra. subst u v. nra. }
    split; [intros C; exfalso; apply C; lra|]. intros _. exists u, v. refine (conj _ (conj _ (conj U4 (conj _ (conj (or_introl U5) U6))))); try lra.
    apply (Hbr u v); lra.
  - assert (Fc : 0 <= f c) by nra.
    unfold is_near_zero at 1. rewrite Rlt_bool_false by (rewrite Rabs_right by lra; lra).
    unfold is_near_zero. destruct (Rlt_bool_spec (Rabs (f c)) EPS) as [L|L]; intros E; injection E as <-.
    + specialize (Hnz Fc L). split.
      * intros C x Hx. destruct (Rle_dec c 0) as [C0|C0]; [replace c with 0 in Hnz, Fc, L by lra; exfalso; rewrite (f_0 s1 s2 s3) in L; rewrite Rabs_R1 in L; lra|].
        apply Hnz. lra.
      * intros _. exists c, c. refine (conj _ (conj _ (conj _ (conj Hnz (conj (or_intror L) _))))); try lra. left. lra.
    + split; [|lra]. intros _. apply Hpos. rewrite Rabs_right in L by lra. exact L.
Qed.
End Search.

(** linear and quadratic *)
Lemma eta_root_linear s1 root : eta_root s1 0 0 = Some root ->
  (~ 0 < root < 1 -> pos_below s1 0 0 1) /\ (0 < root < 1 -> pos_below s1 0 0 root /\ poly s1 0 0 root = 0).
Proof.
  unfold eta_root. rewrite near_zero_0. cbn [negb andb].
  assert (E0 : forall x, poly s1 0 0 x = 1 - s1 * x) by (intros; unfold poly; ring).
  destruct (Rlt_bool_spec 1 s1) as [H|H]; intros E; injection E as <-.
  - assert (0 < 1 / s1 < 1). { split; [apply Rdiv_lt_0_compat; lra|]. apply Rmult_lt_reg_r with s1; [lra|]. replace (1 / s1 * s1) with 1 by (field; lra). lra. }
    split; [tauto|]. intros _. split.
    + intros x Hx. rewrite E0. assert (s1 * x < s1 * (1 / s1)) by (apply Rmult_lt_compat_l; lra). replace (s1 * (1 / s1)) with 1 in H1 by (field; lra). lra.
    + rewrite E0. field. lra.
  - split; [|lra]. intros _ x Hx. rewrite E0. nra.
Qed.
Lemma eta_root_quadratic s1 s2 root : EPS <= Rabs s2 -> eta_root s1 s2 0 = Some root ->
  (~ 0 < root < 1 -> pos_below s1 s2 0 1) /\ (0 < root < 1 -> pos_below s1 s2 0 root /\ poly s1 s2 0 root = 0).
Proof.
  intros H2. unfold eta_root. rewrite (near_zero_big s2 H2), near_zero_0. cbn [negb andb].
  assert (Hn : s2 <> 0). { intros ->. rewrite Rabs_R0 in H2. pose proof EPS_pos. lra. }
  assert (E0 : forall x, poly s1 s2 0 x = 1 - s1 * x - s2 * x * x) by (intros; unfold poly; ring).
  destruct (Rlt_bool_spec (s1 ^ 2 + 4 * s2) 0) as [HD|HD].
  - intros E; injection E as <-. split; [|lra]. intros _ x Hx. rewrite E0.
    assert (s2 < 0). { pose proof (pow2_ge_0 s1). lra. }
    assert (0 <= (2 * s2 * x + s1) * (2 * s2 * x + s1)) by apply Rle_0_sqr. nra.
  - set (D := s1 ^ 2 + 4 * s2) in *. pose proof (sqrt_pos D) as HQ. pose proof (sqrt_sqrt D HD) as HQ2. set (q := sqrt D) in *.
    set (r1 := (s1 + q) / (-2 * s2)). set (r2 := (s1 - q) / (-2 * s2)).
    assert (Sum : s1 = - s2 * (r1 + r2)) by (unfold r1, r2; field; exact Hn).
    assert (Prod : s2 * (r1 * r2) = - (1)).
    { unfold r1, r2. replace (s2 * ((s1 + q) / (-2 * s2) * ((s1 - q) / (-2 * s2)))) with ((s1 * s1 - q * q) / (4 * s2)) by (field; exact Hn).
      rewrite HQ2. unfold D. field. exact Hn. }
    set (m := Rmin r1 r2). set (M := Rmax r1 r2).
    assert (HmM : m <= M) by (unfold m, M; apply Rle_trans with r1; [apply Rmin_l|apply Rmax_l]).
    assert (F : forall x, poly s1 s2 0 x = - s2 * ((x - m) * (x - M))).
    { intros x. rewrite E0. replace ((x - m) * (x - M)) with ((x - r1) * (x - r2)) by (unfold m, M, Rmin, Rmax; destruct (Rle_dec r1 r2); ring).
      rewrite Sum. replace 1 with (- (s2 * (r1 * r2))) at 1 by lra. ring. }
    assert (Prod' : s2 * (m * M) = - (1)). { rewrite <- Prod. f_equal. unfold m, M, Rmin, Rmax; destruct (Rle_dec r1 r2); ring. }
    unfold find_min_bounded_val. fold m M.
    assert (P1 : 0 < m < 1 -> pos_below s1 s2 0 m).
    { intros Hm x Hx. rewrite F. assert (s2 < 0). { destruct (Rtotal_order s2 0) as [?|[?|?]]; [assumption|contradiction|]. exfalso.
        assert (0 < s2 * (m * M)) by (apply Rmult_lt_0_compat; [lra|apply Rmult_lt_0_compat; lra]). lra. }
      assert (0 < (m - x) * (M - x)) by (apply Rmult_lt_0_compat; lra). assert (0 < - s2 * ((m - x) * (M - x))) by (apply Rmult_lt_0_compat; lra). lra. }
    assert (P2 : m <= 0 -> 0 < M -> pos_below s1 s2 0 M).
    { intros Hm HM x Hx. rewrite F. assert (m <> 0) by (intros Z; rewrite Z in Prod'; lra).
      assert (0 < s2). { destruct (Rtotal_order s2 0) as [?|[?|?]]; [|contradiction|assumption]. exfalso.
        assert (0 < (- s2) * ((- m) * M)) by (apply Rmult_lt_0_compat; [lra|apply Rmult_lt_0_compat; lra]). lra. }
      assert (0 < (x - m) * (M - x)) by (apply Rmult_lt_0_compat; lra). assert (0 < s2 * ((x - m) * (M - x))) by (apply Rmult_lt_0_compat; lra). lra. }
    assert (P3 : 1 <= m -> pos_below s1 s2 0 1).
    { intros Hm x Hx. rewrite F. assert (s2 < 0). { destruct (Rtotal_order s2 0) as [?|[?|?]]; [assumption|contradiction|]. exfalso.
        assert (0 < s2 * (m * M)) by (apply Rmult_lt_0_compat; [lra|apply Rmult_lt_0_compat; lra]). lra. }
      assert (0 < (m - x) * (M - x)) by (apply Rmult_lt_0_compat; lra). assert (0 < - s2 * ((m - x) * (M - x))) by (apply Rmult_lt_0_compat; lra). lra. }
    assert (P4 : M <= 0 -> pos_below s1 s2 0 1).
    { intros HM x Hx. rewrite F. assert (m <> 0) by (intros Z; rewrite Z in Prod'; lra). assert (M <> 0) by (intros Z; rewrite Z in Prod'; lra).
      assert (s2 < 0). { destruct (Rtotal_order s2 0) as [?|[?|?]]; [assumption|contradiction|]. exfalso.
        assert (0 < s2 * ((- m) * (- M))) by (apply Rmult_lt_0_compat; [lra|apply Rmult_lt_0_compat; lra]). lra. }
      assert (0 < (x - m) * (x - M)) by (apply Rmult_lt_0_compat; lra). assert (0 < - s2 * ((x - m) * (x - M))) by (apply Rmult_lt_0_compat; lra). lra. }
    destruct (Rlt_bool_spec 0 m) as [A|A]; destruct (Rlt_bool_spec m 1) as [B|B]; cbn [andb].
    + intros E; injection E as <-. split; [tauto|]. intros _. split; [apply P1; lra|]. rewrite F. ring.
    + rewrite (Rlt_bool_false M 1) by lra. rewrite andb_false_r. intros E; injection E as <-. split; [|lra]. intros _. apply P3; lra.
    + destruct (Rlt_bool_spec 0 M) as [A'|A']; destruct (Rlt_bool_spec M 1) as [B'|B']; cbn [andb]; intros E; injection E as <-.
      * split; [tauto|]. intros _. split; [apply P2; lra|]. rewrite F. ring.
      * split; [|lra]. intros _ x Hx. apply (P2 ltac:(lra) A'). lra.
      * split; [|lra]. intros _. apply P4; lra.
      * lra.
    + lra.
Qed.
