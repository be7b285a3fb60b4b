From Coq Require Import ZArith Reals Lra Lia Psatz.
From Coquelicot Require Import Coquelicot.
From Flocq Require Import Core.
From Verif Require Import FastLogs_Model.
Local Open Scope R_scope.

(** *** Portable variants *)
Lemma frexp_bounds x : 0 < x -> /2 <= frexp_m x < 1.
Proof.
  intros Hx. unfold frexp_m, frexp_e. destruct (mag radix2 x) as [e He]. simpl.
  specialize (He (Rgt_not_eq _ _ Hx)). rewrite Rabs_pos_eq in He by lra.
  assert (Hp := bpow_gt_0 radix2 (-e)).
  split.
  - apply Rle_trans with (bpow radix2 (e - 1) * bpow radix2 (- e)).
    + rewrite <- bpow_plus. replace (e - 1 + - e)%Z with (-1)%Z by ring.
      apply Req_le. simpl. lra.
    + apply Rmult_le_compat_r; lra.
  - apply Rlt_le_trans with (bpow radix2 e * bpow radix2 (- e)).
    + apply Rmult_lt_compat_r; lra.
    + rewrite <- bpow_plus. replace (e + - e)%Z with 0%Z by ring. simpl; lra.
Qed.
Lemma frexp_recompose x : frexp_m x * bpow radix2 (frexp_e x) = x.
Proof.
  unfold frexp_m. rewrite Rmult_assoc, <- bpow_plus.
  replace (- frexp_e x + frexp_e x)%Z with 0%Z by ring. simpl. ring.
Qed.
(** frexp characterised *)
Lemma frexp_unique m e : /2 <= m < 1 -> frexp_e (m * bpow radix2 e) = e /\ frexp_m (m * bpow radix2 e) = m.
Proof.
  intros Hm. assert (Hp := bpow_gt_0 radix2 e).
  assert (He : frexp_e (m * bpow radix2 e) = e).
  { unfold frexp_e. apply mag_unique. rewrite Rabs_pos_eq by nra. split.
    - replace (e - 1)%Z with (-1 + e)%Z by ring. rewrite bpow_plus.
      apply Rmult_le_compat_r; [lra|]. simpl. lra.
    - rewrite <- (Rmult_1_l (bpow radix2 e)) at 2. apply Rmult_lt_compat_r; lra. }
  split; [exact He|]. unfold frexp_m. rewrite He, Rmult_assoc, <- bpow_plus.
  replace (e + - e)%Z with 0%Z by ring. simpl. ring.
Qed.

Lemma Zfloor_cell lm e : -1 <= lm < 0 -> Zfloor (IZR e + lm) = (e - 1)%Z.
Proof. intros H. apply Zfloor_imp. rewrite plus_IZR, minus_IZR. lra. Qed.
Lemma floor_frac y : 0 <= y - IZR (Zfloor y) < 1.
Proof. assert (H1 := Zfloor_lb y). assert (H2 := Zfloor_ub y). lra. Qed.

Lemma o1_pow_lg x : 0 < x -> pow2_o1_portable (lg_o1_portable x) = x.
Proof.
  intros Hx. assert (Hm := frexp_bounds x Hx).
  unfold pow2_o1_portable, lg_o1_portable.
  rewrite (Rplus_comm (2 * _)). rewrite Zfloor_cell by lra.
  replace (frexp_e x - 1 + 1)%Z with (frexp_e x) by ring.
  rewrite minus_IZR. etransitivity; [|apply (frexp_recompose x)]. f_equal. field.
Qed.
Lemma o1_lg_pow y : 0 < pow2_o1_portable y /\ lg_o1_portable (pow2_o1_portable y) = y.
Proof.
  assert (Hf := floor_frac y). unfold pow2_o1_portable.
  set (n := Zfloor y) in *.
  assert (Hp := bpow_gt_0 radix2 (n + 1)).
  split; [apply Rmult_lt_0_compat; lra|].
  unfold lg_o1_portable.
  destruct (frexp_unique (/2 * (y - IZR n + 1)) (n + 1)) as [H1 H2]; [lra|].
  rewrite H1, H2, plus_IZR. field.
Qed.

Lemma o2_sqrt m : /2 <= m < 1 -> sqrt (1 - 3 * (- (4 / 3) * (m - 2) * (m - 1))) = 3 - 2 * m.
Proof.
  intros Hm. replace (1 - 3 * _) with ((3 - 2 * m) * (3 - 2 * m)) by field.
  apply sqrt_square. lra.
Qed.
Lemma o2_lm_range m : /2 <= m < 1 -> -1 <= - (4 / 3) * (m - 2) * (m - 1) < 0.
Proof. intros Hm. split; nra. Qed.
Lemma o2_mant_range lm : -1 <= lm < 0 -> /2 <= /2 * (3 - sqrt (1 - 3 * lm)) < 1.
Proof.
  intros H. assert (H1 : 1 < sqrt (1 - 3 * lm)).
  { rewrite <- sqrt_1 at 1. apply sqrt_lt_1; lra. }
  assert (H2 : sqrt (1 - 3 * lm) <= 2).
  { rewrite <- (sqrt_square 2) by lra. apply sqrt_le_1; lra. }
  lra.
Qed.
Lemma o2_pow_lg x : 0 < x -> pow2_o2_portable (lg_o2_portable x) = x.
Proof.
  intros Hx. assert (Hm := frexp_bounds x Hx). assert (Hl := o2_lm_range _ Hm).
  unfold pow2_o2_portable, lg_o2_portable.
  replace (IZR (frexp_e x) - 4 / 3 * (frexp_m x - 2) * (frexp_m x - 1))
    with (IZR (frexp_e x) + (- (4 / 3) * (frexp_m x - 2) * (frexp_m x - 1))) by ring.
  rewrite Zfloor_cell by exact Hl. rewrite minus_IZR.
  replace (IZR (frexp_e x) + - (4 / 3) * (frexp_m x - 2) * (frexp_m x - 1) - (IZR (frexp_e x) - 1) - 1)
    with (- (4 / 3) * (frexp_m x - 2) * (frexp_m x - 1)) by ring.
  rewrite o2_sqrt by exact Hm.
  replace (frexp_e x - 1 + 1)%Z with (frexp_e x) by ring.
  replace (/ 2 * (3 - (3 - 2 * frexp_m x))) with (frexp_m x) by field. apply frexp_recompose.
Qed.
Lemma o2_lg_pow y : 0 < pow2_o2_portable y /\ lg_o2_portable (pow2_o2_portable y) = y.
Proof.
  assert (Hf := floor_frac y). unfold pow2_o2_portable.
  set (n := Zfloor y) in *. cbv zeta.
  assert (Hp := bpow_gt_0 radix2 (n + 1)).
  assert (Hm := o2_mant_range (y - IZR n - 1) ltac:(lra)).
  set (m := /2 * (3 - sqrt (1 - 3 * (y - IZR n - 1)))) in *.
  split; [apply Rmult_lt_0_compat; lra|].
  unfold lg_o2_portable. destruct (frexp_unique m (n + 1)) as [H1 H2]; [lra|].
  rewrite H1, H2, plus_IZR. cbv zeta.
  assert (Hs := sqrt_sqrt (1 - 3 * (y - IZR n - 1)) ltac:(lra)).
  assert (Hms : sqrt (1 - 3 * (y - IZR n - 1)) = 3 - 2 * m) by (unfold m; field).
  rewrite Hms in Hs. nra.
Qed.

(** strict monotonicity: a generic statement for m |-> L m on [1/2,1) with range [-1,0) *)
Lemma lg_strict (L : R -> R) :
  (forall m, /2 <= m < 1 -> -1 <= L m < 0) ->
  (forall m m', /2 <= m -> m < m' -> m' < 1 -> L m < L m') ->
  forall x y, 0 < x -> x < y ->
    IZR (frexp_e x) + L (frexp_m x) < IZR (frexp_e y) + L (frexp_m y).
Proof.
  intros HL Hmono x y Hx Hxy.
  assert (Hmx := frexp_bounds x Hx). assert (Hmy := frexp_bounds y ltac:(lra)).
  assert (Hle : (frexp_e x <= frexp_e y)%Z).
  { unfold frexp_e. apply mag_le; lra. }
  assert (H1 := HL _ Hmx). assert (H2 := HL _ Hmy).
  destruct (Z.eq_dec (frexp_e x) (frexp_e y)) as [E|E].
  - assert (frexp_m x < frexp_m y).
    { unfold frexp_m. rewrite E. apply Rmult_lt_compat_r; [apply bpow_gt_0|exact Hxy]. }
    rewrite E. apply Rplus_lt_compat_l. apply Hmono; lra.
  - assert (IZR (frexp_e x) + 1 <= IZR (frexp_e y)).
    { rewrite <- plus_IZR. apply IZR_le. lia. }
    lra.
Qed.
Lemma o1_strict x y : 0 < x -> x < y -> lg_o1_portable x < lg_o1_portable y.
Proof.
  intros Hx Hxy. assert (H := lg_strict (fun m => 2 * (m - 1))). unfold lg_o1_portable.
  cbv beta in H. rewrite !(Rplus_comm (2 * _)). apply H; intros; lra.
Qed.
Lemma o2_strict x y : 0 < x -> x < y -> lg_o2_portable x < lg_o2_portable y.
Proof.
  intros Hx Hxy. assert (H := lg_strict (fun m => - (4 / 3) * (m - 2) * (m - 1))). unfold lg_o2_portable.
  cbv beta zeta in *.
  assert (H' := H o2_lm_range ltac:(intros; nra) x y Hx Hxy). lra.
Qed.
(** the inverse of a strictly increasing bijection is strictly increasing; the bijection is continuous *)
Section Bij.
  Variables (f g : R -> R).
  Hypothesis Hfg : forall x, 0 < x -> g (f x) = x.
  Hypothesis Hgf : forall y, 0 < g y /\ f (g y) = y.
  Hypothesis Hf : forall x y, 0 < x -> x < y -> f x < f y.
  Lemma inv_strict : forall y z, y < z -> g y < g z.
  Proof.
    intros y z Hyz. destruct (Hgf y) as [Py Ey], (Hgf z) as [Pz Ez].
    destruct (Rtotal_order (g y) (g z)) as [H|[H|H]]; [exact H| |].
    - rewrite H in Ey. lra.
    - assert (F := Hf _ _ Pz H). lra.
  Qed.
  Lemma bij_continuous x : 0 < x -> continuous f x.
  Proof.
    intros Hx. apply continuity_pt_filterlim. intros eps Heps.
    assert (G1 := inv_strict (f x - eps) (f x) ltac:(lra)).
    assert (G2 := inv_strict (f x) (f x + eps) ltac:(lra)).
    destruct (Hgf (f x - eps)) as [P1 E1], (Hgf (f x + eps)) as [P2 E2].
    rewrite Hfg in G1, G2 by exact Hx.
    exists (Rmin (x - g (f x - eps)) (g (f x + eps) - x)). split.
    - apply Rmin_pos; lra.
    - intros z [_ Hz]. simpl in Hz. unfold R_dist in Hz.
      assert (Hz1 := Rlt_le_trans _ _ _ Hz (Rmin_l _ _)).
      assert (Hz2 := Rlt_le_trans _ _ _ Hz (Rmin_r _ _)).
      apply Rabs_def2 in Hz1. apply Rabs_def2 in Hz2.
      simpl. unfold R_dist. apply Rabs_def1.
      + assert (F := Hf z (g (f x + eps)) ltac:(lra) ltac:(lra)). lra.
      + assert (F := Hf (g (f x - eps)) z P1 ltac:(lra)). lra.
  Qed.
End Bij.

Lemma o1_pow2 n : lg_o1_portable (bpow radix2 n) = IZR n.
Proof.
  replace (bpow radix2 n) with (/2 * bpow radix2 (n + 1)).
  2:{ rewrite bpow_plus. change (bpow radix2 1) with 2. field. }
  unfold lg_o1_portable. destruct (frexp_unique (/2) (n + 1)) as [H1 H2]; [lra|].
  rewrite H1, H2, plus_IZR. field.
Qed.
Lemma o2_pow2 n : lg_o2_portable (bpow radix2 n) = IZR n.
Proof.
  replace (bpow radix2 n) with (/2 * bpow radix2 (n + 1)).
  2:{ rewrite bpow_plus. change (bpow radix2 1) with 2. field. }
  unfold lg_o2_portable. destruct (frexp_unique (/2) (n + 1)) as [H1 H2]; [lra|].
  rewrite H1, H2, plus_IZR. field.
Qed.

(** *** distance to the true log2 *)
Definition log2R (x : R) : R := ln x / ln 2.
Lemma ln2_pos : 0 < ln 2.
Proof. rewrite <- ln_1. apply ln_increasing; lra. Qed.
Lemma ln2_ge : 2 / 3 <= ln 2.
Proof.
  set (F := fun x => ln x - 2 * (x - 1) / (x + 1)).
  assert (HF : F 1 <= F 2).
  { destruct (MVT_gen F 1 2 (fun x => (x - 1) * (x - 1) / (x * ((x + 1) * (x + 1))))) as [c [Hc E]].
    - intros x Hx. rewrite Rmin_left, Rmax_right in Hx by lra. unfold F.
      auto_derive; [repeat split; lra|]. field. lra.
    - intros x Hx. rewrite Rmin_left, Rmax_right in Hx by lra.
      apply derivable_continuous_pt. unfold F. 
      exists ((x - 1) * (x - 1) / (x * ((x + 1) * (x + 1)))).
      apply is_derive_Reals. auto_derive; [repeat split; lra|]. field. lra.
    - rewrite Rmin_left, Rmax_right in Hc by lra.
      assert (0 <= (c - 1) * (c - 1) / (c * ((c + 1) * (c + 1)))).
      { apply Rmult_le_pos; [nra|]. left. apply Rinv_0_lt_compat.
        apply Rmult_lt_0_compat; [lra|]. apply Rmult_lt_0_compat; lra. }
      nra. }
  unfold F in HF. rewrite ln_1 in HF. lra.
Qed.
Lemma ln_bpow2 e : ln (bpow radix2 e) = IZR e * ln 2.
Proof. rewrite bpow_powerRZ. change (IZR radix2) with 2. rewrite powerRZ_Rpower by lra. unfold Rpower. rewrite ln_exp. reflexivity. Qed.
Lemma log2_split x : 0 < x -> log2R x = IZR (frexp_e x) + log2R (frexp_m x).
Proof.
  intros Hx. assert (Hm := frexp_bounds x Hx). unfold log2R.
  rewrite <- (frexp_recompose x) at 1. rewrite ln_mult; [|lra|apply bpow_gt_0].
  rewrite ln_bpow2. field. apply Rgt_not_eq, ln2_pos.
Qed.
Lemma ln_le_lin u : 0 < u -> ln u <= u - 1.
Proof.
  intros Hu. destruct (Req_dec u 1) as [->|E]; [rewrite ln_1; lra|].
  assert (H := exp_ineq1 (ln u)). rewrite exp_ln in H by exact Hu.
  assert (ln u <> 0). { intros Z. apply E. rewrite <- (exp_ln u Hu), Z, exp_0. reflexivity. }
  specialize (H H0). lra.
Qed.
(** chord below, tangent above, on [1/2,1] *)
Lemma log2_chord m : /2 <= m < 1 -> 2 * (m - 1) <= log2R m.
Proof.
  intros Hm. unfold log2R. assert (Hl := ln2_pos).
  apply (Rmult_le_reg_r (ln 2)); [exact Hl|].
  replace (ln m / ln 2 * ln 2) with (ln m) by (field; lra).
  (* concavity of ln via F(m) = ln m - 2(m-1) ln 2, F(1/2)=F(1)=0 *)
  set (F := fun x => ln x - 2 * (x - 1) * ln 2).
  assert (HF1 : F 1 = 0) by (unfold F; rewrite ln_1; ring).
  assert (HFh : F (/2) = 0).
  { unfold F. rewrite ln_Rinv by lra. lra. }
  cut (0 <= F m); [unfold F; lra|].
  assert (D : forall x, 0 < x -> is_derive F x (/ x - 2 * ln 2)).
  { intros x Hx. unfold F. auto_derive; [lra|]. ring. }
  assert (C : forall x, 0 < x -> continuity_pt F x).
  { intros x Hx. apply derivable_continuous_pt. exists (/ x - 2 * ln 2). apply is_derive_Reals, D, Hx. }
  destruct (Rle_dec m (/ (2 * ln 2))) as [L|L].
  - (* increasing on [1/2, m] *)
    destruct (MVT_gen F (/2) m (fun x => / x - 2 * ln 2)) as [c [Hc E]].
    + intros x Hx. rewrite Rmin_left, Rmax_right in Hx by lra. apply D; lra.
    + intros x Hx. rewrite Rmin_left, Rmax_right in Hx by lra. apply C; lra.
    + rewrite Rmin_left, Rmax_right in Hc by lra.
      assert (2 * ln 2 <= / c).
      { rewrite <- (Rinv_inv (2 * ln 2)). apply Rinv_le_contravar; [lra|]. lra. }
      nra.
  - destruct (MVT_gen F m 1 (fun x => / x - 2 * ln 2)) as [c [Hc E]].
    + intros x Hx. rewrite Rmin_left, Rmax_right in Hx by lra. apply D; lra.
    + intros x Hx. rewrite Rmin_left, Rmax_right in Hx by lra. apply C; lra.
    + rewrite Rmin_left, Rmax_right in Hc by lra.
      assert (/ c <= 2 * ln 2).
      { rewrite <- (Rinv_inv (2 * ln 2)). apply Rinv_le_contravar.
        - apply Rinv_0_lt_compat. lra. - lra. }
      nra.
Qed.
Lemma log2_tangent m : 0 < m -> log2R m <= 2 * (m - 1) + (/ ln 2 - 1) * (/ ln 2 - 1).
Proof.
  intros Hm. assert (Hl := ln2_pos). unfold log2R.
  set (l := ln 2) in *.
  (* ln m = ln (2 l m) - ln 2 - ln l <= 2 l m - 1 - l - ln l, and - ln l <= 1/l - 1 *)
  assert (H1 := ln_le_lin (2 * l * m) ltac:(nra)).
  rewrite ln_mult in H1 by nra. rewrite ln_mult in H1 by lra.
  assert (Hi : 0 < / l) by (apply Rinv_0_lt_compat; lra).
  assert (H2 := ln_le_lin (/ l) Hi). rewrite ln_Rinv in H2 by exact Hl.
  fold l in H1.
  assert (H3 : ln m <= 2 * l * m - 1 - l + (/ l - 1)) by lra.
  apply (Rmult_le_compat_r (/ l)) in H3; [|lra].
  unfold Rdiv.
  replace (2 * (m - 1) + (/ l - 1) * (/ l - 1)) with ((2 * l * m - 1 - l + (/ l - 1)) * / l).
  - exact H3.
  - field. lra.
Qed.
Lemma tangent_const : (/ ln 2 - 1) * (/ ln 2 - 1) <= / 4.
Proof.
  assert (H := ln2_ge). assert (Hl := ln2_pos).
  assert (ln 2 < 1). { rewrite <- ln_exp at 1. rewrite ln_exp. 
    assert (E := ln_increasing 2 (exp 1) ltac:(lra)). rewrite ln_exp in E. apply E.
    assert (X := exp_ineq1 1 ltac:(lra)). lra. }
  assert (/ ln 2 <= 3 / 2). { replace (3/2) with (/ (2/3)) by field. apply Rinv_le_contravar; lra. }
  assert (1 < / ln 2). { rewrite <- Rinv_1. apply Rinv_lt_contravar; lra. }
  nra.
Qed.
Lemma o1_close x : 0 < x -> 0 <= log2R x - lg_o1_portable x <= / 4.
Proof.
  intros Hx. assert (Hm := frexp_bounds x Hx). rewrite log2_split by exact Hx. unfold lg_o1_portable.
  assert (H1 := log2_chord _ Hm). assert (H2 := log2_tangent (frexp_m x) ltac:(lra)).
  assert (H3 := tangent_const). lra.
Qed.
Lemma o2_close x : 0 < x -> Rabs (log2R x - lg_o2_portable x) <= / 4.
Proof.
  intros Hx. assert (Hm := frexp_bounds x Hx). rewrite log2_split by exact Hx. unfold lg_o2_portable.
  assert (H1 := log2_chord _ Hm). assert (H2 := log2_tangent (frexp_m x) ltac:(lra)).
  assert (H3 := tangent_const). cbv zeta. set (m := frexp_m x) in *.
  apply Rabs_le. nra.
Qed.

(** *** the order-2 log is continuously differentiable (C^1), including at powers of two *)
Lemma glue_derive (f p q : R -> R) (x l d : R) : 0 < d ->
  (forall h, - d < h <= 0 -> f (x + h) = p (x + h)) ->
  (forall h, 0 <= h < d -> f (x + h) = q (x + h)) ->
  is_derive p x l -> is_derive q x l -> is_derive f x l.
Proof.
  intros Hd Hp Hq Dp Dq. apply is_derive_Reals in Dp. apply is_derive_Reals in Dq.
  apply is_derive_Reals. intros eps Heps.
  destruct (Dp eps Heps) as [d1 H1]. destruct (Dq eps Heps) as [d2 H2].
  assert (Hm : 0 < Rmin d (Rmin d1 d2)).
  { apply Rmin_pos; [exact Hd|]. apply Rmin_pos; apply cond_pos. }
  exists (mkposreal _ Hm). intros h Hh0 Hh. simpl in Hh.
  assert (A := Rmin_l d (Rmin d1 d2)). assert (B := Rmin_r d (Rmin d1 d2)).
  assert (C := Rmin_l d1 d2). assert (D := Rmin_r d1 d2).
  assert (E := Rabs_def2 _ _ Hh).
  destruct (Rle_dec h 0) as [L|L].
  - replace (f (x + h)) with (p (x + h)) by (symmetry; apply Hp; lra).
    replace (f x) with (p x) by (symmetry; rewrite <- (Rplus_0_r x); apply Hp; lra).
    apply H1; lra.
  - replace (f (x + h)) with (q (x + h)) by (symmetry; apply Hq; lra).
    replace (f x) with (q x) by (symmetry; rewrite <- (Rplus_0_r x); apply Hq; lra).
    apply H2; lra.
Qed.
Definition o2_cell (e : Z) (x : R) : R :=
  IZR e - 4 / 3 * (x * bpow radix2 (- e) - 2) * (x * bpow radix2 (- e) - 1).
Lemma o2_cell_ok e x : bpow radix2 (e - 1) <= x <= bpow radix2 e -> lg_o2_portable x = o2_cell e x.
Proof.
  intros [H1 H2]. destruct H2 as [H2|H2].
  - unfold lg_o2_portable, o2_cell, frexp_m.
    assert (E : frexp_e x = e).
    { unfold frexp_e. apply mag_unique. assert (P := bpow_gt_0 radix2 (e - 1)).
      rewrite Rabs_pos_eq by lra. lra. }
    rewrite E. reflexivity.
  - rewrite H2, o2_pow2. unfold o2_cell. rewrite <- bpow_plus.
    replace (e + - e)%Z with 0%Z by ring. simpl. ring.
Qed.
Definition dlg_o2 (x : R) : R := 4 / 3 * (3 - 2 * frexp_m x) * bpow radix2 (- frexp_e x).
Lemma o2_cell_derive e x :
  is_derive (o2_cell e) x (4 / 3 * (3 - 2 * (x * bpow radix2 (- e))) * bpow radix2 (- e)).
Proof. unfold o2_cell. auto_derive; [exact I|]. field. Qed.
Lemma o2_derive x : 0 < x -> is_derive lg_o2_portable x (dlg_o2 x).
Proof.
  intros Hx. unfold dlg_o2, frexp_m.
  assert (Hb : bpow radix2 (frexp_e x - 1) <= x < bpow radix2 (frexp_e x)).
  { unfold frexp_e. destruct (mag radix2 x) as [e He]. simpl. specialize (He (Rgt_not_eq _ _ Hx)).
    rewrite Rabs_pos_eq in He by lra. exact He. }
  set (e := frexp_e x) in *. destruct Hb as [[Hb1|Hb1] Hb2].
  - (* interior *)
    apply (glue_derive _ (o2_cell e) (o2_cell e) x _ (Rmin (x - bpow radix2 (e - 1)) (bpow radix2 e - x))).
    + apply Rmin_pos; lra.
    + intros h Hh. apply o2_cell_ok. assert (A := Rmin_l (x - bpow radix2 (e - 1)) (bpow radix2 e - x)). lra.
    + intros h Hh. apply o2_cell_ok. assert (A := Rmin_r (x - bpow radix2 (e - 1)) (bpow radix2 e - x)). lra.
    + apply o2_cell_derive.
    + apply o2_cell_derive.
  - (* x = 2^(e-1): left cell e-1, right cell e *)
    assert (P2 := bpow_gt_0 radix2 (e - 2)).
    assert (E1 : bpow radix2 (e - 1) = 2 * bpow radix2 (e - 2)).
    { replace (e - 1)%Z with (1 + (e - 2))%Z by ring. rewrite bpow_plus. reflexivity. }
    assert (E0 : bpow radix2 e = 2 * bpow radix2 (e - 1)).
    { replace e with (1 + (e - 1))%Z at 1 by ring. rewrite bpow_plus. reflexivity. }
    apply (glue_derive _ (o2_cell (e - 1)) (o2_cell e) x _ (bpow radix2 (e - 2))).
    + exact P2.
    + intros h Hh. apply o2_cell_ok. replace (e - 1 - 1)%Z with (e - 2)%Z by ring. lra.
    + intros h Hh. apply o2_cell_ok. lra.
    + assert (D := o2_cell_derive (e - 1) x).
      replace (4 / 3 * (3 - 2 * (x * bpow radix2 (- e))) * bpow radix2 (- e))
        with (4 / 3 * (3 - 2 * (x * bpow radix2 (- (e - 1)))) * bpow radix2 (- (e - 1))); [exact D|].
      rewrite <- Hb1. replace (- (e - 1))%Z with (1 + - e)%Z by ring.
      rewrite (bpow_plus _ 1 (- e)). change (bpow radix2 1) with 2.
      assert (E2 : bpow radix2 (e - 1) * bpow radix2 (- e) = / 2).
      { rewrite <- bpow_plus. replace (e - 1 + - e)%Z with (-1)%Z by ring. reflexivity. }
      replace (bpow radix2 (e - 1) * (2 * bpow radix2 (- e))) with (2 * (bpow radix2 (e - 1) * bpow radix2 (- e))) by ring.
      rewrite E2. field.
    + apply o2_cell_derive.
Qed.
Lemma dlg_o2_pos x : 0 < x -> 0 < dlg_o2 x.
Proof.
  intros Hx. assert (Hm := frexp_bounds x Hx). unfold dlg_o2.
  assert (P := bpow_gt_0 radix2 (- frexp_e x)). apply Rmult_lt_0_compat; lra.
Qed.
