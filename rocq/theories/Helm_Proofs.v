(** Lemmas about Helm_Model *)
From Coq Require Import ZArith Reals Bool List Lra Lia.
From Flocq Require Import Core.
From Coquelicot Require Import Coquelicot.
From Verif Require Import Arith Robust_Model Robust_Proofs RootFinding_Model Hermite_Model Hermite_Proofs Thermo_Spec Thermo_Tools Helm_Model.
Import ListNotations.
Local Open Scope R_scope.

(** ** powers of ten *)
Lemma ln10pos : 0 < ln 10.
Proof. rewrite <- ln_1. apply ln_increasing; lra. Qed.
Lemma pow10_pos x : 0 < pow10 x.
Proof. apply exp_pos. Qed.
Lemma pow10_log10 x : 0 < x -> pow10 (log10 x) = x.
Proof. intros H. unfold pow10, log10. pose proof ln10pos. replace (ln 10 * (ln x / ln 10)) with (ln x) by (field; lra). apply exp_ln, H. Qed.
Lemma log10_pow10 x : log10 (pow10 x) = x.
Proof. unfold pow10, log10. rewrite ln_exp. pose proof ln10pos. field. lra. Qed.
Lemma pow10_lt x y : x < y -> pow10 x < pow10 y.
Proof. intros H. unfold pow10. apply exp_increasing. pose proof ln10pos. nra. Qed.
Lemma pow10_le x y : x <= y -> pow10 x <= pow10 y.
Proof. intros [H | ->]; [left; apply pow10_lt, H | right; reflexivity]. Qed.
Lemma log10_lt x y : 0 < x -> x < y -> log10 x < log10 y.
Proof.
  intros H1 H2. unfold log10. pose proof ln10pos. apply Rmult_lt_compat_r; [apply Rinv_0_lt_compat; lra|]. apply ln_increasing; assumption.
Qed.
Lemma log10_le x y : 0 < x -> x <= y -> log10 x <= log10 y.
Proof. intros H1 [H2 | ->]; [left; apply log10_lt; assumption | right; reflexivity]. Qed.
Lemma pow10_nat n : pow10 (INR n) = 10 ^ n.
Proof.
  unfold pow10. rewrite Rmult_comm. rewrite <- (Rpower_pow n 10) by lra. unfold Rpower. reflexivity.
Qed.
Lemma pow10_neg x : pow10 (- x) = / pow10 x.
Proof. unfold pow10. replace (ln 10 * - x) with (- (ln 10 * x)) by ring. apply exp_Ropp. Qed.
Lemma TMin_pow : pow10 lTMin = TMin.
Proof. unfold lTMin, TMin. rewrite <- (pow10_nat 3). f_equal. cbn. lra. Qed.
Lemma rhoMax_pow : pow10 lRhoMax = rhoMax.
Proof. unfold lRhoMax, rhoMax. rewrite <- (pow10_nat 15). f_equal. cbn. lra. Qed.
Lemma rhoMin_pow : pow10 lRhoMin = rhoMin.
Proof. unfold lRhoMin, rhoMin. rewrite <- (pow10_nat 12), <- pow10_neg. f_equal. cbn. lra. Qed.

(** ** the grid *)
Lemma node_step lo hi n k : node lo hi n (S k) = node lo hi n k + (hi - lo) / (INR n - 1).
Proof. unfold node. rewrite S_INR. ring. Qed.
Section Grid.
Variables (lo hi : R) (n : nat).
Hypothesis Hlo : lo < hi.
Hypothesis Hn : (2 <= n)%nat.
Let dx := (hi - lo) / (INR n - 1).
Lemma dx_pos : 0 < dx.
Proof. unfold dx. assert (INR 2 <= INR n) by (apply le_INR, Hn). cbn in H. apply Rdiv_lt_0_compat; lra. Qed.
Lemma node_lt j k : (j < k)%nat -> node lo hi n j < node lo hi n k.
Proof.
  intros H. unfold node. fold dx. apply lt_INR in H. pose proof dx_pos. nra.
Qed.
Lemma index_le x : (index lo hi n x <= n - 2)%nat.
Proof. unfold index. lia. Qed.
Lemma index_below x : lo <= x -> node lo hi n (index lo hi n x) <= x.
Proof.
  intros H. pose proof dx_pos as P. unfold index, node. fold dx.
  assert (Q : 0 <= (x - lo) / dx) by (apply Rmult_le_pos; [lra | left; apply Rinv_0_lt_compat, P]).
  rewrite Ztrunc_floor by exact Q. set (q := (x - lo) / dx) in *.
  assert (F : IZR (Zfloor q) <= q) by apply Zfloor_lb.
  assert (Z0 : (0 <= Zfloor q)%Z) by (apply Zfloor_lub; exact Q).
  assert (K : INR (Z.to_nat (Z.max 0 (Z.min (Zfloor q) (Z.of_nat n - 2)))) <= q).
  { rewrite INR_IZR_INZ, Z2Nat.id by lia. apply Rle_trans with (IZR (Zfloor q)); [apply IZR_le; lia | exact F]. }
  assert (E : x = lo + q * dx) by (unfold q; field; lra). rewrite E.
  apply Rplus_le_compat_l. apply Rmult_le_compat_r; lra.
Qed.
Lemma index_above x : lo <= x -> x < node lo hi n (S (index lo hi n x)) \/ index lo hi n x = (n - 2)%nat.
Proof.
  intros H. pose proof dx_pos as P. destruct (Nat.eq_dec (index lo hi n x) (n - 2)) as [E|E]; [right; exact E | left].
  unfold index in E. unfold index, node. fold dx in E |- *.
  assert (Q : 0 <= (x - lo) / dx) by (apply Rmult_le_pos; [lra | left; apply Rinv_0_lt_compat, P]).
  rewrite Ztrunc_floor in E |- * by exact Q. set (q := (x - lo) / dx) in *.
  assert (F : q < IZR (Zfloor q) + 1) by apply Zfloor_ub.
  assert (Z0 : (0 <= Zfloor q)%Z) by (apply Zfloor_lub; exact Q).
  rewrite S_INR, INR_IZR_INZ, Z2Nat.id by lia.
  assert (L : (Z.max 0 (Z.min (Zfloor q) (Z.of_nat n - 2)) = Zfloor q)%Z) by lia. rewrite L.
  assert (E2 : x = lo + q * dx) by (unfold q; field; lra). rewrite E2.
  apply Rplus_lt_compat_l. apply Rmult_lt_compat_r; lra.
Qed.
End Grid.

(** ** functions given piece by piece *)
Lemma derive_glue (f g h : R -> R) (x l : R) :
  (exists d : posreal, forall y, x - d < y < x -> f y = g y) -> (exists d : posreal, forall y, x <= y < x + d -> f y = h y) ->
  g x = h x -> is_derive g x l -> is_derive h x l -> is_derive f x l.
Proof.
  intros (d1 & H1) (d2 & H2) E Dg Dh.
  assert (Fx : f x = h x) by (apply H2; pose proof (cond_pos d2); lra).
  split; [apply is_linear_scal_l|]. intros y Hy eps.
  pose proof (is_filter_lim_locally_unique x y Hy) as Ey. subst y.
  destruct Dg as (_ & Dg). destruct Dh as (_ & Dh).
  specialize (Dg x Hy eps). specialize (Dh x Hy eps).
  destruct Dg as (e1 & G1). destruct Dh as (e2 & G2).
  assert (P : 0 < Rmin (Rmin d1 d2) (Rmin e1 e2)).
  { apply Rmin_pos; apply Rmin_pos; apply cond_pos. }
  exists (mkposreal _ P). intros z Hz. cbn in Hz.
  assert (B1 : ball x d1 z) by (apply ball_le with (Rmin (Rmin d1 d2) (Rmin e1 e2)); [eapply Rle_trans; [apply Rmin_l|apply Rmin_l] | exact Hz]).
  assert (B2 : ball x d2 z) by (apply ball_le with (Rmin (Rmin d1 d2) (Rmin e1 e2)); [eapply Rle_trans; [apply Rmin_l|apply Rmin_r] | exact Hz]).
  assert (B3 : ball x e1 z) by (apply ball_le with (Rmin (Rmin d1 d2) (Rmin e1 e2)); [eapply Rle_trans; [apply Rmin_r|apply Rmin_l] | exact Hz]).
  assert (B4 : ball x e2 z) by (apply ball_le with (Rmin (Rmin d1 d2) (Rmin e1 e2)); [eapply Rle_trans; [apply Rmin_r|apply Rmin_r] | exact Hz]).
  specialize (G1 z B3). specialize (G2 z B4).
  unfold ball in B1, B2. cbn in B1, B2. unfold AbsRing_ball, abs, minus, plus, opp in B1, B2. cbn in B1, B2.
  apply Rabs_def2 in B1. apply Rabs_def2 in B2.
  destruct (Rlt_le_dec z x) as [L|L].
  - rewrite (H1 z) by lra. rewrite Fx, <- E. exact G1.
  - rewrite (H2 z) by lra. rewrite Fx. exact G2.
Qed.

Section Pieces.
Variables (X : nat -> R) (N : nat) (piece dpiece : nat -> R -> R) (sel : R -> nat).
Hypothesis HX : forall j k, (j < k)%nat -> X j < X k.
Hypothesis Hsel : forall x, X 0%nat <= x -> (sel x <= N)%nat /\ X (sel x) <= x /\ (x < X (S (sel x)) \/ sel x = N).
Lemma sel_unique x k : X 0%nat <= x -> (k <= N)%nat -> X k <= x -> (x < X (S k) \/ k = N) -> sel x = k.
Proof.
  intros Hx Hk H1 H2. destruct (Hsel x Hx) as (A & B & C).
  destruct (Nat.lt_trichotomy (sel x) k) as [L|[L|L]]; [|exact L|].
  - destruct C as [C|C]; [|lia]. assert (X (S (sel x)) <= X k).
    { destruct (Nat.eq_dec (S (sel x)) k) as [->|]; [lra | left; apply HX; lia]. } lra.
  - destruct H2 as [C'|C']; [|lia]. assert (X (S k) <= X (sel x)).
    { destruct (Nat.eq_dec (S k) (sel x)) as [->|]; [lra | left; apply HX; lia]. } lra.
Qed.
Hypothesis Hd : forall k x, (k <= N)%nat -> is_derive (piece k) x (dpiece k x).
Hypothesis Hglue : forall k, (k < N)%nat -> piece k (X (S k)) = piece (S k) (X (S k)) /\ dpiece k (X (S k)) = dpiece (S k) (X (S k)).
Lemma pieces_derive x : X 0%nat < x -> is_derive (fun y => piece (sel y) y) x (dpiece (sel x) x).
Proof.
  intros Hx. destruct (Hsel x ltac:(lra)) as (A & B & C). set (k := sel x) in *.
  assert (R2 : exists d : posreal, forall y, x <= y < x + d -> piece (sel y) y = piece k y).
  { destruct C as [C|C].
    - exists (mkposreal (X (S k) - x) ltac:(lra)). cbn. intros y Hy. rewrite (sel_unique y k); [reflexivity| lra | exact A | lra | left; lra].
    - exists (mkposreal 1 ltac:(lra)). cbn. intros y Hy. rewrite (sel_unique y k); [reflexivity| lra | exact A | lra | right; exact C]. }
  destruct (Rle_lt_or_eq_dec _ _ B) as [L|L].
  - assert (R1 : exists d : posreal, forall y, x - d < y < x -> piece (sel y) y = piece k y).
    { exists (mkposreal (x - X k) ltac:(lra)). cbn. intros y Hy.
      assert (X 0%nat <= X k) by (destruct k; [lra | left; apply HX; lia]).
      rewrite (sel_unique y k); [reflexivity| lra | exact A | lra |]. destruct C as [C|C]; [left; lra | right; exact C]. }
    apply (derive_glue _ (piece k) (piece k)); auto.
  - (* at a node *)
    destruct k as [|k'] eqn:Ek; [lra|]. destruct (Hglue k' ltac:(lia)) as (G1 & G2).
    assert (R1 : exists d : posreal, forall y, x - d < y < x -> piece (sel y) y = piece k' y).
    { assert (X k' < X (S k')) by (apply HX; lia). exists (mkposreal (X (S k') - X k') ltac:(lra)). cbn. intros y Hy.
      assert (X 0%nat <= X k') by (destruct k'; [lra | left; apply HX; lia]).
      rewrite (sel_unique y k'); [reflexivity| lra | lia | lra | left; lra]. }
    apply (derive_glue _ (piece k') (piece (S k'))); auto.
    + rewrite <- L. exact G1.
    + rewrite <- L, <- G2. apply Hd. lia.
Qed.
(** at the first node the pieces are continuous from the right *)
Lemma pieces_cont x : X 0%nat <= x -> continuous (fun y => piece (sel (Rmax (X 0%nat) y)) (Rmax (X 0%nat) y)) x.
Proof.
  intros [Hx|Hx].
  - apply (cont_loc _ (fun y => piece (sel y) y)).
    + generalize (loc_gt _ _ Hx). apply loc_imp. intros y Hy. rewrite Rmax_right by lra. reflexivity.
    + eapply derive_cont. apply pieces_derive, Hx.
  - subst x. destruct (Hsel (X 0%nat) ltac:(lra)) as (A & B & C).
    assert (E0 : sel (X 0%nat) = 0%nat).
    { apply sel_unique; try lra; try lia. left. apply HX. lia. }
    assert (K : continuous (piece 0) (X 0%nat)) by (eapply derive_cont; apply Hd; lia).
    apply (cont_loc _ (fun y => piece 0 (Rmax (X 0%nat) y))).
    + assert (X01 : X 0%nat < X 1%nat) by (apply HX; lia).
      generalize (loc_lt _ _ X01). apply loc_imp. intros y Hy.
      rewrite (sel_unique (Rmax (X 0%nat) y) 0); [reflexivity | apply Rmax_l | lia | apply Rmax_l | left; apply Rmax_lub_lt; lra].
    + intros P HP. rewrite Rmax_left in HP by lra. specialize (K P HP). change (locally (X 0%nat) (fun y => P (piece 0 y))) in K.
      change (locally (X 0%nat) (fun y => P (piece 0 (Rmax (X 0%nat) y)))).
      destruct K as (d & K). exists d. intros y Hy. destruct (Rle_lt_dec (X 0%nat) y) as [L|L].
      * rewrite Rmax_right by lra. apply K, Hy.
      * rewrite Rmax_left by lra. apply K. apply ball_center.
Qed.
End Pieces.

(** ** the interpolated free energy as a function of electron density and temperature *)
Definition jsel (T : R) : nat := index lTMin lTMax NTEMP (log10 T).
Definition isel (d : R) : nat := index lRhoMin lRhoMax NRHO (log10 d).
Lemma Tnode_lt j k : (j < k)%nat -> T_ j < T_ k.
Proof. intros H. apply pow10_lt, node_lt; [unfold lTMin, lTMax; lra | unfold NTEMP; lia | exact H]. Qed.
Lemma rnode_lt j k : (j < k)%nat -> rho_ j < rho_ k.
Proof. intros H. apply pow10_lt, node_lt; [unfold lRhoMin, lRhoMax; lra | unfold NRHO; lia | exact H]. Qed.
Lemma T_0 : T_ 0 = TMin.
Proof. unfold T_, node. cbn [INR]. rewrite Rmult_0_l, Rplus_0_r. apply TMin_pow. Qed.
Lemma rho_0 : rho_ 0 = rhoMin.
Proof. unfold rho_, node. cbn [INR]. rewrite Rmult_0_l, Rplus_0_r. apply rhoMin_pow. Qed.
Lemma TMin_pos : 0 < TMin.
Proof. unfold TMin. lra. Qed.
Lemma rhoMin_pos : 0 < rhoMin.
Proof. unfold rhoMin. lra. Qed.
Lemma jsel_spec T : T_ 0 <= T -> (jsel T <= 99)%nat /\ T_ (jsel T) <= T /\ (T < T_ (S (jsel T)) \/ jsel T = 99%nat).
Proof.
  intros H. rewrite T_0 in H. pose proof TMin_pos as P.
  assert (L : lTMin <= log10 T). { rewrite <- (log10_pow10 lTMin), TMin_pow. apply log10_le; lra. }
  assert (P1 : lTMin < lTMax) by (unfold lTMin, lTMax; lra). assert (P2 : (2 <= NTEMP)%nat) by (unfold NTEMP; lia).
  split; [exact (index_le lTMin lTMax NTEMP P2 (log10 T)) |]. split.
  - rewrite <- (pow10_log10 T) at 2 by lra. apply pow10_le. apply index_below; assumption.
  - destruct (index_above lTMin lTMax NTEMP P1 P2 (log10 T) L) as [Q|Q]; [left | right; exact Q].
    rewrite <- (pow10_log10 T) at 1 by lra. apply pow10_lt. exact Q.
Qed.
Lemma isel_spec d : rho_ 0 <= d -> (isel d <= 269)%nat /\ rho_ (isel d) <= d /\ (d < rho_ (S (isel d)) \/ isel d = 269%nat).
Proof.
  intros H. rewrite rho_0 in H. pose proof rhoMin_pos as P.
  assert (L : lRhoMin <= log10 d). { rewrite <- (log10_pow10 lRhoMin), rhoMin_pow. apply log10_le; lra. }
  assert (P1 : lRhoMin < lRhoMax) by (unfold lRhoMin, lRhoMax; lra). assert (P2 : (2 <= NRHO)%nat) by (unfold NRHO; lia).
  split; [exact (index_le lRhoMin lRhoMax NRHO P2 (log10 d)) |]. split.
  - rewrite <- (pow10_log10 d) at 2 by lra. apply pow10_le. apply index_below; assumption.
  - destruct (index_above lRhoMin lRhoMax NRHO P1 P2 (log10 d) L) as [Q|Q]; [left | right; exact Q].
    rewrite <- (pow10_log10 d) at 1 by lra. apply pow10_lt. exact Q.
Qed.

Definition dT (j : nat) : R := T_ (S j) - T_ j.
Definition dR (i : nat) : R := rho_ (S i) - rho_ i.
Lemma dT_nz j : dT j <> 0.
Proof. unfold dT. pose proof (Tnode_lt j (S j) ltac:(lia)). lra. Qed.
Lemma dR_nz j : dR j <> 0.
Proof. unfold dR. pose proof (rnode_lt j (S j) ltac:(lia)). lra. Qed.
(** the interpolants, without the clamps *)
Definition F5 (t : nat -> nat -> nat -> nat -> R) (od ot : nat) (d T : R) : R :=
  interp5 (corners t (jsel T) (isel d)) od ot (dR (isel d)) ((d - rho_ (isel d)) / dR (isel d)) (dT (jsel T)) ((T - T_ (jsel T)) / dT (jsel T)).
Definition F3 (t : nat -> nat -> nat -> nat -> R) (od ot : nat) (d T : R) : R :=
  interp3 (corners t (jsel T) (isel d)) od ot (dR (isel d)) ((d - rho_ (isel d)) / dR (isel d)) (dT (jsel T)) ((T - T_ (jsel T)) / dT (jsel T)).

Lemma interp3_glue_t D D' od ot hd xd ht ht' :
  ht <> 0 -> ht' <> 0 -> (ot <= 1)%nat -> (forall m n p, D' m n p false = D m n p true) ->
  interp3 D od ot hd xd ht 1 = interp3 D' od ot hd xd ht' 0.
Proof.
  intros H1 H2 H3 HD. rewrite !interp3_tensor. rewrite comb3_right, comb3_left by assumption.
  apply comb3_ext. intros m p. rewrite HD. reflexivity.
Qed.
Lemma interp3_glue_d D D' od ot hd hd' ht xt :
  hd <> 0 -> hd' <> 0 -> (od <= 1)%nat -> (forall m n q, D' m n false q = D m n true q) ->
  interp3 D od ot hd 1 ht xt = interp3 D' od ot hd' 0 ht xt.
Proof.
  intros H1 H2 H3 HD. rewrite !interp3_tensor. apply comb3_ext. intros n q.
  rewrite comb3_right, comb3_left by assumption. rewrite HD. reflexivity.
Qed.
Lemma frac_1 a b : b - a <> 0 -> (b - a) / (b - a) = 1.
Proof. intros. field. assumption. Qed.
Lemma frac_0 a h : (a - a) / h = 0.
Proof. unfold Rdiv. ring. Qed.

Lemma F5_dT t od ot d T : (od <= 2)%nat -> (ot <= 1)%nat -> TMin < T -> is_derive (fun T => F5 t od ot d T) T (F5 t od (S ot) d T).
Proof.
  intros Ho Ht HT. set (i := isel d). unfold F5. fold i.
  set (pc := fun (o j : nat) (T : R) => interp5 (corners t j i) od o (dR i) ((d - rho_ i) / dR i) (dT j) ((T - T_ j) / dT j)).
  apply (pieces_derive T_ 99 (pc ot) (pc (S ot)) jsel).
  - exact Tnode_lt.
  - exact jsel_spec.
  - intros k x _. unfold pc. apply interp5_dt; [apply dT_nz | exact Ht].
  - intros k _. unfold pc. unfold dT at 2 4 6 8. rewrite !frac_1, !frac_0 by (pose proof (Tnode_lt k (S k) ltac:(lia)); lra).
    split; apply interp5_glue_t; try apply dT_nz; try lia; intros; reflexivity.
  - rewrite T_0. exact HT.
Qed.
Lemma F5_dd t od ot d T : (od <= 1)%nat -> (ot <= 2)%nat -> rhoMin < d -> is_derive (fun d => F5 t od ot d T) d (F5 t (S od) ot d T).
Proof.
  intros Ho Ht HT. set (j := jsel T). unfold F5. fold j.
  set (pc := fun (o i : nat) (d : R) => interp5 (corners t j i) o ot (dR i) ((d - rho_ i) / dR i) (dT j) ((T - T_ j) / dT j)).
  apply (pieces_derive rho_ 269 (pc od) (pc (S od)) isel).
  - exact rnode_lt.
  - exact isel_spec.
  - intros k x _. unfold pc. apply interp5_dd; [apply dR_nz | exact Ho].
  - intros k _. unfold pc. unfold dR at 2 4 6 8. rewrite !frac_1, !frac_0 by (pose proof (rnode_lt k (S k) ltac:(lia)); lra).
    split; apply interp5_glue_d; try apply dR_nz; try lia; intros; reflexivity.
  - rewrite rho_0. exact HT.
Qed.
Lemma F3_dT t d T : TMin < T -> is_derive (fun T => F3 t 0 0 d T) T (F3 t 0 1 d T).
Proof.
  intros HT. set (i := isel d). unfold F3. fold i.
  set (pc := fun (o j : nat) (T : R) => interp3 (corners t j i) 0 o (dR i) ((d - rho_ i) / dR i) (dT j) ((T - T_ j) / dT j)).
  apply (pieces_derive T_ 99 (pc 0%nat) (pc 1%nat) jsel).
  - exact Tnode_lt.
  - exact jsel_spec.
  - intros k x _. unfold pc. apply interp3_dt; apply dT_nz.
  - intros k _. unfold pc. unfold dT at 2 4 6 8. rewrite !frac_1, !frac_0 by (pose proof (Tnode_lt k (S k) ltac:(lia)); lra).
    split; apply interp3_glue_t; try apply dT_nz; try lia; intros; reflexivity.
  - rewrite T_0. exact HT.
Qed.
Lemma F3_dd t d T : rhoMin < d -> is_derive (fun d => F3 t 0 0 d T) d (F3 t 1 0 d T).
Proof.
  intros HT. set (j := jsel T). unfold F3. fold j.
  set (pc := fun (o i : nat) (d : R) => interp3 (corners t j i) o 0 (dR i) ((d - rho_ i) / dR i) (dT j) ((T - T_ j) / dT j)).
  apply (pieces_derive rho_ 269 (pc 0%nat) (pc 1%nat) isel).
  - exact rnode_lt.
  - exact isel_spec.
  - intros k x _. unfold pc. apply interp3_dd; apply dR_nz.
  - intros k _. unfold pc. unfold dR at 2 4 6 8. rewrite !frac_1, !frac_0 by (pose proof (rnode_lt k (S k) ltac:(lia)); lra).
    split; apply interp3_glue_d; try apply dR_nz; try lia; intros; reflexivity.
  - rewrite rho_0. exact HT.
Qed.
(** at the nodes the interpolants return the table *)
Lemma F5_node t od ot i j : (od <= 2)%nat -> (ot <= 2)%nat -> (i <= 270)%nat -> (j <= 100)%nat -> F5 t od ot (rho_ i) (T_ j) = t od ot j i.
Proof.
  intros Ho Ht Hi Hj. unfold F5.
  assert (Ei : exists p : bool, isel (rho_ i) = (if p then Nat.pred i else i) /\ (p = true -> i = 270%nat)).
  { destruct (Nat.eq_dec i 270) as [->|N].
    - exists true. split; [|reflexivity]. apply (sel_unique rho_ 269 isel rnode_lt isel_spec).
      + destruct (Nat.eq_dec 0 270); [lia|]. left. apply rnode_lt. lia.
      + cbn. lia.
      + left. apply rnode_lt. cbn. lia.
      + right. reflexivity.
    - exists false. split; [|discriminate]. apply (sel_unique rho_ 269 isel rnode_lt isel_spec).
      + destruct i; [lra | left; apply rnode_lt; lia].
      + lia.
      + lra.
      + left. apply rnode_lt. lia. }
  assert (Ej : exists q : bool, jsel (T_ j) = (if q then Nat.pred j else j) /\ (q = true -> j = 100%nat)).
  { destruct (Nat.eq_dec j 100) as [->|N].
    - exists true. split; [|reflexivity]. apply (sel_unique T_ 99 jsel Tnode_lt jsel_spec).
      + left. apply Tnode_lt. lia.
      + cbn. lia.
      + left. apply Tnode_lt. cbn. lia.
      + right. reflexivity.
    - exists false. split; [|discriminate]. apply (sel_unique T_ 99 jsel Tnode_lt jsel_spec).
      + destruct j; [lra | left; apply Tnode_lt; lia].
      + lia.
      + lra.
      + left. apply Tnode_lt. lia. }
  destruct Ei as (p & Ei & Ip). destruct Ej as (q & Ej & Iq). rewrite Ei, Ej.
  assert (X1 : (rho_ i - rho_ (if p then Nat.pred i else i)) / dR (if p then Nat.pred i else i) = if p then 1 else 0).
  { destruct p; [|apply frac_0]. rewrite (Ip eq_refl). unfold dR. cbn [Nat.pred]. apply frac_1.
    pose proof (rnode_lt 269 270 ltac:(lia)). lra. }
  assert (X2 : (T_ j - T_ (if q then Nat.pred j else j)) / dT (if q then Nat.pred j else j) = if q then 1 else 0).
  { destruct q; [|apply frac_0]. rewrite (Iq eq_refl). unfold dT. cbn [Nat.pred]. apply frac_1.
    pose proof (Tnode_lt 99 100 ltac:(lia)). lra. }
  rewrite X1, X2, interp5_corner by (try apply dR_nz; try apply dT_nz; assumption).
  unfold corners. destruct p, q; try rewrite (Ip eq_refl); try rewrite (Iq eq_refl); reflexivity.
Qed.

(** ** electrons inside the table *)
Definition inside (rho T A Z : R) : Prop :=
  rhoMin < rho < rhoMax /\ TMin < T /\ tiny < A /\ 0 < Z /\ rhoMin < rho * (Z / A) < rhoMax.
Lemma ytot_eq A : tiny < A -> ytot_of A = / A.
Proof. intros H. unfold ytot_of. rewrite ratio_pos by lra. unfold Rdiv. ring. Qed.
Lemma ye_eq A Z : tiny < A -> ye_of A Z = Z / A.
Proof. intros H. unfold ye_of. rewrite ytot_eq by exact H. reflexivity. Qed.
Definition elec (tb : table) (only_e : bool) (rho T A Z : R) : eout :=
  electrons tb rho (log10 T) (ye_of A Z) (ytot_of A) (De_of rho A Z) (lDe_of rho A Z) only_e.
(** the same without clamps *)
Definition elecF (tb : table) (only_e : bool) (rho T A Z : R) : eout :=
  let Ye := Z / A in let Ytot := / A in let De := rho * Ye in
  let F od ot := F5 (tf tb) od ot De T in
  if only_e then mkEout zero5 (mk5 (Ye * F 0%nat 0%nat + T * (- F 0%nat 1%nat) * Ye) 0 (T * (- F 0%nat 2%nat) * Ye) 0 0) zero5 zero5 zero5
  else
    let p1 := Rmax 0 (Ye * F3 (tp tb) 0 0 De T) in
    let x := F3 (te tb) 1 0 De T in
    let eta := mk5 (F3 (te tb) 0 0 De T) (Ye * x) (F3 (te tb) 0 1 De T) (- x * De * Ytot) (x * rho * Ytot) in
    let x := Rmax 0 (F3 (tx tb) 1 0 De T) in
    let ne := mk5 (F3 (tx tb) 0 0 De T) (Ye * x) (F3 (tx tb) 0 1 De T) (- x * De * Ytot) (x * rho * Ytot) in
    let p0 := De * De * F 1%nat 0%nat in
    let s0 := - F 0%nat 1%nat * Ye in
    let s1 := - F 1%nat 1%nat * (Ye * Ye) in
    let s2 := - F 0%nat 2%nat * Ye in
    let s3 := Ytot * (Ye * F 1%nat 1%nat * De - s0) in
    let s4 := - Ytot * (Ye * F 1%nat 1%nat * rho + F 0%nat 1%nat) in
    let s := p1 / Ye - 2 * De * F 1%nat 0%nat in
    mkEout (mk5 p0 p1 (De * De * F 1%nat 1%nat) (- Ytot * (2 * p0 + s * De)) (rho * Ytot * (2 * De * F 1%nat 0%nat + s)))
      (mk5 (Ye * F 0%nat 0%nat + T * s0) (Ye * Ye * F 1%nat 0%nat + T * s1) (T * s2)
           (- Ye * Ytot * (F 0%nat 0%nat + F 1%nat 0%nat * De) + T * s3) (Ytot * (F 0%nat 0%nat + Ye * F 1%nat 0%nat * rho) + T * s4))
      (mk5 s0 s1 s2 s3 s4) eta ne.
Lemma elec_eq tb b rho T A Z : inside rho T A Z -> elec tb b rho T A Z = elecF tb b rho T A Z.
Proof.
  intros ((R1 & R2) & HT & HA & HZ & (D1 & D2)). pose proof rhoMin_pos as P. pose proof TMin_pos as PT.
  unfold elec, electrons. unfold De_of at 1, lDe_of. unfold De_of. rewrite ye_eq, ytot_eq by exact HA.
  rewrite (Rmin_right rhoMax (Rmax rhoMin rho)), (Rmax_right rhoMin rho) by (rewrite ?Rmax_right; lra).
  rewrite (Rmin_right rhoMax (Rmax rhoMin (rho * (Z / A)))), (Rmax_right rhoMin (rho * (Z / A))) by (rewrite ?Rmax_right; lra).
  assert (L1 : lRhoMin <= log10 (rho * (Z / A))). { rewrite <- (log10_pow10 lRhoMin), rhoMin_pow. apply log10_le; lra. }
  assert (L2 : log10 (rho * (Z / A)) <= lRhoMax). { rewrite <- (log10_pow10 lRhoMax), rhoMax_pow. apply log10_le; lra. }
  rewrite (Rmin_right lRhoMax (Rmax lRhoMin (log10 (rho * (Z / A))))), (Rmax_right lRhoMin (log10 (rho * (Z / A)))) by (rewrite ?Rmax_right; lra).
  rewrite pow10_log10 by lra. change (index lRhoMin lRhoMax NRHO (log10 (rho * (Z / A)))) with (isel (rho * (Z / A))).
  change (index lTMin lTMax NTEMP (log10 T)) with (jsel T).
  assert (X1 : Rmax 0 ((T - T_ (jsel T)) * (1 / (T_ (S (jsel T)) - T_ (jsel T)))) = (T - T_ (jsel T)) / dT (jsel T)).
  { destruct (jsel_spec T) as (_ & J & _); [rewrite T_0; lra|]. pose proof (Tnode_lt (jsel T) (S (jsel T)) ltac:(lia)).
    unfold dT. rewrite Rmax_right; [unfold Rdiv; ring|]. apply Rmult_le_pos; [lra|]. left. apply Rdiv_lt_0_compat; lra. }
  assert (X2 : Rmax 0 ((rho * (Z / A) - rho_ (isel (rho * (Z / A)))) * (1 / (rho_ (S (isel (rho * (Z / A)))) - rho_ (isel (rho * (Z / A))))))
               = (rho * (Z / A) - rho_ (isel (rho * (Z / A)))) / dR (isel (rho * (Z / A)))).
  { destruct (isel_spec (rho * (Z / A))) as (_ & J & _); [rewrite rho_0; lra|].
    pose proof (rnode_lt (isel (rho * (Z / A))) (S (isel (rho * (Z / A)))) ltac:(lia)).
    unfold dR. rewrite Rmax_right; [unfold Rdiv; ring|]. apply Rmult_le_pos; [lra|]. left. apply Rdiv_lt_0_compat; lra. }
  cbv zeta. rewrite X1, X2. reflexivity.
Qed.

(** the region is open in every variable *)
Lemma inside_rho rho T A Z : inside rho T A Z -> locally rho (fun r => inside r T A Z).
Proof.
  intros ((R1 & R2) & HT & HA & HZ & (D1 & D2)).
  assert (C : continuous (fun r => r * (Z / A)) rho) by (eapply derive_cont; auto_derive; [exact I | reflexivity]).
  generalize (loc_and _ _ _ (loc_gt _ _ R1) (loc_and _ _ _ (loc_lt _ _ R2) (loc_and _ _ _ (loc_gt_f _ _ _ C D1) (loc_lt_f _ _ _ C D2)))).
  apply loc_imp. intros r (A1 & A2 & A3 & A4). repeat split; assumption.
Qed.
Lemma inside_T rho T A Z : inside rho T A Z -> locally T (fun t => inside rho t A Z).
Proof.
  intros (R & HT & HA & HZ & D). generalize (loc_gt _ _ HT). apply loc_imp. intros r A1. exact (conj R (conj A1 (conj HA (conj HZ D)))).
Qed.
Lemma inside_A rho T A Z : inside rho T A Z -> locally A (fun a => inside rho T a Z).
Proof.
  intros (R & HT & HA & HZ & (D1 & D2)). pose proof tiny_pos.
  assert (C : continuous (fun a => rho * (Z / a)) A) by (eapply derive_cont; auto_derive; [lra | reflexivity]).
  generalize (loc_and _ _ _ (loc_gt _ _ HA) (loc_and _ _ _ (loc_gt_f _ _ _ C D1) (loc_lt_f _ _ _ C D2))).
  apply loc_imp. intros r (A1 & A2 & A3). exact (conj R (conj HT (conj A1 (conj HZ (conj A2 A3))))).
Qed.
Lemma inside_Z rho T A Z : inside rho T A Z -> locally Z (fun z => inside rho T A z).
Proof.
  intros (R & HT & HA & HZ & (D1 & D2)). pose proof tiny_pos.
  assert (C : continuous (fun z => rho * (z / A)) Z) by (eapply derive_cont; auto_derive; [lra | reflexivity]).
  generalize (loc_and _ _ _ (loc_gt _ _ HZ) (loc_and _ _ _ (loc_gt_f _ _ _ C D1) (loc_lt_f _ _ _ C D2))).
  apply loc_imp. intros r (A1 & A2 & A3). exact (conj R (conj HT (conj HA (conj A1 (conj A2 A3))))).
Qed.

(** ** spec: an array holds a value and its four partial derivatives *)
Definition partials (F : R -> R -> R -> R -> vec5) (rho T A Z : R) : Prop :=
  is_derive (fun r => VAL (F r T A Z)) rho (DDR (F rho T A Z)) /\ is_derive (fun t => VAL (F rho t A Z)) T (DDT (F rho T A Z)) /\
  is_derive (fun a => VAL (F rho T a Z)) A (DDA (F rho T A Z)) /\ is_derive (fun z => VAL (F rho T A z)) Z (DDZ (F rho T A Z)).

(** derivative of a composition, in the form the array entries have *)
Lemma comp_derive (f g : R -> R) (x fd gd : R) : is_derive f (g x) fd -> is_derive g x gd -> is_derive (fun y => f (g y)) x (gd * fd).
Proof. intros Hf Hg. apply (is_derive_comp (V := R_NormedModule) f g); assumption. Qed.
Lemma der_eq (f : R -> R) (x a b : R) : is_derive f x a -> a = b -> is_derive f x b.
Proof. intros H <-. exact H. Qed.
Lemma der_mult (f g : R -> R) (x f' g' : R) : is_derive f x f' -> is_derive g x g' -> is_derive (fun y => f y * g y) x (f' * g x + f x * g').
Proof.
  intros Hf Hg. apply (is_derive_mult f g x f' g' Hf Hg). intros n m. unfold mult; simpl. apply Rmult_comm.
Qed.
Lemma der_plus (f g : R -> R) (x f' g' : R) : is_derive f x f' -> is_derive g x g' -> is_derive (fun y => f y + g y) x (f' + g').
Proof. intros Hf Hg. apply (is_derive_plus (V := R_NormedModule) f g x f' g' Hf Hg). Qed.
Lemma der_opp (f : R -> R) (x f' : R) : is_derive f x f' -> is_derive (fun y => - f y) x (- f').
Proof. intros Hf. apply (is_derive_opp (V := R_NormedModule) f x f' Hf). Qed.
Lemma der_e (c u t v : R -> R) x c' u' t' v' : is_derive c x c' -> is_derive u x u' -> is_derive t x t' -> is_derive v x v' ->
  is_derive (fun y => c y * u y + t y * (- v y * c y)) x (c' * u x + c x * u' + (t' * (- v x * c x) + t x * (- v' * c x + - v x * c'))).
Proof. intros Hc Hu Ht Hv. apply der_plus; [apply der_mult; assumption|]. apply (der_mult t (fun y => - v y * c y)); [assumption|]. apply (der_mult (fun y => - v y) c); [apply der_opp|]; assumption. Qed.
Lemma der_s (c v : R -> R) x c' v' : is_derive c x c' -> is_derive v x v' -> is_derive (fun y => - v y * c y) x (- v' * c x + - v x * c').
Proof. intros Hc Hv. apply (der_mult (fun y => - v y) c); [apply der_opp|]; assumption. Qed.
Lemma der_p (d w : R -> R) x d' w' : is_derive d x d' -> is_derive w x w' -> is_derive (fun y => d y * d y * w y) x (2 * d x * d' * w x + d x * d x * w').
Proof. intros Hd Hw. eapply der_eq; [apply (der_mult (fun y => d y * d y) w); [apply der_mult; eassumption | eassumption]|]. cbv beta. ring. Qed.
Lemma der_const (c x : R) : is_derive (fun _ => c) x 0.
Proof. auto_derive; [exact I | reflexivity]. Qed.
Lemma der_id (x : R) : is_derive (fun y => y) x 1.
Proof. auto_derive; [exact I | reflexivity]. Qed.
(** electron fraction and electron density *)
Lemma der_De_rho Z A x : is_derive (fun r => r * (Z / A)) x (Z / A).
Proof. auto_derive; [exact I | ring]. Qed.
Lemma der_Ye_A Z A : A <> 0 -> is_derive (fun a => Z / a) A (- (Z / A) * / A).
Proof. intros H. auto_derive; [exact H | field; exact H]. Qed.
Lemma der_Ye_Z Z A : is_derive (fun z => z / A) Z (/ A).
Proof. auto_derive; [exact I | unfold Rdiv; ring]. Qed.
Lemma der_De_A rho Z A : A <> 0 -> is_derive (fun a => rho * (Z / a)) A (- (rho * (Z / A)) * / A).
Proof. intros H. auto_derive; [exact H | field; exact H]. Qed.
Lemma der_De_Z rho Z A : is_derive (fun z => rho * (z / A)) Z (rho * / A).
Proof. auto_derive; [exact I | unfold Rdiv; ring]. Qed.

Section Electrons.
Variables (tb : table) (rho T A Z : R).
Hypothesis H : inside rho T A Z.
Let De := rho * (Z / A).
Let HA : A <> 0. Proof. destruct H as (_ & _ & K & _). pose proof tiny_pos. lra. Qed.
Let HZ : Z <> 0. Proof. destruct H as (_ & _ & _ & K & _). lra. Qed.
Let HD : rhoMin < De. Proof. destruct H as (_ & _ & _ & _ & K & _). exact K. Qed.
Let HT : TMin < T. Proof. destruct H as (_ & K & _). exact K. Qed.
Lemma loc_rho (sel : eout -> vec5) v : is_derive (fun r => VAL (sel (elecF tb false r T A Z))) rho v -> is_derive (fun r => VAL (sel (elec tb false r T A Z))) rho v.
Proof. apply derive_loc. generalize (inside_rho _ _ _ _ H). apply loc_imp. intros y Hy. rewrite elec_eq by exact Hy. reflexivity. Qed.
Lemma loc_T b (sel : eout -> vec5) v : is_derive (fun t => VAL (sel (elecF tb b rho t A Z))) T v -> is_derive (fun t => VAL (sel (elec tb b rho t A Z))) T v.
Proof. apply derive_loc. generalize (inside_T _ _ _ _ H). apply loc_imp. intros y Hy. rewrite elec_eq by exact Hy. reflexivity. Qed.
Lemma loc_A (sel : eout -> vec5) v : is_derive (fun a => VAL (sel (elecF tb false rho T a Z))) A v -> is_derive (fun a => VAL (sel (elec tb false rho T a Z))) A v.
Proof. apply derive_loc. generalize (inside_A _ _ _ _ H). apply loc_imp. intros y Hy. rewrite elec_eq by exact Hy. reflexivity. Qed.
Lemma loc_Z (sel : eout -> vec5) v : is_derive (fun z => VAL (sel (elecF tb false rho T A z))) Z v -> is_derive (fun z => VAL (sel (elec tb false rho T A z))) Z v.
Proof. apply derive_loc. generalize (inside_Z _ _ _ _ H). apply loc_imp. intros y Hy. rewrite elec_eq by exact Hy. reflexivity. Qed.

Ltac ee := rewrite elec_eq by exact H; unfold elecF; cbv zeta; cbn [eele sele pele etaele xne VAL DDR DDT DDA DDZ]; fold De.
Lemma elec_partials_e : partials (fun r t a z => eele (elec tb false r t a z)) rho T A Z.
Proof.
  refine (conj _ (conj _ (conj _ _))).
  - apply loc_rho. unfold elecF at 1; cbv zeta; cbn [eele VAL]. eapply der_eq.
    + apply (der_e (fun _ => Z / A) (fun r => F5 (tf tb) 0 0 (r * (Z / A)) T) (fun _ => T) (fun r => F5 (tf tb) 0 1 (r * (Z / A)) T)).
      * apply der_const.
      * apply (comp_derive (fun d => F5 (tf tb) 0 0 d T) (fun r => r * (Z / A))); [apply F5_dd; [lia | lia | exact HD] | apply der_De_rho].
      * apply der_const.
      * apply (comp_derive (fun d => F5 (tf tb) 0 1 d T) (fun r => r * (Z / A))); [apply F5_dd; [lia | lia | exact HD] | apply der_De_rho].
    + ee. ring.
  - apply loc_T. unfold elecF at 1; cbv zeta; cbn [eele VAL]. eapply der_eq.
    + apply (der_e (fun _ => Z / A) (fun t => F5 (tf tb) 0 0 (rho * (Z / A)) t) (fun t => t) (fun t => F5 (tf tb) 0 1 (rho * (Z / A)) t)).
      * apply der_const.
      * apply F5_dT; [lia | lia | exact HT].
      * apply der_id.
      * apply F5_dT; [lia | lia | exact HT].
    + ee. ring.
  - apply loc_A. unfold elecF at 1; cbv zeta; cbn [eele VAL]. eapply der_eq.
    + apply (der_e (fun a => Z / a) (fun a => F5 (tf tb) 0 0 (rho * (Z / a)) T) (fun _ => T) (fun a => F5 (tf tb) 0 1 (rho * (Z / a)) T)).
      * apply der_Ye_A, HA.
      * apply (comp_derive (fun d => F5 (tf tb) 0 0 d T) (fun a => rho * (Z / a))); [apply F5_dd; [lia | lia | exact HD] | apply der_De_A, HA].
      * apply der_const.
      * apply (comp_derive (fun d => F5 (tf tb) 0 1 d T) (fun a => rho * (Z / a))); [apply F5_dd; [lia | lia | exact HD] | apply der_De_A, HA].
    + ee. unfold De. field. exact HA.
  - apply loc_Z. unfold elecF at 1; cbv zeta; cbn [eele VAL]. eapply der_eq.
    + apply (der_e (fun z => z / A) (fun z => F5 (tf tb) 0 0 (rho * (z / A)) T) (fun _ => T) (fun z => F5 (tf tb) 0 1 (rho * (z / A)) T)).
      * apply der_Ye_Z.
      * apply (comp_derive (fun d => F5 (tf tb) 0 0 d T) (fun z => rho * (z / A))); [apply F5_dd; [lia | lia | exact HD] | apply der_De_Z].
      * apply der_const.
      * apply (comp_derive (fun d => F5 (tf tb) 0 1 d T) (fun z => rho * (z / A))); [apply F5_dd; [lia | lia | exact HD] | apply der_De_Z].
    + ee. unfold De. field. exact HA.
Qed.
Lemma elec_partials_s : partials (fun r t a z => sele (elec tb false r t a z)) rho T A Z.
Proof.
  refine (conj _ (conj _ (conj _ _))).
  - apply loc_rho. unfold elecF at 1; cbv zeta; cbn [sele VAL]. eapply der_eq.
    + apply (der_s (fun _ => Z / A) (fun r => F5 (tf tb) 0 1 (r * (Z / A)) T)); [apply der_const|].
      apply (comp_derive (fun d => F5 (tf tb) 0 1 d T) (fun r => r * (Z / A))); [apply F5_dd; [lia | lia | exact HD] | apply der_De_rho].
    + ee. ring.
  - apply loc_T. unfold elecF at 1; cbv zeta; cbn [sele VAL]. eapply der_eq.
    + apply (der_s (fun _ => Z / A) (fun t => F5 (tf tb) 0 1 (rho * (Z / A)) t)); [apply der_const|]. apply F5_dT; [lia | lia | exact HT].
    + ee. ring.
  - apply loc_A. unfold elecF at 1; cbv zeta; cbn [sele VAL]. eapply der_eq.
    + apply (der_s (fun a => Z / a) (fun a => F5 (tf tb) 0 1 (rho * (Z / a)) T)); [apply der_Ye_A, HA|].
      apply (comp_derive (fun d => F5 (tf tb) 0 1 d T) (fun a => rho * (Z / a))); [apply F5_dd; [lia | lia | exact HD] | apply der_De_A, HA].
    + ee. unfold De. field. exact HA.
  - apply loc_Z. unfold elecF at 1; cbv zeta; cbn [sele VAL]. eapply der_eq.
    + apply (der_s (fun z => z / A) (fun z => F5 (tf tb) 0 1 (rho * (z / A)) T)); [apply der_Ye_Z|].
      apply (comp_derive (fun d => F5 (tf tb) 0 1 d T) (fun z => rho * (z / A))); [apply F5_dd; [lia | lia | exact HD] | apply der_De_Z].
    + ee. unfold De. field. exact HA.
Qed.
(** pressure: the true density slope is [slope]; the code takes it from its own table *)
Definition slope : R := Z / A * (2 * De * F5 (tf tb) 1 0 De T + De * De * F5 (tf tb) 2 0 De T).
Lemma elec_p_rho : is_derive (fun r => VAL (pele (elec tb false r T A Z))) rho slope.
Proof.
  apply loc_rho. unfold elecF at 1; cbv zeta; cbn [pele VAL]. eapply der_eq.
  + apply (der_p (fun r => r * (Z / A)) (fun r => F5 (tf tb) 1 0 (r * (Z / A)) T)); [apply der_De_rho|].
    apply (comp_derive (fun d => F5 (tf tb) 1 0 d T) (fun r => r * (Z / A))); [apply F5_dd; [lia | lia | exact HD] | apply der_De_rho].
  + unfold slope, De. ring.
Qed.
Lemma elec_p_T : is_derive (fun t => VAL (pele (elec tb false rho t A Z))) T (DDT (pele (elec tb false rho T A Z))).
Proof.
  apply loc_T. unfold elecF at 1; cbv zeta; cbn [pele VAL]. eapply der_eq.
  + apply (der_p (fun _ => rho * (Z / A)) (fun t => F5 (tf tb) 1 0 (rho * (Z / A)) t)); [apply der_const|]. apply F5_dT; [lia | lia | exact HT].
  + ee. unfold De. ring.
Qed.
Lemma elec_p_A : is_derive (fun a => VAL (pele (elec tb false rho T a Z))) A (- (rho / A) * slope).
Proof.
  apply loc_A. unfold elecF at 1; cbv zeta; cbn [pele VAL]. eapply der_eq.
  + apply (der_p (fun a => rho * (Z / a)) (fun a => F5 (tf tb) 1 0 (rho * (Z / a)) T)); [apply der_De_A, HA|].
    apply (comp_derive (fun d => F5 (tf tb) 1 0 d T) (fun a => rho * (Z / a))); [apply F5_dd; [lia | lia | exact HD] | apply der_De_A, HA].
  + unfold slope. fold De. generalize (F5 (tf tb) 1 0 De T) (F5 (tf tb) 2 0 De T). intros x y. unfold De. field. exact HA.
Qed.
Lemma elec_p_Z : is_derive (fun z => VAL (pele (elec tb false rho T A z))) Z (rho / Z * slope).
Proof.
  apply loc_Z. unfold elecF at 1; cbv zeta; cbn [pele VAL]. eapply der_eq.
  + apply (der_p (fun z => rho * (z / A)) (fun z => F5 (tf tb) 1 0 (rho * (z / A)) T)); [apply der_De_Z|].
    apply (comp_derive (fun d => F5 (tf tb) 1 0 d T) (fun z => rho * (z / A))); [apply F5_dd; [lia | lia | exact HD] | apply der_De_Z].
  + unfold slope. fold De. generalize (F5 (tf tb) 1 0 De T) (F5 (tf tb) 2 0 De T). intros x y. unfold De. field. split; [exact HA | exact HZ].
Qed.
(** if the pressure-slope table agrees with the free energy here, the whole array is right *)
Lemma elec_partials_p : DDR (pele (elec tb false rho T A Z)) = slope -> partials (fun r t a z => pele (elec tb false r t a z)) rho T A Z.
Proof.
  intros E. refine (conj _ (conj _ (conj _ _))).
  - rewrite E. exact elec_p_rho.
  - exact elec_p_T.
  - eapply der_eq; [exact elec_p_A|]. rewrite <- E. ee. generalize (Rmax 0 (Z / A * F3 (tp tb) 0 0 De T)) (F5 (tf tb) 1 0 De T). intros x y. unfold De. field. split; [exact HA | exact HZ].
  - eapply der_eq; [exact elec_p_Z|]. rewrite <- E. ee. generalize (Rmax 0 (Z / A * F3 (tp tb) 0 0 De T)) (F5 (tf tb) 1 0 De T). intros x y. unfold De. field; repeat split; try exact HA; exact HZ.
Qed.
Lemma elec_partials_eta : partials (fun r t a z => etaele (elec tb false r t a z)) rho T A Z.
Proof.
  refine (conj _ (conj _ (conj _ _))).
  - apply loc_rho. unfold elecF at 1; cbv zeta; cbn [etaele VAL]. eapply der_eq.
    + apply (comp_derive (fun d => F3 (te tb) 0 0 d T) (fun r => r * (Z / A))); [apply F3_dd; exact HD | apply der_De_rho].
    + ee. ring.
  - apply loc_T. unfold elecF at 1; cbv zeta; cbn [etaele VAL]. eapply der_eq; [apply F3_dT; exact HT|]. ee. reflexivity.
  - apply loc_A. unfold elecF at 1; cbv zeta; cbn [etaele VAL]. eapply der_eq.
    + apply (comp_derive (fun d => F3 (te tb) 0 0 d T) (fun a => rho * (Z / a))); [apply F3_dd; exact HD | apply der_De_A, HA].
    + ee. fold De. ring.
  - apply loc_Z. unfold elecF at 1; cbv zeta; cbn [etaele VAL]. eapply der_eq.
    + apply (comp_derive (fun d => F3 (te tb) 0 0 d T) (fun z => rho * (z / A))); [apply F3_dd; exact HD | apply der_De_Z].
    + ee. ring.
Qed.
Lemma elec_partials_ne : 0 <= F3 (tx tb) 1 0 De T -> partials (fun r t a z => xne (elec tb false r t a z)) rho T A Z.
Proof.
  intros X. refine (conj _ (conj _ (conj _ _))).
  - apply loc_rho. unfold elecF at 1; cbv zeta; cbn [xne VAL]. eapply der_eq.
    + apply (comp_derive (fun d => F3 (tx tb) 0 0 d T) (fun r => r * (Z / A))); [apply F3_dd; exact HD | apply der_De_rho].
    + ee. rewrite Rmax_right by exact X. ring.
  - apply loc_T. unfold elecF at 1; cbv zeta; cbn [xne VAL]. eapply der_eq; [apply F3_dT; exact HT|]. ee. reflexivity.
  - apply loc_A. unfold elecF at 1; cbv zeta; cbn [xne VAL]. eapply der_eq.
    + apply (comp_derive (fun d => F3 (tx tb) 0 0 d T) (fun a => rho * (Z / a))); [apply F3_dd; exact HD | apply der_De_A, HA].
    + ee. rewrite Rmax_right by exact X. ring.
  - apply loc_Z. unfold elecF at 1; cbv zeta; cbn [xne VAL]. eapply der_eq.
    + apply (comp_derive (fun d => F3 (tx tb) 0 0 d T) (fun z => rho * (z / A))); [apply F3_dd; exact HD | apply der_De_Z].
    + ee. rewrite Rmax_right by exact X. ring.
Qed.
(** with only_e the energy and its temperature derivative are the same *)
Lemma elec_only_e : VAL (eele (elec tb true rho T A Z)) = VAL (eele (elec tb false rho T A Z)) /\
  DDT (eele (elec tb true rho T A Z)) = DDT (eele (elec tb false rho T A Z)).
Proof. rewrite !elec_eq by exact H. unfold elecF. cbv zeta. cbn [eele VAL DDT]. split; ring. Qed.
(** first law *)
Lemma elec_energy_pressure : DDR (eele (elec tb false rho T A Z)) * (rho * rho) = VAL (pele (elec tb false rho T A Z)) - T * DDT (pele (elec tb false rho T A Z)).
Proof. rewrite !elec_eq by exact H. unfold elecF. cbv zeta. cbn [eele pele VAL DDR DDT]. ring. Qed.
Lemma elec_entropy : T * DDT (sele (elec tb false rho T A Z)) = DDT (eele (elec tb false rho T A Z)) /\
  rho * rho * (DDR (eele (elec tb false rho T A Z)) - T * DDR (sele (elec tb false rho T A Z))) = VAL (pele (elec tb false rho T A Z)).
Proof. rewrite !elec_eq by exact H. unfold elecF. cbv zeta. cbn [eele sele pele VAL DDR DDT]. split; ring. Qed.
End Electrons.
