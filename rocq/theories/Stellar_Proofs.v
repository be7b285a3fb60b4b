(** Lemmas about the table machinery of Stellar_Model *)
From Coq Require Import ZArith Reals List Bool Lra Lia Permutation Psatz.
From Flocq Require Import Core.
From Verif Require Import Arith Robust_Model Robust_Proofs RootFinding_Model Thermo_Spec Thermo_Tools
  SpinerUtil_Model SpinerUtil_Spec SpinerUtil_Proofs Spiner_Model Spiner_Spec Stellar_Model Stellar_Spec.
Import ListNotations.
Local Open Scope R_scope.

(** ** Grids and interpolation *)
Lemma dx_pos g : good_grid g -> 0 < g_dx g.
Proof.
  intros [A B]. unfold g_dx. apply Rdiv_lt_0_compat; [lra|]. apply (IZR_lt 0). lia.
Qed.
Lemma x_0 g : g_x g 0 = g_min g.
Proof. unfold g_x. lra. Qed.
Lemma x_last g : good_grid g -> g_x g (g_N g - 1) = g_max g.
Proof. intros [A B]. unfold g_x, g_dx. field. apply not_0_IZR. lia. Qed.
Lemma cell_range g x : good_grid g -> (0 <= cell g x <= g_N g - 2)%Z.
Proof. intros [A B]. unfold cell. lia. Qed.
(** position in units of the grid spacing *)
Definition pos_of (g : RegGrid) (x : R) : R := (x - g_min g) / g_dx g.
Lemma pos_node g i : good_grid g -> pos_of g (g_x g i) = IZR i.
Proof. intros H. assert (D := dx_pos g H). unfold pos_of, g_x. field. lra. Qed.
Lemma weight_pos g x : good_grid g -> weight g x = pos_of g x - IZR (cell g x).
Proof. intros H. assert (D := dx_pos g H). unfold weight, pos_of, g_x. field. lra. Qed.
(** where the cell is *)
Lemma cell_spec g x : good_grid g -> let u := pos_of g x in let c := cell g x in
  (c <> 0%Z -> IZR c <= u) /\ (c <> (g_N g - 2)%Z -> u < IZR c + 1).
Proof.
  intros [A B] u c. unfold c, cell. fold (pos_of g x). fold u.
  destruct (Rle_or_lt 0 u) as [P|P].
  - rewrite Ztrunc_floor by exact P. assert (F1 := Zfloor_lb u). assert (F2 := Zfloor_ub u).
    assert (F0 : (0 <= Zfloor u)%Z) by (apply Zfloor_lub; exact P). split.
    + intros N. apply Rle_trans with (2 := F1). apply IZR_le. lia.
    + intros N. replace (Z.max 0 (Z.min (Zfloor u) (g_N g - 2))) with (Zfloor u) by lia. exact F2.
  - rewrite Ztrunc_ceil by lra. assert (F : (Zceil u <= 0)%Z) by (apply Zceil_glb; simpl; lra). split.
    + intros N. exfalso. apply N. lia.
    + intros N. replace (Z.max 0 (Z.min (Zceil u) (g_N g - 2))) with 0%Z by lia. lra.
Qed.
Lemma weight_range g x : good_grid g -> in_span g x -> 0 <= weight g x <= 1.
Proof.
  intros H [I1 I2]. rewrite weight_pos by exact H. assert (D := dx_pos g H). assert (C := cell_spec g x H). cbv zeta in C. destruct C as [C1 C2].
  assert (U0 : 0 <= pos_of g x) by (unfold pos_of; apply Rmult_le_pos; [lra|left; apply Rinv_0_lt_compat; exact D]).
  assert (U1 : pos_of g x <= IZR (g_N g - 1)).
  { rewrite <- (pos_node g (g_N g - 1) H), x_last by exact H. unfold pos_of. apply Rmult_le_compat_r; [left; apply Rinv_0_lt_compat; exact D|lra]. }
  split.
  - destruct (Z.eq_dec (cell g x) 0) as [E|E]; [rewrite E; lra|]. specialize (C1 E). lra.
  - destruct (Z.eq_dec (cell g x) (g_N g - 2)) as [E|E]; [|specialize (C2 E); lra]. rewrite E.
    replace (g_N g - 1)%Z with (g_N g - 2 + 1)%Z in U1 by ring. rewrite plus_IZR in U1. lra.
Qed.
Lemma interp1_node g a i : good_grid g -> in_grid g i -> interp1 g a (g_x g i) = a i.
Proof.
  intros H I. unfold interp1. cbv zeta. rewrite weight_pos, pos_node by exact H.
  assert (R := cell_range g (g_x g i) H). assert (C := cell_spec g (g_x g i) H). cbv zeta in C. rewrite pos_node in C by exact H. destruct C as [C1 C2].
  set (c := cell g (g_x g i)) in *. unfold in_grid in I.
  assert (A : c = i \/ (c = i - 1)%Z).
  { destruct (Z.eq_dec c 0) as [E|E]; destruct (Z.eq_dec c (g_N g - 2)) as [F|F].
    - lia.
    - specialize (C2 F). rewrite <- plus_IZR in C2. apply lt_IZR in C2. lia.
    - specialize (C1 E). apply le_IZR in C1. lia.
    - specialize (C1 E). specialize (C2 F). apply le_IZR in C1. rewrite <- plus_IZR in C2. apply lt_IZR in C2. lia. }
  unfold lerp. destruct A as [-> | ->].
  - ring.
  - rewrite minus_IZR. replace (i - 1 + 1)%Z with i by ring. ring.
Qed.
Lemma lerp_lin w a b c d k m : lerp w (k * a + m * c) (k * b + m * d) = k * lerp w a b + m * lerp w c d.
Proof. unfold lerp. ring. Qed.
Lemma interp1_lin g a b k m x : interp1 g (fun i => k * a i + m * b i) x = k * interp1 g a x + m * interp1 g b x.
Proof. unfold interp1. apply lerp_lin. Qed.
Lemma interp1_const g c x : interp1 g (fun _ => c) x = c.
Proof. unfold interp1, lerp. ring. Qed.
Lemma interp1_ext g a b x : good_grid g -> (forall i, in_grid g i -> a i = b i) -> interp1 g a x = interp1 g b x.
Proof.
  intros H E. unfold interp1. assert (C := cell_range g x H). destruct H as [H _].
  rewrite !E by (unfold in_grid; lia). reflexivity.
Qed.
Lemma lerp_bounds w a b lo hi : 0 <= w <= 1 -> lo <= a <= hi -> lo <= b <= hi -> lo <= lerp w a b <= hi.
Proof. intros. unfold lerp. nra. Qed.
Lemma interp1_bounds g a x lo hi : good_grid g -> in_span g x -> (forall i, in_grid g i -> lo <= a i <= hi) -> lo <= interp1 g a x <= hi.
Proof.
  intros H S B. unfold interp1. assert (C := cell_range g x H). apply lerp_bounds; [apply weight_range; assumption| |]; apply B;
    destruct H; unfold in_grid; lia.
Qed.
(** strictly increasing data give a strictly increasing interpolant, everywhere *)
Definition clamped (N i : Z) (u : R) : R :=
  let v := u - IZR i in
  let v := if Z.eqb i 0 then v else Rmax 0 v in
  if Z.eqb i (N - 2) then v else Rmin 1 v.
Fixpoint psum (N : Z) (a : Z -> R) (n : nat) (u : R) : R :=
  match n with O => a 0%Z | S k => psum N a k u + (a (Z.of_nat k + 1)%Z - a (Z.of_nat k)) * clamped N (Z.of_nat k) u end.
Lemma clamped_spec g x i : good_grid g -> (0 <= i <= g_N g - 2)%Z -> let c := cell g x in
  clamped (g_N g) i (pos_of g x) = if Z.ltb i c then 1 else if Z.eqb i c then pos_of g x - IZR c else 0.
Proof.
  intros H I c. assert (CR := cell_range g x H). assert (CS := cell_spec g x H). cbv zeta in CS. fold c in CR, CS. destruct CS as [C1 C2].
  set (u := pos_of g x) in *. unfold clamped. destruct (Z.ltb_spec i c) as [E|E].
  - assert (IZR i + 1 <= IZR c) by (rewrite <- plus_IZR; apply IZR_le; lia). assert (c <> 0%Z) as N by lia. specialize (C1 N).
    destruct (Z.eqb_spec i (g_N g - 2)); [lia|]. destruct (Z.eqb_spec i 0).
    + apply Rmin_left. lra.
    + rewrite Rmax_right by lra. apply Rmin_left. lra.
  - destruct (Z.eqb_spec i c) as [F|F].
    + subst i. destruct (Z.eqb_spec c 0) as [Z0|Z0].
      * destruct (Z.eqb_spec c (g_N g - 2)) as [Z1|Z1]; [reflexivity|]. apply Rmin_right. specialize (C2 Z1). lra.
      * specialize (C1 Z0). rewrite Rmax_right by lra. destruct (Z.eqb_spec c (g_N g - 2)) as [Z1|Z1]; [reflexivity|]. apply Rmin_right. specialize (C2 Z1). lra.
    + assert (c < i)%Z by lia. assert (c <> (g_N g - 2)%Z) as N by lia. specialize (C2 N).
      assert (IZR c + 1 <= IZR i) by (rewrite <- plus_IZR; apply IZR_le; lia).
      destruct (Z.eqb_spec i 0); [lia|]. rewrite Rmax_left by lra. destruct (Z.eqb_spec i (g_N g - 2)); [reflexivity|]. apply Rmin_right. lra.
Qed.
Lemma psum_spec g a x n : good_grid g -> (Z.of_nat n <= g_N g - 1)%Z -> let c := cell g x in
  psum (g_N g) a n (pos_of g x) = if Z.leb (Z.of_nat n) c then a (Z.of_nat n) else a c + (a (c + 1)%Z - a c) * (pos_of g x - IZR c).
Proof.
  intros H. cbv zeta. induction n as [|n IH]; intros I.
  - cbn [psum]. assert (CR := cell_range g x H). destruct (Z.leb_spec (Z.of_nat 0) (cell g x)); [reflexivity|lia].
  - cbn [psum]. rewrite IH by lia. rewrite clamped_spec by (exact H || lia). cbv zeta.
    replace (Z.of_nat (S n)) with (Z.of_nat n + 1)%Z by lia. set (c := cell g x). set (k := Z.of_nat n).
    destruct (Z.leb_spec k c); destruct (Z.ltb_spec k c); destruct (Z.leb_spec (k + 1) c); destruct (Z.eqb_spec k c) as [E|E]; try lia; try (rewrite E; ring); try ring.
Qed.
Lemma interp1_psum g a x : good_grid g -> interp1 g a x = psum (g_N g) a (Z.to_nat (g_N g - 1)) (pos_of g x).
Proof.
  intros H. assert (CR := cell_range g x H). rewrite psum_spec by (exact H || (destruct H; lia)). cbv zeta.
  destruct (Z.leb_spec (Z.of_nat (Z.to_nat (g_N g - 1))) (cell g x)); [destruct H; lia|].
  unfold interp1, lerp. rewrite weight_pos by exact H. ring.
Qed.
Lemma cont_ext (f g : R -> R) z : (forall x, f x = g x) -> continuity_pt f z -> continuity_pt g z.
Proof. intros E H eps He. destruct (H eps He) as (a & Ha & K). exists a. split; [exact Ha|]. intros x Hx. rewrite <- !E. apply K, Hx. Qed.
Lemma cont_abs (f : R -> R) z : continuity_pt f z -> continuity_pt (fun u => Rabs (f u)) z.
Proof. intros H. apply (continuity_pt_comp f Rabs); [exact H|apply Rcontinuity_abs]. Qed.
Lemma cont_cst c z : continuity_pt (fun _ => c) z. Proof. apply continuity_pt_const. intros x y. reflexivity. Qed.
Lemma cont_Rmax c z f : continuity_pt f z -> continuity_pt (fun u => Rmax c (f u)) z.
Proof.
  intros H. apply cont_ext with (fun u => (c + f u + Rabs (c - f u)) * (1 / 2)).
  - intros u. unfold Rmax, Rabs. destruct (Rle_dec c (f u)), (Rcase_abs (c - f u)); lra.
  - apply continuity_pt_mult; [|apply cont_cst]. apply continuity_pt_plus; [apply continuity_pt_plus; [apply cont_cst|exact H]|].
    apply cont_abs. apply continuity_pt_minus; [apply cont_cst|exact H].
Qed.
Lemma cont_Rmin c z f : continuity_pt f z -> continuity_pt (fun u => Rmin c (f u)) z.
Proof.
  intros H. apply cont_ext with (fun u => (c + f u - Rabs (c - f u)) * (1 / 2)).
  - intros u. unfold Rmin, Rabs. destruct (Rle_dec c (f u)), (Rcase_abs (c - f u)); lra.
  - apply continuity_pt_mult; [|apply cont_cst]. apply continuity_pt_minus; [apply continuity_pt_plus; [apply cont_cst|exact H]|].
    apply cont_abs. apply continuity_pt_minus; [apply cont_cst|exact H].
Qed.
Lemma cont_id z : continuity_pt (fun u => u) z.
Proof. apply derivable_continuous_pt, derivable_pt_id. Qed.
Lemma cont_clamped N i z f : continuity_pt f z -> continuity_pt (fun x => clamped N i (f x)) z.
Proof.
  intros H. assert (K : continuity_pt (fun x => f x - IZR i) z) by (apply continuity_pt_minus; [exact H|apply cont_cst]).
  unfold clamped. destruct (Z.eqb i 0), (Z.eqb i (N - 2)).
  - exact K. - apply cont_Rmin. exact K. - apply cont_Rmax. exact K. - apply cont_Rmin, cont_Rmax. exact K.
Qed.
(** the interpolant is continuous *)
Lemma interp1_continuous g a z : good_grid g -> continuity_pt (interp1 g a) z.
Proof.
  intros H. apply cont_ext with (fun x => psum (g_N g) a (Z.to_nat (g_N g - 1)) (pos_of g x)).
  - intros x. symmetry. apply interp1_psum, H.
  - induction (Z.to_nat (g_N g - 1)) as [|n IH]; cbn [psum]; [apply cont_cst|].
    apply continuity_pt_plus; [exact IH|]. apply continuity_pt_mult; [apply cont_cst|]. apply cont_clamped. unfold pos_of, Rdiv.
    apply continuity_pt_mult; [apply continuity_pt_minus; [apply cont_id|apply cont_cst]|apply cont_cst].
Qed.
(** and depends continuously on its data *)
Lemma interp1_continuous_data g (a : R -> Z -> R) y z : (forall i, continuity_pt (fun x => a x i) z) -> continuity_pt (fun x => interp1 g (a x) y) z.
Proof.
  intros H. unfold interp1, lerp. apply continuity_pt_plus; (apply continuity_pt_mult; [apply cont_cst|apply H]).
Qed.
Lemma clamped_incr N i u v : u <= v -> clamped N i u <= clamped N i v.
Proof.
  intros H. unfold clamped. destruct (Z.eqb i 0), (Z.eqb i (N - 2)); [lra| | |].
  - apply Rle_min_compat_l. lra. - apply Rle_max_compat_l. lra. - apply Rle_min_compat_l, Rle_max_compat_l. lra.
Qed.
Lemma psum_incr N a n u v : (forall i, (0 <= i < Z.of_nat n)%Z -> a i <= a (i + 1)%Z) -> u <= v -> psum N a n u <= psum N a n v.
Proof.
  intros H E. induction n as [|n IH]; cbn [psum]; [lra|].
  assert (psum N a n u <= psum N a n v) by (apply IH; intros i Hi; apply H; lia).
  assert (K := clamped_incr N (Z.of_nat n) u v E). assert (M := H (Z.of_nat n) ltac:(lia)). nra.
Qed.
Lemma interp1_incr_strict g a x y : good_grid g -> (forall i, in_grid g i -> in_grid g (i + 1) -> a i < a (i + 1)%Z) -> x < y ->
  interp1 g a x < interp1 g a y.
Proof.
  intros H M L. assert (D := dx_pos g H). assert (U : pos_of g x < pos_of g y).
  { unfold pos_of. apply Rmult_lt_compat_r; [apply Rinv_0_lt_compat; exact D|lra]. }
  rewrite !interp1_psum by exact H. set (n := Z.to_nat (g_N g - 1)). assert (EN : Z.of_nat n = (g_N g - 1)%Z) by (destruct H; lia).
  assert (CX := cell_range g x H). assert (KX := clamped_spec g x). assert (KY := clamped_spec g y). cbv zeta in KX, KY.
  (* the cell of x contributes strictly *)
  set (c := cell g x) in *.
  assert (ST : forall k, (k <= n)%nat -> (if Nat.ltb (Z.to_nat c) k then psum (g_N g) a k (pos_of g x) < psum (g_N g) a k (pos_of g y)
                else psum (g_N g) a k (pos_of g x) <= psum (g_N g) a k (pos_of g y))).
  { induction k as [|k IH]; intros Hk; [cbn; lra|]. specialize (IH ltac:(lia)). cbn [psum].
    assert (MK : a (Z.of_nat k) < a (Z.of_nat k + 1)%Z) by (apply M; unfold in_grid; lia).
    assert (CL := clamped_incr (g_N g) (Z.of_nat k) _ _ (Rlt_le _ _ U)).
    destruct (Nat.ltb_spec (Z.to_nat c) (S k)) as [A|A]; destruct (Nat.ltb_spec (Z.to_nat c) k) as [B|B]; try lia.
    - nra.
    - assert (E : Z.of_nat k = c) by lia. rewrite E in *.
      assert (CS : clamped (g_N g) c (pos_of g x) < clamped (g_N g) c (pos_of g y)).
      { rewrite KX, KY by (exact H || lia). rewrite Z.ltb_irrefl, Z.eqb_refl. 
        assert (CS := cell_spec g x H). cbv zeta in CS. fold c in CS. destruct CS as [C1 C2].
        assert (CSY := cell_spec g y H). cbv zeta in CSY. destruct CSY as [C3 C4]. assert (CY := cell_range g y H).
        destruct (Z.ltb_spec c (cell g y)) as [F|F]; [assert (c <> (g_N g - 2)%Z) as N1 by lia; specialize (C2 N1); lra|].
        destruct (Z.eqb_spec c (cell g y)) as [F1|F1]; [rewrite <- F1; lra|]. exfalso.
        assert (c <> 0%Z) as N0 by lia. assert (cell g y <> (g_N g - 2)%Z) as N1 by lia. specialize (C1 N0). specialize (C4 N1).
        assert (IZR (cell g y) + 1 <= IZR c) by (rewrite <- plus_IZR; apply IZR_le; lia). lra. }
      nra.
    - nra. }
  specialize (ST n ltac:(lia)). destruct (Nat.ltb_spec (Z.to_nat c) n); [exact ST|lia].
Qed.

(** ** Three dimensions *)
Definition good3 (d : DB3) : Prop := good_grid (d_Y d) /\ good_grid (d_T d) /\ good_grid (d_R d).
Definition in3 (d : DB3) (i j k : Z) : Prop := in_grid (d_Y d) i /\ in_grid (d_T d) j /\ in_grid (d_R d) k.
Lemma interp3_node d i j k : good3 d -> in3 d i j k -> interp3 d (g_x (d_Y d) i) (g_x (d_T d) j) (g_x (d_R d) k) = d_at d i j k.
Proof. intros (A & B & C) (I & J & K). unfold interp3. rewrite interp1_node, interp1_node, interp1_node by assumption. reflexivity. Qed.
Lemma interp2_node d i k : good_grid (e_Y d) -> good_grid (e_R d) -> in_grid (e_Y d) i -> in_grid (e_R d) k ->
  interp2 d (g_x (e_Y d) i) (g_x (e_R d) k) = e_at d i k.
Proof. intros A C I K. unfold interp2. rewrite interp1_node, interp1_node by assumption. reflexivity. Qed.
Lemma interp3_continuous_T d y r z : good3 d -> continuity_pt (fun t => interp3 d y t r) z.
Proof. intros (A & B & C). unfold interp3. apply interp1_continuous_data. intros i. apply interp1_continuous, B. Qed.
Lemma interp3_continuous_R d y t z : good3 d -> continuity_pt (fun r => interp3 d y t r) z.
Proof. intros (A & B & C). unfold interp3. apply interp1_continuous_data. intros i. apply interp1_continuous_data. intros j. apply interp1_continuous, C. Qed.
Lemma interp3_bounds d y t r lo hi : good3 d -> in_span (d_Y d) y -> in_span (d_T d) t -> in_span (d_R d) r ->
  (forall i j k, in3 d i j k -> lo <= d_at d i j k <= hi) -> lo <= interp3 d y t r <= hi.
Proof.
  intros (A & B & C) Y T R H. unfold interp3. apply interp1_bounds; try assumption. intros i Hi. apply interp1_bounds; try assumption. intros j Hj.
  apply interp1_bounds; try assumption. intros k Hk. apply H. unfold in3. auto.
Qed.
Lemma interp2_bounds d y r lo hi : good_grid (e_Y d) -> good_grid (e_R d) -> in_span (e_Y d) y -> in_span (e_R d) r ->
  (forall i k, in_grid (e_Y d) i -> in_grid (e_R d) k -> lo <= e_at d i k <= hi) -> lo <= interp2 d y r <= hi.
Proof.
  intros A C Y R H. unfold interp2. apply interp1_bounds; try assumption. intros i Hi. apply interp1_bounds; try assumption. intros k Hk. apply H; assumption.
Qed.
Lemma interp1_mono_data g a b x : good_grid g -> in_span g x -> (forall i, in_grid g i -> a i < b i) -> interp1 g a x < interp1 g b x.
Proof.
  intros H S M. unfold interp1, lerp. assert (C := cell_range g x H). assert (W := weight_range g x H S).
  assert (M1 : a (cell g x) < b (cell g x)) by (apply M; destruct H; unfold in_grid; lia).
  assert (M2 : a (cell g x + 1)%Z < b (cell g x + 1)%Z) by (apply M; destruct H; unfold in_grid; lia).
  destruct (Req_dec (weight g x) 0) as [E|E]; [rewrite E; lra|].
  assert (0 < weight g x * (b (cell g x + 1)%Z - a (cell g x + 1)%Z)) by (apply Rmult_lt_0_compat; lra).
  assert (0 <= (1 - weight g x) * (b (cell g x) - a (cell g x))) by (apply Rmult_le_pos; lra). lra.
Qed.
Lemma interp3_incr_T d y r : good3 d -> in_span (d_Y d) y -> in_span (d_R d) r ->
  (forall i j k, in3 d i j k -> in3 d i (j + 1) k -> d_at d i j k < d_at d i (j + 1) k) ->
  forall t t', t < t' -> interp3 d y t r < interp3 d y t' r.
Proof.
  intros (A & B & C) Y R M t t' L. unfold interp3. apply interp1_mono_data; try assumption. intros i Hi.
  apply interp1_incr_strict; try assumption. intros j J1 J2. apply interp1_mono_data; try assumption. intros k Hk.
  apply M; unfold in3; auto.
Qed.

(** ** Loops *)
Lemma in_zseq a b i : In i (zseq a b) <-> (a <= i < b)%Z.
Proof.
  unfold zseq. rewrite in_map_iff. split.
  - intros (k & <- & H). apply in_seq in H. lia.
  - intros H. exists (Z.to_nat (i - a)). split; [lia|]. apply in_seq. lia.
Qed.
Lemma nodup_zseq a b : NoDup (zseq a b).
Proof.
  unfold zseq. apply FinFun.Injective_map_NoDup; [|apply seq_NoDup]. intros x y. lia.
Qed.
(** writes to distinct entries, each reading only the entry it overwrites *)
Lemma fold_set (lR : list Z) (i j : Z) (f : Z -> R -> R) a : NoDup lR ->
  forall i' j' k', fold_left (fun a ir => set3 a i j ir (f ir (a i j ir))) lR a i' j' k' =
    if (Z.eqb i' i && Z.eqb j' j)%bool then (if in_dec Z.eq_dec k' lR then f k' (a i j k') else a i' j' k') else a i' j' k'.
Proof.
  intros ND. revert a. induction lR as [|x l IH]; intros a i' j' k'; cbn [fold_left].
  - destruct (Z.eqb i' i && Z.eqb j' j)%bool; [destruct (in_dec _ _ _) as [[]|]|]; reflexivity.
  - inversion ND as [|? ? N1 N2]; subst. rewrite (IH N2). clear IH. unfold set3.
    destruct (Z.eqb_spec i' i) as [->|E1]; [|reflexivity]. destruct (Z.eqb_spec j' j) as [->|E2]; [|reflexivity]. cbn [andb].
    rewrite !Z.eqb_refl. cbn [andb].
    destruct (in_dec Z.eq_dec k' l) as [I|I]; destruct (in_dec Z.eq_dec k' (x :: l)) as [J|J].
    + destruct (Z.eqb_spec k' x); [subst; contradiction|reflexivity].
    + exfalso. apply J. right. exact I.
    + destruct J as [->|J]; [|contradiction]. rewrite Z.eqb_refl. reflexivity.
    + destruct (Z.eqb_spec k' x); [subst; exfalso; apply J; left; reflexivity|reflexivity].
Qed.
Definition inZ (x : Z) (l : list Z) : bool := if in_dec Z.eq_dec x l then true else false.
Lemma fold_setT (lT lR : list Z) (i : Z) (f : Z -> Z -> R -> R) a : NoDup lT -> NoDup lR ->
  forall i' j' k', fold_left (fun a iT => fold_left (fun a ir => set3 a i iT ir (f iT ir (a i iT ir))) lR a) lT a i' j' k' =
    if (Z.eqb i' i && inZ j' lT && inZ k' lR)%bool then f j' k' (a i' j' k') else a i' j' k'.
Proof.
  intros NT NR. revert a. induction lT as [|x l IH]; intros a i' j' k'; cbn [fold_left].
  - unfold inZ at 1. destruct (in_dec _ j' []) as [[]|]. rewrite andb_false_r. reflexivity.
  - inversion NT as [|? ? N1 N2]; subst. rewrite (IH N2). clear IH. rewrite (fold_set lR i x (f x) a NR).
    destruct (Z.eqb_spec i' i) as [->|E1]; cbn [andb]; [|reflexivity]. unfold inZ.
    destruct (in_dec Z.eq_dec j' l) as [I|I]; destruct (in_dec Z.eq_dec j' (x :: l)) as [J|J]; destruct (in_dec Z.eq_dec k' lR) as [K|K]; cbn [andb];
      try (exfalso; apply J; right; assumption); destruct (Z.eqb_spec j' x) as [->|E]; try contradiction; try reflexivity;
      try (destruct J as [->|J]; contradiction); try (exfalso; apply J; left; reflexivity).
Qed.
Lemma for3_spec lY lT lR (f : Z -> Z -> Z -> R -> R) a : NoDup lY -> NoDup lT -> NoDup lR ->
  forall i j k, for3 lY lT lR (fun a i j k => f i j k (a i j k)) a i j k =
    if (inZ i lY && inZ j lT && inZ k lR)%bool then f i j k (a i j k) else a i j k.
Proof.
  intros NY NT NR. unfold for3. revert a. induction lY as [|x l IH]; intros a i j k; cbn [fold_left].
  - unfold inZ at 1. destruct (in_dec _ i []) as [[]|]. reflexivity.
  - inversion NY as [|? ? N1 N2]; subst. rewrite (IH N2). clear IH. rewrite (fold_setT lT lR x (f x) a NT NR).
    generalize (inZ j lT) (inZ k lR); intros bj bk. unfold inZ. destruct (in_dec Z.eq_dec i l) as [I|I]; destruct (in_dec Z.eq_dec i (x :: l)) as [J|J]; destruct (Z.eqb_spec i x) as [->|E]; cbn [andb];
      try contradiction; try reflexivity; try (exfalso; apply J; (left; reflexivity) || (right; assumption));
      try (destruct J as [->|J]; contradiction).
  all: try (destruct (bj && bk)%bool; reflexivity).
Qed.
Lemma inZ_zseq i a b : inZ i (zseq a b) = (Z.leb a i && Z.ltb i b)%bool.
Proof.
  unfold inZ. destruct (in_dec Z.eq_dec i (zseq a b)) as [I|I]; rewrite in_zseq in I; symmetry.
  - apply andb_true_intro. split; [apply Z.leb_le|apply Z.ltb_lt]; lia.
  - apply not_true_is_false. intros H. apply andb_prop in H. destruct H as [A B]. apply Z.leb_le in A. apply Z.ltb_lt in B. lia.
Qed.
(** a loop over a box of entries whose values do not depend on the array written *)
Lemma for3_box y0 y1 t0 t1 r0 r1 (f : Z -> Z -> Z -> R) a i j k :
  for3 (zseq y0 y1) (zseq t0 t1) (zseq r0 r1) (fun _ i j k => f i j k) a i j k =
    if (Z.leb y0 i && Z.ltb i y1 && (Z.leb t0 j && Z.ltb j t1) && (Z.leb r0 k && Z.ltb k r1))%bool then f i j k else a i j k.
Proof.
  change (fun (_ : arr3) (i j k : Z) => f i j k) with (fun (a : arr3) (i j k : Z) => (fun i j k (_ : R) => f i j k) i j k (a i j k)).
  rewrite (for3_spec _ _ _ (fun i j k _ => f i j k) a (nodup_zseq _ _) (nodup_zseq _ _) (nodup_zseq _ _)), !inZ_zseq. reflexivity.
Qed.
Lemma box_true y0 y1 t0 t1 r0 r1 i j k : (y0 <= i < y1)%Z -> (t0 <= j < t1)%Z -> (r0 <= k < r1)%Z ->
  (Z.leb y0 i && Z.ltb i y1 && (Z.leb t0 j && Z.ltb j t1) && (Z.leb r0 k && Z.ltb k r1))%bool = true.
Proof.
  intros [A B] [C D] [E F]. rewrite !andb_true_iff, !Z.leb_le, !Z.ltb_lt. auto.
Qed.
Lemma box_false y0 y1 t0 t1 r0 r1 i j k : ~ ((y0 <= i < y1)%Z /\ (t0 <= j < t1)%Z /\ (r0 <= k < r1)%Z) ->
  (Z.leb y0 i && Z.ltb i y1 && (Z.leb t0 j && Z.ltb j t1) && (Z.leb r0 k && Z.ltb k r1))%bool = false.
Proof.
  intros H. apply not_true_is_false. rewrite !andb_true_iff, !Z.leb_le, !Z.ltb_lt. intros K. apply H. lia.
Qed.

(** ** Median *)
Lemma insert_perm x l : Permutation (insert x l) (x :: l).
Proof.
  induction l as [|y r IH]; cbn; [reflexivity|]. destruct (Rle_bool x y); [reflexivity|].
  rewrite IH. apply perm_swap.
Qed.
Lemma isort_perm l : Permutation (isort l) l.
Proof. induction l as [|x r IH]; cbn; [reflexivity|]. rewrite insert_perm, IH. reflexivity. Qed.
Inductive sorted : list R -> Prop := s_nil : sorted [] | s_cons x l : (forall y, In y l -> x <= y) -> sorted l -> sorted (x :: l).
Lemma insert_sorted x l : sorted l -> sorted (insert x l).
Proof.
  intros H. induction H as [|y r A B IH]; cbn.
  - constructor; [intros y []|constructor].
  - case Rle_bool_spec; intros E.
    + constructor; [|constructor; assumption]. intros z [->|Hz]; [exact E|]. specialize (A z Hz). lra.
    + constructor; [|exact IH]. intros z Hz. apply (Permutation_in _ (insert_perm x r)) in Hz. destruct Hz as [->|Hz]; [lra|apply A, Hz].
Qed.
Lemma isort_sorted l : sorted (isort l).
Proof. induction l as [|x r IH]; cbn; [constructor|apply insert_sorted, IH]. Qed.
Lemma count_perm p l l' : Permutation l l' -> count p l = count p l'.
Proof. intros H. unfold count. apply Permutation_length. induction H; cbn; repeat match goal with |- context [p ?x] => destruct (p x) end; auto; try (constructor; auto; fail). 
  etransitivity; eassumption.
Qed.
Lemma sorted_below l : sorted l -> forall n, (n < length l)%nat -> (count (fun x => Rlt_bool x (nth n l 0%R)) l <= n)%nat.
Proof.
  intros H. induction H as [|y r A B IH]; intros n Hn; [cbn in Hn; lia|]. unfold count in *. destruct n as [|n]; cbn [nth filter].
  - rewrite Rlt_bool_false by lra. assert (E : filter (fun x => Rlt_bool x y) r = []).
    { clear - A. induction r as [|z r IH]; [reflexivity|]. cbn. rewrite Rlt_bool_false by (apply A; left; reflexivity). apply IH. intros u Hu. apply A. right. exact Hu. }
    rewrite E. cbn. lia.
  - cbn in Hn. specialize (IH n ltac:(lia)). destruct (Rlt_bool y (nth n r 0)); cbn [length]; lia.
Qed.
Lemma sorted_above l : sorted l -> forall n, (n < length l)%nat -> (count (fun x => Rlt_bool (nth n l 0%R) x) l <= length l - 1 - n)%nat.
Proof.
  intros H. induction H as [|y r A B IH]; intros n Hn; [cbn in Hn; lia|]. unfold count in *. destruct n as [|n]; cbn [nth filter].
  - rewrite Rlt_bool_false by lra. assert (E : (length (filter (fun x => Rlt_bool y x) r) <= length r)%nat).
    { clear. induction r as [|z r IH]; [cbn; lia|]. cbn. destruct (Rlt_bool y z); cbn; lia. }
    cbn [length]. lia.
  - cbn in Hn. specialize (IH n ltac:(lia)). rewrite Rlt_bool_false by (apply A, nth_In; lia). cbn [length]. lia.
Qed.
Lemma findMedian_odd l : Nat.even (length l) = false -> is_median Rlt_bool (findMedian_ l) l.
Proof.
  intros H. unfold findMedian_. cbv zeta. rewrite H. set (n := (length l / 2)%nat). assert (P := isort_perm l). assert (LE := Permutation_length P).
  assert (O : (length l = 2 * n + 1)%nat).
  { assert (D := Nat.div_mod (length l) 2 ltac:(lia)). fold n in D. assert (M : (length l mod 2 = 1)%nat).
    { assert (X := Nat.mod_upper_bound (length l) 2 ltac:(lia)). destruct (Nat.eq_dec (length l mod 2) 0) as [E|E]; [|lia].
      exfalso. assert (Nat.even (length l) = true); [|congruence]. apply Nat.even_spec. exists n. lia. }
    lia. }
  split; [|split].
  - apply (Permutation_in _ P), nth_In. lia.
  - rewrite <- (count_perm _ _ _ P). assert (K := sorted_below _ (isort_sorted l) n ltac:(lia)). lia.
  - rewrite <- (count_perm _ _ _ P). assert (K := sorted_above _ (isort_sorted l) n ltac:(lia)). lia.
Qed.
Lemma window_in w i j k tab v : In v (fillMedianBuffer_ w i j k tab) <-> in_window tab w i j k v.
Proof.
  unfold fillMedianBuffer_, in_window. rewrite in_flat_map. split.
  - intros (wY & HY & H). apply in_flat_map in H. destruct H as (wT & HT & H). apply in_map_iff in H. destruct H as (wR & <- & HR).
    rewrite in_zseq in HY, HT, HR. exists (i + wY)%Z, (j + wT)%Z, (k + wR)%Z. split; [lia|reflexivity].
  - intros (i' & j' & k' & H & ->). exists (i' - i)%Z. split; [apply in_zseq; lia|]. apply in_flat_map. exists (j' - j)%Z.
    split; [apply in_zseq; lia|]. apply in_map_iff. exists (k' - k)%Z. split; [f_equal; ring|apply in_zseq; lia].
Qed.
Lemma buffer_length i j k tab : length (fillMedianBuffer_ MF_W i j k tab) = 343%nat.
Proof. reflexivity. Qed.
