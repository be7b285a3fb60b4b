(** Lemmas about the index-skipping loops and the step-scaling loops of the PTE systems *)
From Coq Require Import ZArith Reals Bool List Lia Lra.
From Flocq Require Import Core.
From Verif Require Import Arith Robust_Model Robust_Proofs Thermo_Spec Thermo_Tools PTE_Driver_Model PTE_Model PTE_Tools.
Import ListNotations.
Local Open Scope R_scope.

(** position of material m in a list of unknowns starting at 1 and skipping material k *)
Definition didx (k m : nat) : nat := if (m <? k)%nat then S m else m.
Lemma didx_pos k m : m <> k -> (1 <= didx k m)%nat.
Proof. unfold didx. destruct (Nat.ltb_spec m k); lia. Qed.
Lemma didx_lt n k m : (m < n)%nat -> (k < n)%nat -> m <> k -> (didx k m < n)%nat.
Proof. unfold didx. destruct (Nat.ltb_spec m k); lia. Qed.
Lemma didx_inj k m m' : m <> k -> m' <> k -> didx k m = didx k m' -> m = m'.
Proof. unfold didx. destruct (Nat.ltb_spec m k), (Nat.ltb_spec m' k); lia. Qed.
Lemma didx_surj n k i : (k < n)%nat -> (1 <= i < n)%nat -> exists m, (m < n)%nat /\ m <> k /\ didx k m = i.
Proof.
  intros Hk Hi. destruct (Nat.leb_spec i k).
  - exists (i - 1)%nat. unfold didx. destruct (Nat.ltb_spec (i - 1) k); repeat split; lia.
  - exists i. unfold didx. destruct (Nat.ltb_spec i k); repeat split; lia.
Qed.
(** the running index before material m *)
Definition run_idx (k m : nat) : nat := if (m <=? k)%nat then S m else m.
Lemma run_idx_at k m : m <> k -> run_idx k m = didx k m.
Proof. unfold run_idx, didx. destruct (Nat.leb_spec m k), (Nat.ltb_spec m k); lia. Qed.
Lemma run_idx_S k m : run_idx k (S m) = if (m =? k)%nat then run_idx k m else S (run_idx k m).
Proof. unfold run_idx. destruct (Nat.leb_spec (S m) k), (Nat.leb_spec m k), (Nat.eqb_spec m k); lia. Qed.

(** generic: a loop carrying an accumulator and the skipping index *)
Lemma skip_fold {B} (k : nat) (stepk step : B -> nat -> nat -> B) (b0 : B) : forall n,
  fold_left (fun '(b, i) m => if (m =? k)%nat then (stepk b i m, i) else (step b i m, S i)) (seq 0 n) (b0, 1%nat) =
  (fold_left (fun b m => if (m =? k)%nat then stepk b (run_idx k m) m else step b (run_idx k m) m) (seq 0 n) b0, run_idx k n).
Proof.
  induction n as [|n IH]; [reflexivity|]. rewrite seq_S, !fold_left_app, IH. cbn. rewrite run_idx_S.
  destruct (Nat.eqb_spec n k); reflexivity.
Qed.

Definition scatter (k n : nat) (g : nat -> R) (r0 : nat -> R) : nat -> R :=
  fst (fold_left (fun '(r, i) m => if (m =? k)%nat then (r, i) else (upd r i (g m), S i)) (seq 0 n) (r0, 1%nat)).
Lemma scatter_spec k n g r0 : (k < n)%nat ->
  scatter k n g r0 0%nat = r0 0%nat /\
  (forall m, (m < n)%nat -> m <> k -> scatter k n g r0 (didx k m) = g m) /\
  (forall i, (n <= i)%nat -> scatter k n g r0 i = r0 i).
Proof.
  intros Hk. unfold scatter. rewrite (skip_fold k (fun b _ _ => b) (fun b i m => upd b i (g m)) r0 n). cbn [fst].
  assert (forall N, let r := fold_left (fun b m => if (m =? k)%nat then b else upd b (run_idx k m) (g m)) (seq 0 N) r0 in
    r 0%nat = r0 0%nat /\ (forall m, (m < N)%nat -> m <> k -> r (didx k m) = g m) /\ (forall i, (run_idx k N <= i)%nat -> r i = r0 i)) as H.
  { induction N as [|N IH]; cbv zeta; [cbn; repeat split; lia|]. rewrite seq_S, fold_left_app. cbn [fold_left plus].
    cbv zeta in IH. set (r := fold_left _ (seq 0 N) r0) in *. clearbody r. destruct IH as (I1 & I2 & I3).
    rewrite run_idx_S. destruct (Nat.eqb_spec N k) as [E|E].
    - split; [exact I1|]. split; [|exact I3]. intros m Hm Hne. apply I2; lia.
    - assert (1 <= run_idx k N)%nat by (rewrite run_idx_at by exact E; apply didx_pos; exact E).
      split; [rewrite upd_other by lia; exact I1|]. split.
      + intros m Hm Hne. destruct (Nat.eq_dec m N) as [->|HmN].
        * rewrite <- run_idx_at by exact E. apply upd_same.
        * rewrite upd_other; [apply I2; lia|]. rewrite run_idx_at by exact E. intros HH. apply didx_inj in HH; lia.
      + intros i Hi. rewrite upd_other by lia. apply I3. lia. }
  destruct (H n) as (H1 & H2 & H3). split; [exact H1|]. split; [exact H2|].
  intros i Hi. apply H3. unfold run_idx. destruct (Nat.leb_spec n k); lia.
Qed.

Definition gather (k n : nat) (g : nat -> nat -> R) (v0 : nat -> R) : nat -> R :=
  fst (fold_left (fun '(v, i) m => if (m =? k)%nat then (v, i) else (upd v m (g m i), S i)) (seq 0 n) (v0, 1%nat)).
Lemma gather_spec k n g v0 : forall m, gather k n g v0 m =
  if (m <? n)%nat && negb (m =? k)%nat then g m (didx k m) else v0 m.
Proof.
  unfold gather. rewrite (skip_fold k (fun b _ _ => b) (fun b i m => upd b m (g m i)) v0 n). cbn [fst].
  induction n as [|n IH]; intros m; [reflexivity|]. rewrite seq_S, fold_left_app. cbn [fold_left plus].
  set (v := fold_left _ (seq 0 n) v0) in *. clearbody v.
  destruct (Nat.eqb_spec n k) as [E|E].
  - rewrite IH. destruct (Nat.eqb_spec m k) as [E'|E']; [rewrite !andb_false_r; reflexivity|].
    cbn [negb]. rewrite !andb_true_r. destruct (Nat.ltb_spec m n), (Nat.ltb_spec m (S n)); try reflexivity; lia.
  - destruct (Nat.eq_dec m n) as [->|Hm].
    + rewrite upd_same. destruct (Nat.ltb_spec n (S n)); [|lia]. destruct (Nat.eqb_spec n k); [contradiction|]. cbn [negb andb].
      rewrite run_idx_at by exact E. reflexivity.
    + rewrite upd_other by exact Hm. rewrite IH. destruct (Nat.ltb_spec m n), (Nat.ltb_spec m (S n)); try reflexivity; lia.
Qed.

(** ** scaling loops *)
Lemma fold_scale (P : nat -> R -> Prop) (step : R -> nat -> R) n :
  (forall m sc, (m < n)%nat -> 0 <= sc -> 0 <= step sc m <= sc /\ P m (step sc m)) ->
  (forall m sc sc', (m < n)%nat -> P m sc -> 0 <= sc' <= sc -> P m sc') ->
  forall sc0, 0 <= sc0 -> let sc := fold_left step (seq 0 n) sc0 in 0 <= sc <= sc0 /\ forall m, (m < n)%nat -> P m sc.
Proof.
  intros H1 H2 sc0 H0. assert (forall N, (N <= n)%nat -> let sc := fold_left step (seq 0 N) sc0 in 0 <= sc <= sc0 /\ forall m, (m < N)%nat -> P m sc) as H.
  { induction N as [|N IH]; intros HN; cbv zeta; [cbn; split; [lra|intros; lia]|]. rewrite seq_S, fold_left_app. cbn [fold_left plus].
    destruct (IH ltac:(lia)) as [I1 I2]. set (sc := fold_left step (seq 0 N) sc0) in *. clearbody sc.
    destruct (H1 N sc ltac:(lia) ltac:(lra)) as [J1 J2]. split; [lra|]. intros m Hm.
    destruct (Nat.eq_dec m N) as [->|HmN]; [exact J2|]. apply (H2 m sc); [lia|apply I2; lia|lra]. }
  apply H. lia.
Qed.
(** the three clipping rules of the ScaleDx methods *)
Lemma clip_low f v d sc : 0 <= f -> 0 < v -> 0 <= sc -> sc * d < - f * v ->
  0 <= ratio (- f * v) d <= sc /\ - f * v <= ratio (- f * v) d * d.
Proof.
  intros Hf Hv Hs H. assert (0 <= f * v) by (apply Rmult_le_pos; lra). assert (d < 0) as Hd by nra.
  destruct (ratio_mul_neg (- f * v) d ltac:(lra) Hd) as [[A B] C]. split; [|exact A]. split; [exact C|]. nra.
Qed.
Lemma ratio_scal c a b : ratio (c * a) b = c * ratio a b.
Proof. unfold ratio. destruct (Rle_bool _ _); unfold ratio_exact; unfold Rdiv; ring. Qed.
Lemma clip_low' f v d sc : 0 <= f -> 0 < v -> 0 <= sc -> sc * d < - f * v ->
  0 <= - f * ratio v d <= sc /\ - f * v <= - f * ratio v d * d.
Proof. intros Hf Hv Hs H. pose proof (clip_low f v d sc Hf Hv Hs H) as HH. rewrite ratio_scal in HH. exact HH. Qed.
Lemma clip_high a d sc : 0 <= a -> 0 <= sc -> a < sc * d -> 0 <= ratio a d <= sc /\ ratio a d * d <= a.
Proof.
  intros Ha Hs H. assert (0 < d) as Hd by nra. destruct (ratio_mul_le a d Ha Hd) as [A B].
  pose proof (ratio_pos_nonneg a d Ha ltac:(lra)). split; [|exact B]. split; [assumption|]. nra.
Qed.
(** a convex step keeps positivity *)
Lemma convex_pos v d t : 0 < v -> 0 < v + d -> 0 <= t <= 1 -> 0 < v + t * d.
Proof. intros. destruct (Rle_dec 0 d); nra. Qed.
Lemma tiny_e14 : tiny < 1 / 100000000000000.
Proof.
  unfold tiny. apply Rlt_le_trans with (bpow radix2 (-50)); [apply bpow_lt; lia|]. cbn. lra.
Qed.
Lemma sqrt_term (f : nat -> R) k N tol : (k < N)%nat -> sqrt (rsum N (fun j => f j * f j)) < tol -> Rabs (f k) < tol.
Proof.
  intros Hk H. apply Rle_lt_trans with (2 := H).
  assert (f k * f k <= rsum N (fun j => f j * f j)) as HH by (apply (rsum_ge_term N (fun j => f j * f j) k Hk); intros m _; nra).
  rewrite <- (sqrt_Rsqr_abs (f k)). apply sqrt_le_1_alt. exact HH.
Qed.
(** ** linear systems *)
Definition matvec (N : nat) (a x : nat -> R) (i : nat) : R := rsum N (fun j => a (i * N + j)%nat * x j).
Definition nonsingular (N : nat) (a : nat -> R) : Prop :=
  forall x, (forall i, (i < N)%nat -> matvec N a x i = 0) -> forall j, (j < N)%nat -> x j = 0.
(** the library routine solves every nonsingular system of size three or more *)
Definition exact_solver (lin : nat -> (nat -> R) -> (nat -> R) -> (nat -> R)) : Prop :=
  forall N a b, (3 <= N)%nat -> nonsingular N a -> forall i, (i < N)%nat -> matvec N a (lin N a b) i = b i.

Lemma rowmax_ge N a row c : (c < N)%nat -> Rabs (a (row * N + c)%nat) <= rowmax N a row.
Proof.
  intros Hc. unfold rowmax.
  assert (forall M, let r := fold_left (fun mx c => Rmax (Rabs (a (row * N + c)%nat)) mx) (seq 0 M) 0 in forall c, (c < M)%nat -> Rabs (a (row * N + c)%nat) <= r) as H.
  { induction M as [|M IH]; cbv zeta; [intros; lia|]. intros k Hk. rewrite seq_S, fold_left_app. cbn [fold_left plus].
    destruct (Nat.eq_dec k M) as [->|E]; [apply Rmax_l|]. eapply Rle_trans; [apply IH; lia|apply Rmax_r]. }
  apply H. exact Hc.
Qed.
Lemma rowmax_att N a row : rowmax N a row = 0 \/ exists c, (c < N)%nat /\ rowmax N a row = Rabs (a (row * N + c)%nat).
Proof.
  unfold rowmax.
  assert (forall M, let r := fold_left (fun mx c => Rmax (Rabs (a (row * N + c)%nat)) mx) (seq 0 M) 0 in r = 0 \/ exists c, (c < M)%nat /\ r = Rabs (a (row * N + c)%nat)) as H.
  { induction M as [|M IH]; cbv zeta; [left; reflexivity|]. rewrite seq_S, fold_left_app. cbn [fold_left plus].
    cbv zeta in IH. set (r := fold_left _ (seq 0 M) 0) in *. unfold Rmax. destruct (Rle_dec _ _).
    - destruct IH as [->|(c & Hc & E)]; [left; reflexivity|right; exists c; split; [lia|exact E]].
    - right. exists M. split; [lia|reflexivity]. }
  apply H.
Qed.
Lemma rowmax_pos N a row : 0 <= rowmax N a row.
Proof. destruct (rowmax_att N a row) as [->|(c & _ & ->)]; [lra|apply Rabs_pos]. Qed.
Lemma existsb_seq_false (f : nat -> bool) N : existsb f (seq 0 N) = false -> forall i, (i < N)%nat -> f i = false.
Proof.
  intros H i Hi. destruct (f i) eqn:E; [|reflexivity]. exfalso.
  assert (existsb f (seq 0 N) = true) by (apply existsb_exists; exists i; split; [apply in_seq; lia|exact E]). congruence.
Qed.
(** when the solve succeeds every row has a nonzero entry, and for N >= 3 the exact solver returns the solution *)
Lemma solve_rows lin N a b x : solve_Ax_b lin N a b = (x, true) -> forall i, (i < N)%nat -> 0 < rowmax N a i.
Proof.
  intros E i Hi. unfold solve_Ax_b in E. destruct (existsb _ _) eqn:EB; [discriminate|].
  pose proof (existsb_seq_false _ _ EB i Hi) as H. cbv beta in H. revert H. case Req_bool_spec; [discriminate|]. intros H _.
  pose proof (rowmax_pos N a i). lra.
Qed.
Lemma scaled_matvec N a x i : (i < N)%nat -> 0 < rowmax N a i ->
  matvec N (map_n (N * N) (fun k => a k / rowmax N a (k / N)) a) x i = matvec N a x i / rowmax N a i.
Proof.
  intros Hi Hr. unfold matvec. unfold Rdiv. rewrite <- rsum_scal_r. apply rsum_ext. intros j Hj.
  rewrite map_n_lt by nia. replace ((i * N + j) / N)%nat with i; [ring|].
  rewrite Nat.add_comm, Nat.div_add by lia. rewrite Nat.div_small by exact Hj. reflexivity.
Qed.
Lemma solve_exact lin N a b x : exact_solver lin -> (3 <= N)%nat -> nonsingular N a ->
  solve_Ax_b lin N a b = (x, true) -> forall i, (i < N)%nat -> matvec N a x i = b i.
Proof.
  intros HL HN HA E i Hi. pose proof (solve_rows _ _ _ _ _ E) as HR.
  unfold solve_Ax_b in E. destruct (existsb _ _) eqn:EB; [discriminate|].
  destruct (Nat.eqb_spec N 1); [lia|]. destruct (Nat.eqb_spec N 2); [lia|].
  set (a' := map_n (N * N) (fun k => a k / rowmax N a (k / N)) a) in E.
  set (b' := map_n N (fun row => b row / rowmax N a row) b) in E.
  inversion E as [Ex]. clear E.
  assert (nonsingular N a') as HA'.
  { intros y Hy. apply HA. intros k Hk. pose proof (Hy k Hk) as H. unfold a' in H. rewrite scaled_matvec in H by (auto).
    pose proof (HR k Hk). apply (Rmult_eq_reg_r (/ rowmax N a k)); [unfold Rdiv in H; lra|]. apply Rinv_neq_0_compat. lra. }
  pose proof (HL N a' b' HN HA' i Hi) as H. pose proof (HR i Hi) as Hr.
  unfold a' in H at 1. rewrite scaled_matvec in H by assumption. unfold b' in H at 2. rewrite map_n_lt in H by exact Hi.
  assert (matvec N a (map_n N (lin N a' b') b') i = matvec N a (lin N a' b') i) as -> by
    (unfold matvec; apply rsum_ext; intros j Hj; rewrite map_n_lt by exact Hj; reflexivity).
  apply (Rmult_eq_reg_r (/ rowmax N a i)); [exact H|]. apply Rinv_neq_0_compat. lra.
Qed.
