(** Binary64 numbers as reals: rounding errors of positive computations *)
From Coq Require Import ZArith Reals Bool Lia Lra Psatz.
From Flocq Require Import Core Relative IEEE754.BinarySingleNaN IEEE754.PrimFloat.
From Coq Require FloatOps.
From Verif Require Import Float_Spec.
Local Open Scope R_scope.

Lemma u_pos : 0 < u. Proof. apply bpow_gt_0. Qed.
Lemma u_small : u <= / 1024. Proof. unfold u. replace (/ 1024) with (bpow radix2 (-10)) by (simpl; lra). apply bpow_le. lia. Qed.
Lemma fin_B x : fin x <-> is_finite (Prim2B x) = true.
Proof. unfold fin. rewrite is_finite_equiv. reflexivity. Qed.

Lemma mul_value x y : fin x -> fin y -> Rabs (rnd (FR x * FR y)) < bpow radix2 1024 ->
  fin (PrimFloat.mul x y) /\ FR (PrimFloat.mul x y) = rnd (FR x * FR y).
Proof.
  rewrite !fin_B. intros Hx Hy H. unfold FR in *. rewrite mul_equiv.
  generalize (Bmult_correct FloatOps.prec FloatOps.emax Hprec Hmax mode_NE (Prim2B x) (Prim2B y)).
  match goal with |- (if Rlt_bool ?a ?b then _ else _) -> _ => replace (Rlt_bool a b) with true by (symmetry; apply Rlt_bool_true; exact H) end. intros (A & B & _). rewrite Hx, Hy in B. split; assumption.
Qed.
Lemma add_value x y : fin x -> fin y -> Rabs (rnd (FR x + FR y)) < bpow radix2 1024 ->
  fin (PrimFloat.add x y) /\ FR (PrimFloat.add x y) = rnd (FR x + FR y).
Proof.
  rewrite !fin_B. intros Hx Hy H. unfold FR in *. rewrite add_equiv.
  generalize (Bplus_correct FloatOps.prec FloatOps.emax Hprec Hmax mode_NE (Prim2B x) (Prim2B y) Hx Hy).
  match goal with |- (if Rlt_bool ?a ?b then _ else _) -> _ => replace (Rlt_bool a b) with true by (symmetry; apply Rlt_bool_true; exact H) end. intros (A & B & _). split; assumption.
Qed.
Lemma div_value x y : fin x -> FR y <> 0 -> Rabs (rnd (FR x / FR y)) < bpow radix2 1024 ->
  fin (PrimFloat.div x y) /\ FR (PrimFloat.div x y) = rnd (FR x / FR y).
Proof.
  rewrite !fin_B. intros Hx Hy H. unfold FR in *. rewrite div_equiv.
  generalize (Bdiv_correct FloatOps.prec FloatOps.emax Hprec Hmax mode_NE (Prim2B x) (Prim2B y) Hy).
  match goal with |- (if Rlt_bool ?a ?b then _ else _) -> _ => replace (Rlt_bool a b) with true by (symmetry; apply Rlt_bool_true; exact H) end. intros (A & B & _). rewrite Hx in B. split; assumption.
Qed.
Lemma ltb_value x y : fin x -> fin y -> PrimFloat.ltb x y = Rlt_bool (FR x) (FR y).
Proof. rewrite !fin_B. intros. rewrite ltb_equiv. apply Bltb_correct; assumption. Qed.
Lemma leb_value x y : fin x -> fin y -> PrimFloat.leb x y = Rle_bool (FR x) (FR y).
Proof. rewrite !fin_B. intros. rewrite leb_equiv. apply Bleb_correct; assumption. Qed.

(** * Rounding *)
#[global] Instance fexp_valid : Valid_exp (FLT_exp (-1074) 53). Proof. apply FLT_exp_valid. reflexivity. Qed.
Lemma rnd_le x y : x <= y -> rnd x <= rnd y. Proof. apply round_le; apply _. Qed.
Lemma rnd_0 : rnd 0 = 0. Proof. apply round_0. apply _. Qed.
Lemma rnd_nonneg x : 0 <= x -> 0 <= rnd x. Proof. intros H. rewrite <- rnd_0. apply rnd_le. exact H. Qed.
Lemma FR_format x : generic_format radix2 (FLT_exp (-1074) 53) (FR x).
Proof. unfold FR. apply (generic_format_B2R FloatOps.prec FloatOps.emax). Qed.
Lemma rnd_FR x : rnd (FR x) = FR x. Proof. apply round_generic; [apply _|apply FR_format]. Qed.
Lemma FR_lt x : Rabs (FR x) < bpow radix2 1024. Proof. apply (abs_B2R_lt_emax FloatOps.prec FloatOps.emax). Qed.

Lemma rnd_rel t : bpow radix2 (-1022) <= t -> (1 - u) * t <= rnd t /\ (1 - u) * rnd t <= t.
Proof.
  intros H. pose proof (bpow_gt_0 radix2 (-1022)). pose proof u_pos. pose proof u_small.
  assert (E : Rabs (rnd t - t) <= u * t).
  { generalize (relative_error_N_FLT radix2 (-1074) 53 ltac:(lia) (fun z => negb (Z.even z)) t).
    intros K. specialize (K ltac:(rewrite Rabs_right by lra; exact H)). rewrite (Rabs_right t) in K by lra.
    unfold rnd, u. replace (bpow radix2 (-53)) with (/ 2 * bpow radix2 (-53 + 1)); [exact K|].
    rewrite bpow_plus. change (bpow radix2 1) with 2. field. }
  apply Rabs_le_inv in E. split; [lra|]. assert (rnd t <= (1 + u) * t) by lra.
  apply Rle_trans with ((1 - u) * ((1 + u) * t)); [apply Rmult_le_compat_l; lra|].
  replace ((1 - u) * ((1 + u) * t)) with (t - u * u * t) by ring. assert (0 <= u * u * t) by (apply Rmult_le_pos; [apply Rmult_le_pos|]; lra). lra.
Qed.

(** * Nearness *)
Lemma q_range k : (Z.of_nat (k) <= 1000000)%Z -> / 2 <= (1 - u) ^ k <= 1.
Proof.
  intros H. pose proof u_pos. pose proof u_small.
  assert (B : forall n, 1 - INR n * u <= (1 - u) ^ n).
  { induction n; [simpl; lra|]. rewrite S_INR. cbn [pow]. assert (0 <= INR n) by apply pos_INR.
    apply Rle_trans with ((1 - u) * (1 - INR n * u)); [nra|]. apply Rmult_le_compat_l; lra. }
  assert (U : u <= / 2000000).
  { unfold u. apply Rle_trans with (bpow radix2 (-21)); [apply bpow_le; lia|]. simpl. lra. }
  assert (K : INR k <= 1000000). { rewrite INR_IZR_INZ. apply IZR_le. exact H. }
  split.
  - apply Rle_trans with (1 - INR k * u); [|apply B]. assert (0 <= INR k) by apply pos_INR. nra.
  - pose proof (pow_incr (1 - u) 1 k ltac:(lra)) as P1. rewrite pow1 in P1. exact P1.
Qed.
Lemma q_pos k : 0 < (1 - u) ^ k. Proof. apply pow_lt. pose proof u_small. lra. Qed.
Lemma q_le1 k : (1 - u) ^ k <= 1.
Proof. pose proof u_pos. pose proof u_small. pose proof (pow_incr (1 - u) 1 k ltac:(lra)) as P1. rewrite pow1 in P1. exact P1. Qed.
Lemma near_0 v : near 0 v v. Proof. split; simpl; lra. Qed.
Lemma near_weak k j a v : (k <= j)%nat -> 0 <= a -> 0 <= v -> near k a v -> near j a v.
Proof.
  intros H Ha Hv [A B]. replace j with (j - k + k)%nat by lia. unfold near. rewrite pow_add.
  pose proof (q_le1 (j - k)). pose proof (q_pos (j - k)). pose proof (q_pos k).
  split; rewrite Rmult_assoc.
  - apply Rle_trans with (1 * ((1 - u) ^ k * v)); [|lra]. apply Rmult_le_compat_r; [apply Rmult_le_pos; lra|assumption].
  - apply Rle_trans with (1 * ((1 - u) ^ k * a)); [|lra]. apply Rmult_le_compat_r; [apply Rmult_le_pos; lra|assumption].
Qed.
Lemma near_nonneg k a v : 0 <= v -> near k a v -> 0 <= a.
Proof. intros H [A _]. pose proof (q_pos k). assert (0 <= (1 - u) ^ k * v) by (apply Rmult_le_pos; lra). lra. Qed.
Lemma near_pos k a v : 0 < v -> near k a v -> 0 < a.
Proof. intros H [A _]. pose proof (q_pos k). assert (0 < (1 - u) ^ k * v) by (apply Rmult_lt_0_compat; lra). lra. Qed.
Lemma near_sym k a v : near k a v -> near k v a. Proof. intros [A B]; split; assumption. Qed.
Lemma near_trans k j a b c : near k a b -> near j b c -> near (k + j) a c.
Proof.
  intros [A B] [C D]. unfold near. rewrite pow_add. pose proof (q_pos k). pose proof (q_pos j). split.
  - apply Rle_trans with ((1 - u) ^ k * b); [|assumption]. rewrite Rmult_assoc. apply Rmult_le_compat_l; lra.
  - apply Rle_trans with ((1 - u) ^ j * b); [|assumption]. rewrite (Rmult_comm ((1 - u) ^ k)), Rmult_assoc. apply Rmult_le_compat_l; lra.
Qed.
Lemma near_mul k j a v b w : 0 <= v -> 0 <= w -> near k a v -> near j b w -> near (k + j) (a * b) (v * w).
Proof.
  intros Hv Hw HA HB. pose proof (near_nonneg _ _ _ Hv HA). pose proof (near_nonneg _ _ _ Hw HB). destruct HA as [A B], HB as [C D].
  unfold near. rewrite pow_add. pose proof (q_pos k). pose proof (q_pos j). split.
  - replace ((1 - u) ^ k * (1 - u) ^ j * (v * w)) with (((1 - u) ^ k * v) * ((1 - u) ^ j * w)) by ring.
    apply Rmult_le_compat; try assumption; apply Rmult_le_pos; lra.
  - replace ((1 - u) ^ k * (1 - u) ^ j * (a * b)) with (((1 - u) ^ k * a) * ((1 - u) ^ j * b)) by ring.
    apply Rmult_le_compat; try assumption; apply Rmult_le_pos; lra.
Qed.
Lemma near_inv k a v : 0 < v -> near k a v -> near k (/ a) (/ v).
Proof.
  intros Hv HA. pose proof (near_pos _ _ _ Hv HA). destruct HA as [A B]. pose proof (q_pos k). split.
  - apply Rmult_le_reg_r with (a * v); [apply Rmult_lt_0_compat; assumption|]. replace ((1 - u) ^ k * / v * (a * v)) with ((1 - u) ^ k * a) by (field; lra). replace (/ a * (a * v)) with v by (field; lra). exact B.
  - apply Rmult_le_reg_r with (a * v); [apply Rmult_lt_0_compat; assumption|]. replace ((1 - u) ^ k * / a * (a * v)) with ((1 - u) ^ k * v) by (field; lra). replace (/ v * (a * v)) with a by (field; lra). exact A.
Qed.
Lemma near_add k a v b w : near k a v -> near k b w -> near k (a + b) (v + w).
Proof. intros [A B] [C D]. split; rewrite Rmult_plus_distr_l; lra. Qed.

Lemma big_2 n : 2 * bpow radix2 n = bpow radix2 (n + 1).
Proof. rewrite bpow_plus. change (bpow radix2 1) with 2. ring. Qed.
Lemma half_bpow n : / 2 * bpow radix2 n = bpow radix2 (n - 1).
Proof. replace n with (n - 1 + 1)%Z at 1 by lia. rewrite bpow_plus. change (bpow radix2 1) with 2. field. Qed.

(** one rounding of a value near an ordinary one *)
Lemma round_near k t v : (Z.of_nat (k) < 1000000)%Z -> ordinary v -> near k t v ->
  0 <= rnd t /\ rnd t < bpow radix2 1024 /\ near (S k) (rnd t) v.
Proof.
  intros Hk Hv N. destruct (q_range k ltac:(lia)) as [Q1 Q2]. destruct Hv as [-> | [H1 H2]].
  - assert (t = 0). { destruct N as [A B]. pose proof (q_pos k). assert (t <= 0). { destruct (Rle_or_lt t 0); [assumption|]. assert (0 < (1 - u) ^ k * t) by (apply Rmult_lt_0_compat; lra). lra. } lra. }
    subst t. rewrite rnd_0. split; [lra|]. split; [apply bpow_gt_0|]. split; lra.
  - assert (0 < v) by (pose proof (bpow_gt_0 radix2 (-1000)); lra). pose proof (near_pos _ _ _ H N) as Ht. destruct N as [A B].
    assert (L : bpow radix2 (-1022) <= t). { apply Rle_trans with (/ 2 * bpow radix2 (-1000)). { rewrite half_bpow. apply bpow_le. lia. } apply Rle_trans with ((1 - u) ^ k * v); [|assumption]. apply Rmult_le_compat; try lra. apply bpow_ge_0. }
    assert (L2 : t <= bpow radix2 1001). { change 1001%Z with (1000 + 1)%Z. rewrite <- big_2. nra. }
    destruct (rnd_rel t L) as [C D]. assert (L3 : rnd t <= bpow radix2 1001).
    { replace (bpow radix2 1001) with (rnd (bpow radix2 1001)); [apply rnd_le; exact L2|]. apply round_generic; [apply _|]. apply generic_format_bpow. unfold FLT_exp. lia. }
    pose proof u_pos. pose proof u_small. split; [nra|]. split; [apply Rle_lt_trans with (bpow radix2 1001); [assumption|apply bpow_lt; lia]|].
    change (S k) with (1 + k)%nat. apply near_trans with t; [split; rewrite pow_1; assumption|split; assumption].
Qed.

(** * Operations on nonnegative numbers *)
Lemma op_mul k j x v y w : close k x v -> close j y w -> 0 <= v -> 0 <= w -> ordinary (v * w) -> (Z.of_nat (k + j) < 1000000)%Z ->
  close (S (k + j)) (PrimFloat.mul x y) (v * w).
Proof.
  intros [Fx X] [Fy Y] Hv Hw Ho Hk. pose proof (near_mul _ _ _ _ _ _ Hv Hw X Y) as M.
  destruct (round_near _ _ _ Hk Ho M) as (P & Q & R). destruct (mul_value x y Fx Fy) as [F E]; [rewrite Rabs_right by lra; exact Q|].
  split; [exact F|]. rewrite E. exact R.
Qed.
Lemma op_div k j x v y w : close k x v -> close j y w -> 0 <= v -> 0 < w -> ordinary (v / w) -> (Z.of_nat (k + j) < 1000000)%Z ->
  close (S (k + j)) (PrimFloat.div x y) (v / w).
Proof.
  intros [Fx X] [Fy Y] Hv Hw Ho Hk. pose proof (near_pos _ _ _ Hw Y) as Py.
  pose proof (near_mul _ _ _ _ _ _ Hv (Rlt_le _ _ (Rinv_0_lt_compat _ Hw)) X (near_inv _ _ _ Hw Y)) as M.
  destruct (round_near _ _ _ Hk Ho M) as (P & Q & R). destruct (div_value x y Fx) as [F E]; [lra|rewrite Rabs_right by (unfold Rdiv; lra); exact Q|].
  split; [exact F|]. rewrite E. exact R.
Qed.
Lemma op_add k j x v y w : close k x v -> close j y w -> 0 <= v -> 0 <= w -> ordinary (v + w) -> (Z.of_nat (k) < 1000000)%Z -> (Z.of_nat (j) < 1000000)%Z ->
  close (S (Nat.max k j)) (PrimFloat.add x y) (v + w).
Proof.
  intros [Fx X] [Fy Y] Hv Hw Ho Hk Hj. pose proof (near_nonneg _ _ _ Hv X) as X0. pose proof (near_nonneg _ _ _ Hw Y) as Y0.
  pose proof (near_add (Nat.max k j) _ _ _ _ (near_weak k _ _ _ (Nat.le_max_l k j) X0 Hv X) (near_weak j _ _ _ (Nat.le_max_r k j) Y0 Hw Y)) as M.
  assert (Hm : (Z.of_nat (Nat.max k j) < 1000000)%Z) by lia.
  destruct (round_near _ _ _ Hm Ho M) as (P & Q & R). destruct (add_value x y Fx Fy) as [F E]; [rewrite Rabs_right by lra; exact Q|].
  split; [exact F|]. rewrite E. exact R.
Qed.
Lemma close_self x : fin x -> close 0 x (FR x). Proof. intros H. split; [exact H|apply near_0]. Qed.

(** * Values of constants *)
Lemma FR_SF x : FR x = SF2R radix2 (FloatOps.Prim2SF x).
Proof. unfold FR. rewrite <- B2SF_Prim2B. destruct (Prim2B x); reflexivity. Qed.

(** * Every case of a product or quotient of finite doubles *)
Definition is_num (x : PrimFloat.float) : Prop := PrimFloat.is_nan x = false.
Lemma is_num_B x : is_num x <-> is_nan (Prim2B x) = false.
Proof. unfold is_num. rewrite is_nan_equiv. reflexivity. Qed.
Lemma fin_num x : fin x -> is_num x.
Proof. rewrite fin_B, is_num_B. destruct (Prim2B x); try discriminate; reflexivity. Qed.
Lemma sign_of x : fin x -> FR x <> 0 -> Bsign (Prim2B x) = Rlt_bool (FR x) 0.
Proof.
  rewrite fin_B. unfold FR. destruct (Prim2B x) as [s|s| |s m e H]; try discriminate; cbn [B2R Bsign]; intros _ Hn; try (exfalso; apply Hn; reflexivity).
  destruct s; cbn [cond_Zopp].
  - rewrite Rlt_bool_true; [reflexivity|]. apply F2R_lt_0. reflexivity.
  - rewrite Rlt_bool_false; [reflexivity|]. apply F2R_ge_0. cbn. lia.
Qed.
Definition inf_of (s : bool) : PrimFloat.float := if s then PrimFloat.neg_infinity else PrimFloat.infinity.
Lemma inf_is b s : B2SF (Prim2B b) = SpecFloat.S754_infinity s -> b = inf_of s.
Proof.
  intros H. apply Prim2B_inj. apply B2SF_inj. rewrite H. destruct s; cbn [inf_of].
  - rewrite neg_infinity_equiv, Prim2B_B2Prim. reflexivity.
  - rewrite infinity_equiv, Prim2B_B2Prim. reflexivity.
Qed.
Lemma rnd_nz t : rnd t <> 0 -> t <> 0. Proof. intros H E. apply H. rewrite E. apply rnd_0. Qed.
Inductive outcome (t : R) (z : PrimFloat.float) : Prop :=
| Value : fin z -> FR z = rnd t -> outcome t z
| Over : z = PrimFloat.infinity -> bpow radix2 1024 <= rnd t -> outcome t z
| Under : z = PrimFloat.neg_infinity -> rnd t <= - bpow radix2 1024 -> outcome t z.
Lemma over_case t s z : bpow radix2 1024 <= Rabs (rnd t) -> z = inf_of s -> s = Rlt_bool t 0 -> outcome t z.
Proof.
  intros H Ez Es. pose proof (bpow_gt_0 radix2 1024). destruct (Rlt_bool_spec t 0) as [Ht|Ht]; subst s; cbn [inf_of] in Ez.
  - apply Under; [exact Ez|]. assert (rnd t <= 0) by (rewrite <- rnd_0; apply rnd_le; lra). rewrite Rabs_left1 in H by assumption. lra.
  - apply Over; [exact Ez|]. pose proof (rnd_nonneg t Ht). rewrite Rabs_right in H by lra. exact H.
Qed.
Lemma xor_sign x y : x <> 0 -> y <> 0 -> xorb (Rlt_bool x 0) (Rlt_bool y 0) = Rlt_bool (x * y) 0.
Proof.
  intros Hx Hy. destruct (Rlt_bool_spec x 0), (Rlt_bool_spec y 0); cbn [xorb]; symmetry.
  - apply Rlt_bool_false. nra. - apply Rlt_bool_true. nra. - apply Rlt_bool_true. nra. - apply Rlt_bool_false. nra.
Qed.
Lemma mul_outcome x y : fin x -> fin y -> outcome (FR x * FR y) (PrimFloat.mul x y).
Proof.
  intros Hx Hy. destruct (Rlt_or_le (Rabs (rnd (FR x * FR y))) (bpow radix2 1024)) as [H|H].
  - destruct (mul_value x y Hx Hy H). apply Value; assumption.
  - assert (FR x * FR y <> 0). { apply rnd_nz. intros E. rewrite E, Rabs_R0 in H. pose proof (bpow_gt_0 radix2 1024). lra. }
    assert (FR x <> 0 /\ FR y <> 0) as [Nx Ny] by (split; intros E; rewrite E in *; lra).
    apply over_case with (s := Rlt_bool (FR x * FR y) 0); [exact H| |reflexivity].
    apply inf_is. rewrite mul_equiv. generalize (Bmult_correct FloatOps.prec FloatOps.emax Hprec Hmax mode_NE (Prim2B x) (Prim2B y)).
    match goal with |- (if Rlt_bool ?a ?b then _ else _) -> _ => replace (Rlt_bool a b) with false by (symmetry; apply Rlt_bool_false; exact H) end.
    intros ->. rewrite !sign_of by assumption. rewrite xor_sign by assumption. reflexivity.
Qed.
Lemma div_outcome x y : fin x -> fin y -> FR y <> 0 -> outcome (FR x / FR y) (PrimFloat.div x y).
Proof.
  intros Hx Hy Ny. destruct (Rlt_or_le (Rabs (rnd (FR x / FR y))) (bpow radix2 1024)) as [H|H].
  - destruct (div_value x y Hx Ny H). apply Value; assumption.
  - assert (FR x / FR y <> 0). { apply rnd_nz. intros E. rewrite E, Rabs_R0 in H. pose proof (bpow_gt_0 radix2 1024). lra. }
    assert (FR x <> 0) as Nx by (intros E; rewrite E in *; unfold Rdiv in *; lra).
    apply over_case with (s := Rlt_bool (FR x / FR y) 0); [exact H| |reflexivity].
    apply inf_is. rewrite div_equiv. generalize (Bdiv_correct FloatOps.prec FloatOps.emax Hprec Hmax mode_NE (Prim2B x) (Prim2B y) Ny).
    match goal with |- (if Rlt_bool ?a ?b then _ else _) -> _ => replace (Rlt_bool a b) with false by (symmetry; apply Rlt_bool_false; exact H) end.
    intros ->. rewrite !sign_of by assumption.
    replace (Rlt_bool (FR y) 0) with (Rlt_bool (/ FR y) 0).
    + rewrite xor_sign by (try assumption; apply Rinv_neq_0_compat; assumption). reflexivity.
    + destruct (Rlt_bool_spec (FR y) 0) as [L|L]; [apply Rlt_bool_true; apply Rinv_lt_0_compat; exact L|apply Rlt_bool_false; left; apply Rinv_0_lt_compat; lra].
Qed.
Lemma outcome_num t z : outcome t z -> is_num z.
Proof. intros [F _|E _|E _]; [apply fin_num; exact F|subst z; reflexivity|subst z; reflexivity]. Qed.
Lemma leb_inf z : is_num z -> PrimFloat.leb z PrimFloat.infinity = true.
Proof. rewrite is_num_B, leb_equiv. rewrite infinity_equiv, Prim2B_B2Prim. destruct (Prim2B z) as [s|[|]| |[|] m e H]; try discriminate; reflexivity. Qed.
Lemma leb_ninf z : is_num z -> PrimFloat.leb PrimFloat.neg_infinity z = true.
Proof. rewrite is_num_B, leb_equiv. rewrite neg_infinity_equiv, Prim2B_B2Prim. destruct (Prim2B z) as [s|[|]| |[|] m e H]; try discriminate; reflexivity. Qed.
Lemma outcome_le t1 z1 t2 z2 : outcome t1 z1 -> outcome t2 z2 -> t1 <= t2 -> PrimFloat.leb z1 z2 = true.
Proof.
  intros O1 O2 Ht. pose proof (rnd_le _ _ Ht) as Hr. pose proof (bpow_gt_0 radix2 1024) as HB.
  destruct O2 as [F2 V2|E2 V2|E2 V2]; try subst z2; [|apply leb_inf; eapply outcome_num; exact O1|].
  - destruct O1 as [F1 V1|E1 V1|E1 V1]; try subst z1; [|exfalso|apply leb_ninf; apply fin_num; exact F2].
    + rewrite leb_value by assumption. apply Rle_bool_true. lra.
    + pose proof (FR_lt z2) as L. rewrite V2 in L. apply Rabs_lt_inv in L. lra.
  - destruct O1 as [F1 V1|E1 V1|E1 V1]; try subst z1; [exfalso|exfalso|reflexivity].
    + pose proof (FR_lt z1) as L. rewrite V1 in L. apply Rabs_lt_inv in L. lra.
    + lra.
Qed.
Lemma leb_trans x y z : PrimFloat.leb x y = true -> PrimFloat.leb y z = true -> PrimFloat.leb x z = true.
Proof.
  intros H1 H2.
  assert (N : forall a b, PrimFloat.leb a b = true -> is_num a /\ is_num b).
  { intros a b. rewrite !is_num_B, leb_equiv. destruct (Prim2B a) as [s|[|]| |[|] m e H], (Prim2B b) as [s'|[|]| |[|] m' e' H']; try discriminate; split; reflexivity. }
  destruct (N _ _ H1) as [Nx Ny]. destruct (N _ _ H2) as [_ Nz].
  assert (C : forall a, is_num a -> fin a \/ a = PrimFloat.infinity \/ a = PrimFloat.neg_infinity).
  { intros a. rewrite is_num_B, fin_B. intros Ha. destruct (Prim2B a) as [s|s| |s m e H] eqn:E; try discriminate; try (left; reflexivity).
    right. destruct s; [right|left]; apply Prim2B_inj; rewrite E; [rewrite neg_infinity_equiv|rewrite infinity_equiv]; rewrite Prim2B_B2Prim; reflexivity. }
  destruct (C z Nz) as [Fz|[->| ->]]; [|apply leb_inf; exact Nx|].
  - destruct (C x Nx) as [Fx|[->| ->]]; [| |apply leb_ninf; exact Nz].
    + destruct (C y Ny) as [Fy|[->| ->]].
      * rewrite leb_value in * by assumption. revert H1 H2. destruct (Rle_bool_spec (FR x) (FR y)); [|discriminate]. destruct (Rle_bool_spec (FR y) (FR z)); [|discriminate]. intros _ _. apply Rle_bool_true. lra.
      * exfalso. revert H2 Fz. rewrite leb_equiv, fin_B, infinity_equiv, Prim2B_B2Prim. destruct (Prim2B z); discriminate.
      * exfalso. revert H1 Fx. rewrite leb_equiv, fin_B, neg_infinity_equiv, Prim2B_B2Prim. destruct (Prim2B x) as [|[|]| |[|] ? ? ?]; discriminate.
    + destruct (C y Ny) as [Fy|[->| ->]].
      * exfalso. revert H1 Fy. rewrite leb_equiv, fin_B, infinity_equiv, Prim2B_B2Prim. destruct (Prim2B y); discriminate.
      * exact H2.
      * discriminate H1.
  - destruct (C y Ny) as [Fy|[->| ->]].
    + exfalso. revert H2 Fy. rewrite leb_equiv, fin_B, neg_infinity_equiv, Prim2B_B2Prim. destruct (Prim2B y) as [|[|]| |[|] ? ? ?]; discriminate.
    + discriminate H2.
    + exact H1.
Qed.
Lemma nltb_leb x y : is_num x -> is_num y -> PrimFloat.ltb x y = false -> PrimFloat.leb y x = true.
Proof.
  rewrite !is_num_B, ltb_equiv, leb_equiv. intros Hx Hy H.
  unfold Bltb, SpecFloat.SFltb in H. unfold Bleb, SpecFloat.SFleb.
  pose proof (Bcompare_swap FloatOps.prec FloatOps.emax (Prim2B x) (Prim2B y)) as S. unfold Bcompare in S. rewrite S in *. clear S.
  destruct (Prim2B x) as [s|[|]| |s m e HH], (Prim2B y) as [s'|[|]| |s' m' e' HH']; try discriminate Hx; try discriminate Hy;
  match goal with |- context [SpecFloat.SFcompare ?a ?b] => destruct (SpecFloat.SFcompare a b) as [[| |]|] eqn:E end; try discriminate H; try reflexivity; exfalso; revert E; cbn; try discriminate.
  all: try (destruct s; discriminate); try (destruct s'; discriminate).
  all: repeat match goal with |- context [if ?b then _ else _] => destruct b; try discriminate | |- context [match ?b with _ => _ end] => destruct b; try discriminate end.
Qed.
Lemma ltb_leb x y : PrimFloat.ltb x y = true -> PrimFloat.leb x y = true.
Proof.
  rewrite ltb_equiv, leb_equiv. unfold Bltb, SpecFloat.SFltb, Bleb, SpecFloat.SFleb. destruct (SpecFloat.SFcompare _ _) as [[| |]|]; try discriminate; reflexivity.
Qed.
