(** Compensated summation in doubles *)
From Coq Require Import ZArith Reals Bool Lia Lra Psatz List.
From Flocq Require Import Core Relative Plus_error Pff.Pff2Flocq IEEE754.BinarySingleNaN IEEE754.PrimFloat.
From Coq Require FloatOps.
From Verif Require Import Arith Float_Spec Float_Tools Float_Model.
Local Open Scope R_scope.
Notation float := PrimFloat.float.
Notation fmt := (generic_format radix2 (FLT_exp (-1074) 53)).

#[local] Instance p53 : Prec_gt_0 53. Proof. reflexivity. Qed.
Lemma u_ro_is : u_ro radix2 53 = u.
Proof. unfold u_ro, u. rewrite bpow_plus. change (bpow radix2 1) with 2. change (- (53))%Z with (-53)%Z. field. Qed.
Lemma rnd_plus x y : fmt x -> fmt y -> Rabs (rnd (x + y) - (x + y)) <= u * Rabs (x + y).
Proof.
  intros Fx Fy. destruct (FLT_plus_error_N_ex radix2 (-1074) 53 (fun z => negb (Z.even z)) x y Fx Fy) as (eps & B & E).
  unfold rnd. fold ZnearestE in E. change (Znearest (fun z => negb (Z.even z))) with ZnearestE in E. rewrite E. replace ((x + y) * (1 + eps) - (x + y)) with (eps * (x + y)) by ring.
  rewrite Rabs_mult. apply Rmult_le_compat_r; [apply Rabs_pos|]. apply Rle_trans with (1 := B). rewrite u_ro_is. pose proof u_pos.
  apply Rmult_le_reg_r with (1 + u); [lra|]. unfold Rdiv. rewrite Rmult_assoc, Rinv_l by lra. nra.
Qed.
Lemma fmt_opp x : fmt x -> fmt (- x). Proof. apply generic_format_opp. Qed.
Lemma rnd_minus x y : fmt x -> fmt y -> Rabs (rnd (x - y) - (x - y)) <= u * Rabs (x - y).
Proof. intros Fx Fy. apply (rnd_plus x (- y)); [exact Fx|apply fmt_opp; exact Fy]. Qed.
Lemma fast_two_sum x y : fmt x -> fmt y -> Rabs y <= Rabs x -> rnd (rnd (x - rnd (x + y)) + y) = x + y - rnd (x + y).
Proof.
  intros Fx Fy H. assert (CS : forall z, negb (Z.even z) = negb (negb (Z.even (- (z + 1))))).
  { intros z. rewrite Z.even_opp, Z.even_add. cbn. destruct (Z.even z); reflexivity. }
  pose proof (Fast2Sum_correct (-1074) 53 (fun z => negb (Z.even z)) ltac:(lia) ltac:(lia) CS x y Fx Fy H) as K.
  unfold rnd. change ZnearestE with (Znearest (fun z => negb (Z.even z))). rewrite (Rplus_comm _ y). lra.
Qed.

Lemma sub_value x y : fin x -> fin y -> Rabs (rnd (FR x - FR y)) < bpow radix2 1024 ->
  fin (PrimFloat.sub x y) /\ FR (PrimFloat.sub x y) = rnd (FR x - FR y).
Proof.
  rewrite !fin_B. intros Hx Hy H. unfold FR in *. rewrite sub_equiv.
  generalize (Bminus_correct FloatOps.prec FloatOps.emax Hprec Hmax mode_NE (Prim2B x) (Prim2B y) Hx Hy).
  match goal with |- (if Rlt_bool ?a ?b then _ else _) -> _ => replace (Rlt_bool a b) with true by (symmetry; apply Rlt_bool_true; exact H) end. intros (A & B & _). split; assumption.
Qed.
Lemma abs_value x : fin x -> fin (PrimFloat.abs x) /\ FR (PrimFloat.abs x) = Rabs (FR x).
Proof. rewrite !fin_B. unfold FR. rewrite abs_equiv. intros H. rewrite is_finite_Babs, B2R_Babs. split; [exact H|reflexivity]. Qed.

Definition big : R := bpow radix2 1010.
Lemma big_ok t r : Rabs t <= big -> Rabs (r - t) <= u * Rabs t -> Rabs r < bpow radix2 1024.
Proof.
  intros H K. pose proof u_pos. pose proof u_small. assert (0 < big) by apply bpow_gt_0. pose proof (Rabs_pos t).
  assert (Rabs r <= Rabs t + u * Rabs t). { replace r with (t + (r - t)) by ring. apply Rle_trans with (1 := Rabs_triang _ _). lra. }
  apply Rle_lt_trans with (2 * big); [nra|]. unfold big. rewrite big_2. apply bpow_lt. lia.
Qed.
Lemma add_err x y : fin x -> fin y -> Rabs (FR x + FR y) <= big ->
  fin (PrimFloat.add x y) /\ FR (PrimFloat.add x y) = rnd (FR x + FR y) /\ Rabs (FR (PrimFloat.add x y) - (FR x + FR y)) <= u * Rabs (FR x + FR y).
Proof.
  intros Hx Hy H. pose proof (rnd_plus (FR x) (FR y) (FR_format x) (FR_format y)) as K.
  destruct (add_value x y Hx Hy (big_ok _ _ H K)) as [F E]. rewrite E. auto.
Qed.
Lemma sub_err x y : fin x -> fin y -> Rabs (FR x - FR y) <= big ->
  fin (PrimFloat.sub x y) /\ FR (PrimFloat.sub x y) = rnd (FR x - FR y) /\ Rabs (FR (PrimFloat.sub x y) - (FR x - FR y)) <= u * Rabs (FR x - FR y).
Proof.
  intros Hx Hy H. pose proof (rnd_minus (FR x) (FR y) (FR_format x) (FR_format y)) as K.
  destruct (sub_value x y Hx Hy (big_ok _ _ H K)) as [F E]. rewrite E. auto.
Qed.

(** one step: the new sum and the exact error of the addition *)
Lemma abs_lower a b : Rabs (a + b) <= Rabs a + Rabs b. Proof. apply Rabs_triang. Qed.
Definition corr (s x t : float) : float :=
  if PrimFloat.leb (PrimFloat.abs x) (PrimFloat.abs s) then PrimFloat.add (PrimFloat.sub s t) x else PrimFloat.add (PrimFloat.sub x t) s.
Lemma corr_exact s x : fin s -> fin x -> Rabs (FR s) <= bpow radix2 1005 -> Rabs (FR x) <= bpow radix2 1005 ->
  let t := PrimFloat.add s x in
  fin t /\ Rabs (FR t - (FR s + FR x)) <= u * Rabs (FR s + FR x) /\
  fin (corr s x t) /\ FR (corr s x t) = FR s + FR x - FR t.
Proof.
  intros Fs Fx Hs Hx t. pose proof u_pos. pose proof u_small.
  assert (B8 : big = 32 * bpow radix2 1005). { unfold big. change 1010%Z with (5 + 1005)%Z. rewrite bpow_plus. change (bpow radix2 5) with (IZR 32). reflexivity. }
  pose proof (bpow_gt_0 radix2 1005) as P. set (b := bpow radix2 1005) in *. clearbody b.
  assert (HS : Rabs (FR s + FR x) <= 2 * b) by (apply Rle_trans with (1 := Rabs_triang _ _); lra).
  destruct (add_err s x Fs Fx ltac:(rewrite B8; lra)) as (Ft & Et & Kt). fold t in Ft, Et, Kt.
  assert (HT : Rabs (FR t) <= 3 * b). { replace (FR t) with ((FR t - (FR s + FR x)) + (FR s + FR x)) by ring. apply Rle_trans with (1 := Rabs_triang _ _). pose proof (Rabs_pos (FR s + FR x)). nra. }
  refine (conj Ft (conj Kt _)).
  assert (G : forall a y, fin a -> fin y -> Rabs (FR a) <= b -> Rabs (FR y) <= b -> FR t = rnd (FR a + FR y) -> Rabs (FR y) <= Rabs (FR a) ->
            fin (PrimFloat.add (PrimFloat.sub a t) y) /\ FR (PrimFloat.add (PrimFloat.sub a t) y) = FR a + FR y - FR t).
  { intros a y Fa Fy Ha Hy E L.
    assert (H1 : Rabs (FR a - FR t) <= 4 * b). { unfold Rminus. apply Rle_trans with (1 := Rabs_triang _ _). rewrite Rabs_Ropp. lra. }
    destruct (sub_err a t Fa Ft ltac:(rewrite B8; lra)) as (F1 & E1 & K1).
    assert (H2 : Rabs (FR (PrimFloat.sub a t)) <= 5 * b). { replace (FR (PrimFloat.sub a t)) with ((FR (PrimFloat.sub a t) - (FR a - FR t)) + (FR a - FR t)) by ring. apply Rle_trans with (1 := Rabs_triang _ _). pose proof (Rabs_pos (FR a - FR t)). nra. }
    destruct (add_err _ y F1 Fy ltac:(rewrite B8; apply Rle_trans with (1 := Rabs_triang _ _); lra)) as (F2 & E2 & _).
    split; [exact F2|]. rewrite E2, E1, E. apply fast_two_sum; [apply FR_format|apply FR_format|exact L]. }
  unfold corr. destruct (abs_value s Fs) as [As Es]. destruct (abs_value x Fx) as [Ax Ex]. rewrite leb_value by assumption. rewrite Es, Ex.
  destruct (Rle_bool_spec (Rabs (FR x)) (Rabs (FR s))) as [L|L]; [apply G; assumption|].
  destruct (G x s Fx Fs Hx Hs) as [A B]; [rewrite Rplus_comm; exact Et|lra|]. split; [exact A|]. rewrite B. ring.
Qed.

Fixpoint nrun (xs : list float) (s c : float) : float :=
  match xs with
  | nil => PrimFloat.add s c
  | x :: r => nrun r (PrimFloat.add s x) (PrimFloat.add c (corr s x (PrimFloat.add s x)))
  end.

Lemma q_bound k : (Z.of_nat k <= 4000000)%Z -> 1 <= (1 + u) ^ k <= 2.
Proof.
  intros Hk. pose proof u_pos as Hu. split; [apply pow_R1_Rle; lra|].
  assert (E : (1 + u) ^ k <= exp (INR k * u)).
  { replace (exp (INR k * u)) with (exp u ^ k).
    - apply pow_incr. split; [lra|]. destruct (Req_dec u 0); [lra|]. left. apply exp_ineq1. lra.
    - clear. induction k; [cbn; rewrite Rmult_0_l, exp_0; reflexivity|]. rewrite S_INR. cbn [pow]. rewrite IHk, <- exp_plus. f_equal. ring. }
  apply Rle_trans with (1 := E). apply Rle_trans with (exp (/ 2)).
  - assert (INR k * u <= / 2) as L; [|destruct L as [L|L]; [left; apply exp_increasing; exact L|right; rewrite L; reflexivity]].
    rewrite INR_IZR_INZ. apply IZR_le in Hk. apply Rle_trans with (4000000 * u); [apply Rmult_le_compat_r; lra|].
    unfold u. assert (bpow radix2 (-53) <= bpow radix2 (-23)) by (apply bpow_le; lia). assert (bpow radix2 (-23) = / 8388608) by (simpl; lra). lra.
  - assert (1 - / 2 < exp (- / 2)) by (pose proof (exp_ineq1 (- / 2) ltac:(lra)); lra).
    rewrite exp_Ropp in H. pose proof (exp_pos (/ 2)). set (e := exp (/ 2)) in *. clearbody e.
    apply Rmult_lt_compat_r with (r := e) in H; [|assumption]. rewrite Rinv_l in H by lra. lra.
Qed.

Lemma nrun_err : forall xs s c k X V C B,
  Forall fin xs -> fin s -> fin c ->
  (Z.of_nat (k + length xs) <= 1000000)%Z ->
  B <= bpow radix2 1000 -> X + Rsum (map (fun x => Rabs (FR x)) xs) <= B -> 0 <= X ->
  FR s + C = V -> Rabs (FR s) <= (1 + u) ^ k * X -> Rabs C <= INR k * u * ((1 + u) ^ k * X) ->
  Rabs (FR c - C) <= INR k * INR k * (u * u) * ((1 + u) ^ (2 * k) * X) ->
  let n := (k + length xs)%nat in
  fin (nrun xs s c) /\
  Rabs (FR (nrun xs s c) - (V + Rsum (map FR xs))) <=
    u * Rabs (V + Rsum (map FR xs)) + 2 * (INR n * INR n * (u * u)) * (X + Rsum (map (fun x => Rabs (FR x)) xs)).
Proof.
  pose proof u_pos as Up. pose proof u_small as Us.
  assert (U40 : u <= / 1000000000000). { unfold u. apply Rle_trans with (bpow radix2 (-40)); [apply bpow_le; lia|]. assert (bpow radix2 (-40) = / 1099511627776) by (simpl; lra). lra. }
  induction xs as [|x r IH]; intros s c k X V C B HF Fs Fc HZ HB HX X0 HV HS HC HD n.
  - cbn [nrun map Rsum fold_right] in *. rewrite Rplus_0_r in *. subst n. cbn [length] in *. rewrite Nat.add_0_r in *.
    destruct (q_bound k ltac:(lia)) as [q1 q2]. destruct (q_bound (2 * k) ltac:(lia)) as [q3 q4].
    pose proof (pos_INR k) as Pk. assert (Ik : INR k <= 1000000). { rewrite INR_IZR_INZ. apply IZR_le. exact HZ. }
    set (d := Rabs (FR c - C)) in *. assert (D0 : 0 <= d) by apply Rabs_pos.
    set (K := INR k) in *. clearbody K. assert (Ku : 0 <= K * u <= / 1000000) by (split; nra).
    assert (Dd : (1 + u) * d <= 2 * (K * K * (u * u)) * X).
    { destruct (q_bound (2 * k + 1) ltac:(lia)) as [q5 q6]. rewrite pow_add, pow_1 in q6. set (Q := (1 + u) ^ (2 * k)) in *. clearbody Q.
      apply Rle_trans with ((1 + u) * (K * K * (u * u) * (Q * X))); [apply Rmult_le_compat_l; lra|].
      replace ((1 + u) * (K * K * (u * u) * (Q * X))) with ((Q * (1 + u)) * (K * K * (u * u) * X)) by ring.
      replace (2 * (K * K * (u * u)) * X) with (2 * (K * K * (u * u) * X)) by ring. apply Rmult_le_compat_r; [|exact q6].
      apply Rmult_le_pos; [|lra]. apply Rmult_le_pos; nra. }
    assert (D1 : d <= X).
    { apply Rle_trans with ((1 + u) * d); [nra|]. apply Rle_trans with (1 := Dd). replace (2 * (K * K * (u * u)) * X) with (2 * ((K * u) * (K * u)) * X) by ring.
      assert (2 * ((K * u) * (K * u)) <= 1) by nra. nra. }
    assert (C1 : Rabs C <= X). { apply Rle_trans with (1 := HC). set (Q := (1 + u) ^ k) in *. clearbody Q. apply Rle_trans with (/ 1000000 * (2 * X)); [|lra]. apply Rmult_le_compat; [lra|apply Rmult_le_pos; lra|lra|apply Rmult_le_compat_r; lra]. }
    assert (S1 : Rabs (FR s) <= 2 * X) by (apply Rle_trans with (1 := HS); apply Rmult_le_compat_r; lra).
    assert (c1 : Rabs (FR c) <= 2 * X). { replace (FR c) with ((FR c - C) + C) by ring. apply Rle_trans with (1 := Rabs_triang _ _). fold d. lra. }
    assert (B10 : big = 1024 * bpow radix2 1000). { unfold big. change 1010%Z with (10 + 1000)%Z. rewrite bpow_plus. reflexivity. }
    destruct (add_err s c Fs Fc) as (F & _ & E). { rewrite B10. apply Rle_trans with (1 := Rabs_triang _ _). lra. }
    split; [exact F|].
    replace (FR (PrimFloat.add s c) - V) with ((FR (PrimFloat.add s c) - (FR s + FR c)) + (FR c - C)) by lra.
    apply Rle_trans with (1 := Rabs_triang _ _). fold d.
    assert (Rabs (FR s + FR c) <= Rabs V + d). { replace (FR s + FR c) with (V + (FR c - C)) by lra. apply Rabs_triang. }
    assert (u * Rabs (FR s + FR c) <= u * (Rabs V + d)) by (apply Rmult_le_compat_l; lra). lra.
  - cbn [nrun map Rsum fold_right length] in *. fold (Rsum (map (fun x => Rabs (FR x)) r)) in *. fold (Rsum (map FR r)) in *. pose proof (Forall_inv HF) as Fx. pose proof (Forall_inv_tail HF) as Fr.
    assert (R0 : 0 <= Rsum (map (fun x => Rabs (FR x)) r)) by (clear; induction r; cbn; [lra|pose proof (Rabs_pos (FR a)); unfold Rsum in IHr; lra]).
    set (a := Rabs (FR x)) in *. assert (A0 : 0 <= a) by apply Rabs_pos.
    destruct (q_bound k ltac:(lia)) as [q1 q2]. destruct (q_bound (2 * k) ltac:(lia)) as [q3 q4].
    pose proof (pos_INR k) as Pk. assert (Ik : INR k <= 1000000). { rewrite INR_IZR_INZ. apply IZR_le. lia. }
    assert (B5 : bpow radix2 1005 = 32 * bpow radix2 1000). { change 1005%Z with (5 + 1000)%Z. rewrite bpow_plus. reflexivity. }
    assert (S1 : Rabs (FR s) <= 2 * X) by (apply Rle_trans with (1 := HS); apply Rmult_le_compat_r; lra).
    destruct (corr_exact s x Fs Fx) as (Ft & Et & Fe & Ee). { rewrite B5. lra. } { rewrite B5. fold a. lra. }
    set (t := PrimFloat.add s x) in *. set (e := corr s x t) in *. clearbody t e.
    assert (SX : Rabs (FR s + FR x) <= (1 + u) ^ k * (X + a)).
    { apply Rle_trans with (1 := Rabs_triang _ _). fold a. set (Q := (1 + u) ^ k) in *. clearbody Q. nra. }
    assert (Ke : Rabs (FR e) <= u * ((1 + u) ^ k * (X + a))).
    { rewrite Ee. rewrite Rabs_minus_sym. apply Rle_trans with (1 := Et). apply Rmult_le_compat_l; lra. }
    set (d := Rabs (FR c - C)) in *. assert (D0 : 0 <= d) by apply Rabs_pos.
    assert (KC' : Rabs (C + FR e) <= (INR k + 1) * u * ((1 + u) ^ k * (X + a))).
    { apply Rle_trans with (1 := Rabs_triang _ _). assert (INR k * u * ((1 + u) ^ k * X) <= INR k * u * ((1 + u) ^ k * (X + a))); [|lra].
      apply Rmult_le_compat_l; [nra|]. apply Rmult_le_compat_l; lra. }
    assert (Dc : Rabs (FR c + FR e) <= d + Rabs (C + FR e)). { replace (FR c + FR e) with ((FR c - C) + (C + FR e)) by ring. apply Rabs_triang. }
    assert (Ku : 0 <= INR k * u <= / 1000000) by (split; nra).
    assert (D1 : d <= X). { set (K := INR k) in *. clearbody K. set (Q := (1 + u) ^ (2 * k)) in *. clearbody Q. apply Rle_trans with (1 := HD).
      replace (K * K * (u * u) * (Q * X)) with ((K * u) * (K * u) * (Q * X)) by ring. apply Rle_trans with (/ 1000000 * (2 * X)); [|lra]. apply Rmult_le_compat; [apply Rmult_le_pos; lra|apply Rmult_le_pos; lra| |apply Rmult_le_compat_r; lra].
      apply Rle_trans with (/ 1000000 * / 1000000); [apply Rmult_le_compat; lra|lra]. }
    assert (CE1 : Rabs (C + FR e) <= X + a). { apply Rle_trans with (1 := KC'). set (Q := (1 + u) ^ k) in *. clearbody Q. set (K := INR k) in *. clearbody K. assert ((K + 1) * u <= / 2) by lra.
      assert (0 <= Q * (X + a) <= 2 * (X + a)) by (split; nra). nra. }
    assert (B10 : big = 1024 * bpow radix2 1000). { unfold big. change 1010%Z with (10 + 1000)%Z. rewrite bpow_plus. reflexivity. }
    destruct (add_err c e Fc Fe) as (Fc' & _ & Ec'). { rewrite B10. lra. }
    set (c' := PrimFloat.add c e) in *. clearbody c'.
    specialize (IH t c' (S k) (X + a) (V + FR x) (C + FR e) B Fr Ft Fc').
    replace (S k + length r)%nat with (k + S (length r))%nat in IH by lia.
    destruct IH as [IF IE]; try assumption; try lra.
    + apply Rle_trans with (Rabs (FR s + FR x) + u * Rabs (FR s + FR x)).
      * replace (FR t) with ((FR s + FR x) + (FR t - (FR s + FR x))) by ring. apply Rle_trans with (1 := Rabs_triang _ _). lra.
      * cbn [pow]. replace (Rabs (FR s + FR x) + u * Rabs (FR s + FR x)) with ((1 + u) * Rabs (FR s + FR x)) by ring. rewrite Rmult_assoc. apply Rmult_le_compat_l; lra.
    + apply Rle_trans with (1 := KC'). rewrite S_INR. apply Rmult_le_compat_l; [nra|]. apply Rmult_le_compat_r; [lra|]. cbn [pow]. nra.
    + rewrite S_INR. replace (2 * S k)%nat with (S (S (2 * k))) by lia. cbn [pow].
      assert (Q2 : (1 + u) ^ k <= (1 + u) ^ (2 * k)) by (apply Rle_pow; [lra|lia]).
      assert (L1 : Rabs (FR c' - (C + FR e)) <= (1 + u) * d + u * Rabs (C + FR e)).
      { replace (FR c' - (C + FR e)) with ((FR c' - (FR c + FR e)) + (FR c - C)) by ring. apply Rle_trans with (1 := Rabs_triang _ _). fold d.
        assert (u * Rabs (FR c + FR e) <= u * (d + Rabs (C + FR e))) by (apply Rmult_le_compat_l; lra). lra. }
      apply Rle_trans with (1 := L1).
      set (K := INR k) in *. clearbody K. set (Q := (1 + u) ^ (2 * k)) in *. set (q := (1 + u) ^ k) in *. clearbody Q q.
      assert (W : 0 <= u * u * (Q * (X + a))) by (apply Rmult_le_pos; nra).
      assert (G1 : (1 + u) * d <= (1 + u) * (K * K * (u * u * (Q * (X + a))))).
      { apply Rmult_le_compat_l; [lra|]. apply Rle_trans with (1 := HD). rewrite Rmult_assoc. apply Rmult_le_compat_l; [nra|]. apply Rmult_le_compat_l; [nra|]. apply Rmult_le_compat_l; lra. }
      assert (G2 : u * Rabs (C + FR e) <= (K + 1) * (u * u * (Q * (X + a)))).
      { apply Rle_trans with (u * ((K + 1) * u * (q * (X + a)))); [apply Rmult_le_compat_l; lra|].
        replace (u * ((K + 1) * u * (q * (X + a)))) with ((K + 1) * (u * u * (q * (X + a)))) by ring. apply Rmult_le_compat_l; [lra|]. apply Rmult_le_compat_l; [nra|]. apply Rmult_le_compat_r; lra. }
      set (w := u * u * (Q * (X + a))) in *.
      replace ((K + 1) * (K + 1) * (u * u) * ((1 + u) * ((1 + u) * Q) * (X + a))) with ((1 + u) * (1 + u) * ((K + 1) * (K + 1)) * w) by (unfold w; ring). clearbody w.
      assert ((1 + u) * (K * K * w) + (K + 1) * w <= (1 + u) * (1 + u) * ((K + 1) * (K + 1)) * w); [|lra].
      replace ((1 + u) * (K * K * w) + (K + 1) * w) with (((1 + u) * (K * K) + (K + 1)) * w) by ring. apply Rmult_le_compat_r; [exact W|]. nra.
    + subst n. split; [exact IF|]. replace (V + (FR x + Rsum (map FR r))) with (V + FR x + Rsum (map FR r)) by ring.
      replace (X + (a + Rsum (map (fun x0 => Rabs (FR x0)) r))) with (X + a + Rsum (map (fun x0 => Rabs (FR x0)) r)) by ring. exact IE.
Qed.
