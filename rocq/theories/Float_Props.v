(** C84, C85: the utilities and the ideal gas in IEEE double precision *)
From Coq Require Import ZArith Reals Bool Lia Lra Psatz List.
From Flocq Require Import Core IEEE754.BinarySingleNaN IEEE754.PrimFloat.
From Coq Require FloatOps.
From Verif Require Import Arith Robust_Model Robust_Proofs Float_Spec Float_Tools Float_Model.
From Verif Require Ideal_Model.
Local Open Scope R_scope.
Notation float := PrimFloat.float.

(** * The generic functions on real numbers are those of the other models *)
Theorem C85_same_program :
  (forall a b, @ratio_g RArith SMALL a b = ratio_exact a b) /\
  (forall g rho x, let gm1 := Ideal_Model.gm1 g in let Cv := Ideal_Model.Cv g in
     @ig_T RArith Cv x = Ideal_Model.TemperatureFromDensityInternalEnergy g rho x /\
     @ig_e RArith Cv x = Ideal_Model.InternalEnergyFromDensityTemperature g rho x /\
     @ig_P_T RArith gm1 Cv rho x = Ideal_Model.PressureFromDensityTemperature g rho x /\
     @ig_P_e RArith gm1 rho x = Ideal_Model.PressureFromDensityInternalEnergy g rho x /\
     @ig_B_T RArith gm1 Cv rho x = Ideal_Model.BulkModulusFromDensityTemperature g rho x /\
     @ig_B_e RArith gm1 rho x = Ideal_Model.BulkModulusFromDensityInternalEnergy g rho x /\
     (@ig_PT_rho RArith gm1 Cv rho x, @ig_e RArith Cv x) = Ideal_Model.DensityEnergyFromPressureTemperature g rho x /\
     @ig_e_rho_P RArith gm1 rho x = Ideal_Model.InternalEnergyFromDensityPressure g rho x) /\
  (forall P x, Robust_Model.ipow (Z.of_nat P) x = Some (@ipow_g RArith P P x)) /\
  (forall P x, Robust_Model.ipow (- Z.of_nat (S P)) x = Some (@ipow_neg_g RArith (S P) x)).
Proof.
  assert (M : forall x, @mymax RArith (lit 0) x = Rmax 0 x).
  { intros x. unfold mymax, lit. cbn [num ltb ofQ RArith]. replace (0 / 1) with 0 by field. unfold Rmax. destruct (Rle_dec 0 x); [rewrite Rlt_bool_false by lra|rewrite Rlt_bool_true by lra]; reflexivity. }
  assert (L1 : @lit RArith 1 = 1) by (unfold lit; cbn; field).
  assert (I : forall n P x, (P <= n)%nat -> Robust_Model.ipow_pos n P x = Some (@ipow_g RArith n P x)).
  { induction n; intros P x HP.
    - replace P with 0%nat by lia. cbn [Robust_Model.ipow_pos ipow_g]. rewrite L1. reflexivity.
    - destruct P as [|[|P]]; [cbn [Robust_Model.ipow_pos ipow_g]; rewrite L1; reflexivity|reflexivity|].
      cbn [Robust_Model.ipow_pos ipow_g]. destruct (Nat.odd (S (S P))).
      + rewrite IHn by lia. reflexivity.
      + rewrite IHn; [reflexivity|]. pose proof (Nat.div2_decr (S (S P)) (S n) ltac:(lia)). assert (Nat.div2 (S (S P)) < S (S P))%nat by (apply Nat.lt_div2; lia). lia. }
  refine (conj _ (conj _ (conj _ _))).
  - intros a b. unfold ratio_g, sgn_g, ratio_exact, ratio_denominator, sgn, lit. cbn [num add sub mul div ltb leb ofQ RArith].
    replace (0 / 1) with 0 by field. replace (1 / 1) with 1 by field. f_equal. f_equal.
    destruct (Rle_bool_spec 0 b); [rewrite Rlt_bool_false by lra|rewrite Rlt_bool_true by lra]; ring.
  - intros g rho x gm1 Cv. unfold ig_T, ig_e, ig_P_T, ig_P_e, ig_B_T, ig_B_e, ig_PT_rho, ig_e, ig_e_rho_P. rewrite !M, L1. repeat split; reflexivity.
  - intros P x. unfold Robust_Model.ipow. destruct (Z.of_nat P) eqn:E; try lia.
    + replace P with 0%nat by lia. apply I. lia.
    + rewrite <- E, Nat2Z.id. apply I. lia.
  - intros P x. unfold Robust_Model.ipow. destruct (- Z.of_nat (S P))%Z eqn:E; try lia.
    assert (Pos.to_nat p = S P) as -> by lia. rewrite I by lia. unfold ipow_neg_g. rewrite L1. reflexivity.
Qed.

(** * robust::ratio on doubles *)
Lemma FR_SMALL : FR SMALL_f = SMALL.
Proof. rewrite FR_SF. vm_compute FloatOps.Prim2SF. unfold SF2R, F2R. cbn [Fnum Fexp cond_Zopp]. unfold SMALL. change (-1071)%Z with (-1022 + -49)%Z. rewrite bpow_plus. cbn [bpow Z.pow_pos Pos.iter]. simpl. lra. Qed.
Definition den (b : float) : float := PrimFloat.add b (PrimFloat.mul (@sgn_g FArith b) SMALL_f).
Lemma ratio_f_den a b : ratio_f a b = PrimFloat.div a (den b). Proof. reflexivity. Qed.
Lemma FR_zero : FR PrimFloat.zero = 0. Proof. rewrite FR_SF. reflexivity. Qed.
Lemma fin_zero : fin PrimFloat.zero. Proof. reflexivity. Qed.
Lemma FR_one : FR PrimFloat.one = 1. Proof. rewrite FR_SF. vm_compute FloatOps.Prim2SF. unfold SF2R, F2R. cbn. lra. Qed.
Lemma fin_one : fin PrimFloat.one. Proof. reflexivity. Qed.
Lemma lit0 : @lit FArith 0 = PrimFloat.zero. Proof. reflexivity. Qed.
Lemma lit1 : @lit FArith 1 = PrimFloat.one. Proof. reflexivity. Qed.

Lemma den_value b : fin b -> fin (den b) /\ FR (den b) = rnd (ratio_denominator (FR b)).
Proof.
  intros Hb. unfold den, sgn_g. rewrite lit0, lit1. cbn [leb ltb sub FArith]. rewrite leb_value, ltb_value by (assumption || reflexivity). rewrite FR_zero.
  assert (OV : Rabs (rnd (ratio_denominator (FR b))) < bpow radix2 1024).
  { destruct (Rle_or_lt (bpow radix2 (-960)) (Rabs (FR b))) as [L|L].
    - replace (rnd (ratio_denominator (FR b))) with (FR b); [apply FR_lt|]. symmetry. apply ratio_absorbed; [apply FR_format|exact L].
    - assert (Rabs (ratio_denominator (FR b)) <= 1).
      { unfold ratio_denominator, sgn. pose proof SMALL_pos. assert (SMALL <= / 2). { unfold SMALL. assert (bpow radix2 (-1022) <= bpow radix2 (-10)) by (apply bpow_le; lia). assert (bpow radix2 (-10) = / 1024) by (simpl; lra). lra. }
        assert (bpow radix2 (-960) <= / 2). { replace (/ 2) with (bpow radix2 (-1)) by (simpl; lra). apply bpow_le. lia. }
        apply Rabs_lt_inv in L. apply Rabs_le. destruct (Rle_bool 0 (FR b)); lra. }
      apply Rle_lt_trans with 1; [|change 1 with (bpow radix2 0); apply bpow_lt; lia].
      apply Rabs_le_inv in H. apply Rabs_le. assert (E1 : rnd 1 = 1) by (rewrite <- FR_one; apply rnd_FR).
      split; [|rewrite <- E1; apply rnd_le; lra]. rewrite <- E1. unfold rnd at 1. rewrite <- round_NE_opp. apply rnd_le. lra. }
  unfold ratio_denominator, sgn in *. destruct (Rle_bool_spec 0 (FR b)) as [L|L].
  - rewrite Rlt_bool_false by lra. replace (PrimFloat.mul (PrimFloat.sub PrimFloat.one PrimFloat.zero) SMALL_f) with SMALL_f by (vm_compute; reflexivity).
    rewrite Rmult_1_l in *. rewrite <- FR_SMALL in *. apply add_value; [assumption|reflexivity|exact OV].
  - rewrite Rlt_bool_true by lra. assert (E : FR (PrimFloat.mul (PrimFloat.sub PrimFloat.zero PrimFloat.one) SMALL_f) = -1 * SMALL).
    { replace (PrimFloat.mul (PrimFloat.sub PrimFloat.zero PrimFloat.one) SMALL_f) with (PrimFloat.opp SMALL_f) by (vm_compute; reflexivity). unfold FR. rewrite opp_equiv, B2R_Bopp. fold (FR SMALL_f). rewrite FR_SMALL. ring. }
    rewrite <- E in *. apply add_value; [assumption|reflexivity|exact OV].
Qed.
Lemma den_nz b : fin b -> SMALL <= Rabs (FR (den b)) /\ FR (den b) <> 0.
Proof.
  intros Hb. destruct (den_value b Hb) as [_ E]. rewrite E. assert (K : SMALL <= Rabs (rnd (ratio_denominator (FR b)))) by exact (ratio_denominator_rnd_bound (FR b)).
  split; [exact K|]. intros Z. rewrite Z, Rabs_R0 in K. pose proof SMALL_pos. lra.
Qed.
Lemma same_float x y : fin x -> fin y -> FR x = FR y -> FR y <> 0 -> x = y.
Proof.
  rewrite !fin_B. unfold FR. intros Hx Hy E N. apply Prim2B_inj. apply B2R_inj; [| |exact E].
  - rewrite <- E in N. destruct (Prim2B x); try discriminate; try (exfalso; apply N; reflexivity). reflexivity.
  - destruct (Prim2B y); try discriminate; try (exfalso; apply N; reflexivity). reflexivity.
Qed.

(** For all finite doubles a and b: the quotient is a number (never NaN), also for b = 0; it is the rounded quotient by the rounded
    guarded denominator unless that overflows, in which case it is the infinity of the right sign; and as soon as |b| >= 2^-960 it is
    bit for bit the plain quotient a / b *)
Theorem C84_ratio_binary64 : forall a b : float, fin a -> fin b ->
  PrimFloat.is_nan (ratio_f a b) = false /\
  (exists d, SMALL <= Rabs d /\ d = rnd (ratio_denominator (FR b)) /\
     (Rabs (rnd (FR a / d)) < bpow radix2 1024 -> fin (ratio_f a b) /\ FR (ratio_f a b) = rnd (FR a / d)) /\
     (bpow radix2 1024 <= rnd (FR a / d) -> ratio_f a b = PrimFloat.infinity) /\
     (rnd (FR a / d) <= - bpow radix2 1024 -> ratio_f a b = PrimFloat.neg_infinity)) /\
  (bpow radix2 (-960) <= Rabs (FR b) -> ratio_f a b = PrimFloat.div a b).
Proof.
  intros a b Ha Hb. destruct (den_value b Hb) as [Fd Ed]. destruct (den_nz b Hb) as [Bd Nd].
  pose proof (div_outcome a (den b) Ha Fd Nd) as O. rewrite <- ratio_f_den in O. pose proof (bpow_gt_0 radix2 1024) as HB. refine (conj _ (conj _ _)).
  - exact (outcome_num _ _ O).
  - exists (FR (den b)). refine (conj Bd (conj Ed (conj _ (conj _ _)))).
    + intros H. apply Rabs_lt_inv in H. destruct O as [F V|E V|E V]; [split; assumption|lra|lra].
    + intros H. destruct O as [F V|E V|E V]; [|exact E|lra]. exfalso. pose proof (FR_lt (ratio_f a b)) as L. rewrite V in L. apply Rabs_lt_inv in L. lra.
    + intros H. destruct O as [F V|E V|E V]; [|lra|exact E]. exfalso. pose proof (FR_lt (ratio_f a b)) as L. rewrite V in L. apply Rabs_lt_inv in L. lra.
  - intros H. rewrite ratio_f_den. f_equal. assert (FR b <> 0). { intros Z. rewrite Z, Rabs_R0 in H. pose proof (bpow_gt_0 radix2 (-960)). lra. }
    apply same_float; [assumption|assumption| |assumption]. rewrite Ed. apply ratio_absorbed; [apply FR_format|exact H].
Qed.

(** * Integer powers on doubles: at most one rounding error per factor *)
Lemma ipow_close x : fin x -> forall n P, (P <= n)%nat -> (1 <= P)%nat -> (Z.of_nat P < 1000000)%Z ->
  0 < FR x -> (forall j, (1 <= j <= P)%nat -> ordinary (FR x ^ j)) ->
  close (P - 1) (@ipow_g FArith n P x) (FR x ^ P).
Proof.
  intros Hx. induction n; intros P HP H1 HZ Hpos Ho; [lia|].
  destruct P as [|[|P]]; [lia| |].
  - cbn [ipow_g]. rewrite pow_1. apply close_self. exact Hx.
  - cbn [ipow_g]. set (Q := S (S P)) in *. assert (HQ : (2 <= Q)%nat) by (unfold Q; lia). clearbody Q.
    destruct (Nat.odd Q) eqn:E.
    + assert (IH : close (Q - 1 - 1) (@ipow_g FArith n (Q - 1) x) (FR x ^ (Q - 1))) by (apply IHn; try lia; try assumption; intros j Hj; apply Ho; lia).
      replace (FR x ^ Q) with (FR x * FR x ^ (Q - 1)) by (change (FR x * FR x ^ (Q - 1)) with (FR x ^ (S (Q - 1))); f_equal; lia).
      replace (Q - 1)%nat with (S (0 + (Q - 1 - 1))) at 1 by lia. apply op_mul; [apply close_self; exact Hx|exact IH|lra|apply pow_le; lra| |lia].
      replace (FR x * FR x ^ (Q - 1)) with (FR x ^ Q) by (replace Q with (S (Q - 1)) at 1 by lia; reflexivity). apply Ho. lia.
    + set (h := Nat.div2 Q). assert (Eh : (Q = 2 * h)%nat). { unfold h. pose proof (Nat.div2_odd Q) as D. rewrite E in D. cbn [Nat.b2n] in D. lia. }
      clearbody h. assert (IH : close (h - 1) (@ipow_g FArith n h x) (FR x ^ h)) by (apply IHn; try lia; try assumption; intros j Hj; apply Ho; lia).
      replace (FR x ^ Q) with (FR x ^ h * FR x ^ h) by (rewrite <- pow_add; f_equal; lia).
      replace (Q - 1)%nat with (S ((h - 1) + (h - 1))) by lia. apply op_mul; [exact IH|exact IH|apply pow_le; lra|apply pow_le; lra| |lia].
      rewrite <- pow_add. apply Ho. lia.
Qed.
Lemma ordinary_powers x P : 0 < x -> ordinary x -> ordinary (x ^ P) -> forall j, (1 <= j <= P)%nat -> ordinary (x ^ j).
Proof.
  intros Hx [E|[A B]] HP j Hj; [lra|]. assert (0 < x ^ P) by (apply pow_lt; exact Hx). destruct HP as [E|[C D]]; [lra|]. right.
  destruct (Rle_or_lt 1 x) as [L|L].
  - split; [apply Rle_trans with (x ^ 1); [rewrite pow_1; exact A|apply Rle_pow; [exact L|lia]]|apply Rle_trans with (x ^ P); [apply Rle_pow; [exact L|lia]|exact D]].
  - assert (M : forall a b, (a <= b)%nat -> x ^ b <= x ^ a).
    { intros a b Hab. replace b with (a + (b - a))%nat by lia. rewrite pow_add. assert (0 < x ^ a) by (apply pow_lt; exact Hx). assert (x ^ (b - a) <= 1). { pose proof (pow_incr x 1 (b - a) ltac:(lra)) as P1. rewrite pow1 in P1. exact P1. } nra. }
    split; [apply Rle_trans with (x ^ P); [exact C|apply M; lia]|apply Rle_trans with (x ^ 1); [apply M; lia|rewrite pow_1; exact B]].
Qed.
Theorem C84_pow_binary64 : forall (P : nat) (x : float), (1 <= P)%nat -> (Z.of_nat P < 1000000)%Z -> fin x -> 0 < FR x ->
  ordinary (FR x) -> ordinary (FR x ^ P) ->
  close (P - 1) (@ipow_g FArith P P x) (FR x ^ P) /\
  (ordinary (/ FR x ^ P) -> close P (@ipow_neg_g FArith P x) (/ FR x ^ P)).
Proof.
  intros P x H1 HZ Hx Hpos Hox HoP. assert (C : close (P - 1) (@ipow_g FArith P P x) (FR x ^ P)) by (apply ipow_close; try assumption; try lia; apply ordinary_powers; assumption).
  split; [exact C|]. intros Ho. unfold ipow_neg_g. rewrite lit1. cbn [div FArith]. replace (/ FR x ^ P) with (FR PrimFloat.one / FR x ^ P) by (rewrite FR_one; unfold Rdiv; ring).
  replace P with (S (0 + (P - 1))) at 1 by lia. apply op_div; [apply close_self; reflexivity|exact C|rewrite FR_one; lra|apply pow_lt; exact Hpos|rewrite FR_one; unfold Rdiv; rewrite Rmult_1_l; exact Ho|lia].
Qed.

(** * The ideal gas on doubles *)
Lemma mymax_close k x v : close k x v -> 0 <= v -> close k (@mymax FArith PrimFloat.zero x) v.
Proof.
  intros [F N] Hv. unfold mymax. cbn [ltb FArith]. rewrite ltb_value by (assumption || reflexivity). rewrite FR_zero. rewrite Rlt_bool_false by (apply (near_nonneg _ _ _ Hv N)). split; assumption.
Qed.
Lemma mymax_nonneg x : is_num x -> PrimFloat.leb PrimFloat.zero (@mymax FArith PrimFloat.zero x) = true.
Proof.
  intros H. unfold mymax. cbn [ltb FArith]. destruct (PrimFloat.ltb x PrimFloat.zero) eqn:E; [reflexivity|]. apply nltb_leb; [exact H|reflexivity|exact E].
Qed.
Lemma mymax_mono x y : is_num x -> is_num y -> PrimFloat.leb x y = true ->
  PrimFloat.leb (@mymax FArith PrimFloat.zero x) (@mymax FArith PrimFloat.zero y) = true.
Proof.
  intros Hx Hy H. pose proof (mymax_nonneg y Hy) as N. unfold mymax in *. cbn [ltb FArith] in *.
  destruct (PrimFloat.ltb x PrimFloat.zero) eqn:E1; [exact N|].
  destruct (PrimFloat.ltb y PrimFloat.zero) eqn:E2; [|exact H].
  apply leb_trans with y; [exact H|]. apply ltb_leb. exact E2.
Qed.

(** the state (and gas) is ordinary: the exact values of everything that is computed on the way are 0 or between 2^-1000 and 2^1000 *)
Definition ordinary_state (gm1 Cv rho T e : R) : Prop :=
  0 < gm1 /\ 0 < Cv /\ 0 <= rho /\ 0 <= T /\ 0 <= e /\
  ordinary (gm1 + 1) /\ ordinary ((gm1 + 1) * gm1) /\ ordinary ((gm1 + 1) * gm1 * rho) /\ ordinary ((gm1 + 1) * gm1 * rho * Cv) /\
  ordinary ((gm1 + 1) * gm1 * rho * Cv * T) /\ ordinary ((gm1 + 1) * gm1 * rho * e) /\
  ordinary (gm1 * rho) /\ ordinary (gm1 * rho * Cv) /\ ordinary (gm1 * rho * Cv * T) /\ ordinary (gm1 * rho * e) /\
  ordinary (Cv * T) /\ ordinary (e / Cv).

(** every query is the exact value up to as many relative rounding errors (2^-53 each) as it has operations *)
Theorem C85_ideal_accuracy : forall gm1 Cv rho T e : float, fin gm1 -> fin Cv -> fin rho -> fin T -> fin e ->
  ordinary_state (FR gm1) (FR Cv) (FR rho) (FR T) (FR e) ->
  close 1 (@ig_e FArith Cv T) (FR Cv * FR T) /\
  close 1 (@ig_T FArith Cv e) (FR e / FR Cv) /\
  close 2 (@ig_P_e FArith gm1 rho e) (FR gm1 * FR rho * FR e) /\
  close 3 (@ig_P_T FArith gm1 Cv rho T) (FR gm1 * FR rho * FR Cv * FR T) /\
  close 4 (@ig_B_e FArith gm1 rho e) ((FR gm1 + 1) * FR gm1 * FR rho * FR e) /\
  close 5 (@ig_B_T FArith gm1 Cv rho T) ((FR gm1 + 1) * FR gm1 * FR rho * FR Cv * FR T).
Proof.
  intros gm1 Cv rho T e Fg FC Fr FT Fe (Pg & PC & Pr & PT & Pe & O1 & O2 & O3 & O4 & O5 & O6 & O7 & O8 & O9 & O10 & O11 & O12).
  assert (M1 : 0 <= FR gm1 * FR rho) by (apply Rmult_le_pos; lra). assert (M2 : 0 <= FR gm1 * FR rho * FR Cv) by (apply Rmult_le_pos; lra).
  assert (N1 : 0 <= (FR gm1 + 1) * FR gm1) by (apply Rmult_le_pos; lra). assert (N2 : 0 <= (FR gm1 + 1) * FR gm1 * FR rho) by (apply Rmult_le_pos; lra).
  assert (N3 : 0 <= (FR gm1 + 1) * FR gm1 * FR rho * FR Cv) by (apply Rmult_le_pos; lra).
  pose proof (close_self _ Fg) as Cg. pose proof (close_self _ FC) as CC. pose proof (close_self _ Fr) as Cr. pose proof (close_self _ FT) as CT. pose proof (close_self _ Fe) as Ce.
  assert (C1 : close 0 PrimFloat.one 1) by (rewrite <- FR_one; apply close_self; reflexivity).
  assert (A1 : close 1 (PrimFloat.mul gm1 rho) (FR gm1 * FR rho)) by (apply (op_mul 0 0); try assumption; try lra; lia).
  assert (A2 : close 2 (PrimFloat.mul (PrimFloat.mul gm1 rho) Cv) (FR gm1 * FR rho * FR Cv)) by (apply (op_mul 1 0); try assumption; try lra; lia).
  assert (B1 : close 1 (PrimFloat.add gm1 PrimFloat.one) (FR gm1 + 1)) by (apply (op_add 0 0); try assumption; try lra; lia).
  assert (B2 : close 2 (PrimFloat.mul (PrimFloat.add gm1 PrimFloat.one) gm1) ((FR gm1 + 1) * FR gm1)) by (apply (op_mul 1 0); try assumption; try lra; lia).
  assert (B3 : close 3 (PrimFloat.mul (PrimFloat.mul (PrimFloat.add gm1 PrimFloat.one) gm1) rho) ((FR gm1 + 1) * FR gm1 * FR rho)) by (apply (op_mul 2 0); try assumption; try lra; lia).
  assert (B4 : close 4 (PrimFloat.mul (PrimFloat.mul (PrimFloat.mul (PrimFloat.add gm1 PrimFloat.one) gm1) rho) Cv) ((FR gm1 + 1) * FR gm1 * FR rho * FR Cv)) by (apply (op_mul 3 0); try assumption; try lra; lia).
  unfold ig_e, ig_T, ig_P_e, ig_P_T, ig_B_e, ig_B_T. rewrite lit0, lit1. cbn [add mul div FArith].
  refine (conj _ (conj _ (conj _ (conj _ (conj _ _))))); apply mymax_close.
  - apply (op_mul 0 0); try assumption; try lra; lia.
  - apply Rmult_le_pos; lra.
  - apply (op_div 0 0); try assumption; try lra; lia.
  - apply Rmult_le_pos; [lra|]. left. apply Rinv_0_lt_compat. exact PC.
  - apply (op_mul 1 0); try assumption; try lra; lia.
  - apply Rmult_le_pos; lra.
  - apply (op_mul 2 0); try assumption; try lra; lia.
  - apply Rmult_le_pos; lra.
  - apply (op_mul 3 0); try assumption; try lra; lia.
  - apply Rmult_le_pos; lra.
  - apply (op_mul 4 0); try assumption; try lra; lia.
  - apply Rmult_le_pos; lra.
Qed.

Lemma close_eq k x v w : close k x v -> v = w -> close k x w. Proof. intros H <-. exact H. Qed.
(** there and back: temperature and energy, density and energy from pressure and temperature, energy from density and pressure *)
Theorem C85_ideal_round_trips : forall gm1 Cv rho T e P : float, fin gm1 -> fin Cv -> fin rho -> fin T -> fin e -> fin P ->
  0 < FR gm1 -> 0 < FR Cv -> 0 < FR rho -> 0 < FR T -> 0 < FR e -> 0 < FR P ->
  (ordinary (FR Cv * FR T) -> ordinary (FR T) -> close 2 (@ig_T FArith Cv (@ig_e FArith Cv T)) (FR T)) /\
  (ordinary (FR e / FR Cv) -> ordinary (FR e) -> close 2 (@ig_e FArith Cv (@ig_T FArith Cv e)) (FR e)) /\
  (ordinary (FR gm1 * FR rho) -> ordinary (FR gm1 * FR rho * FR Cv) -> ordinary (FR Cv * FR T) -> ordinary (FR gm1 * FR rho * FR Cv * FR T) ->
     near 6 (FR (@ig_P_e FArith gm1 rho (@ig_e FArith Cv T))) (FR (@ig_P_T FArith gm1 Cv rho T))) /\
  (ordinary (FR gm1 * FR rho) -> ordinary (FR P / (FR gm1 * FR rho)) -> ordinary (FR P) ->
     close 4 (@ig_P_e FArith gm1 rho (@ig_e_rho_P FArith gm1 rho P)) (FR P)) /\
  (ordinary (FR Cv * FR T) -> ordinary (FR gm1 * (FR Cv * FR T)) -> ordinary (FR P / (FR gm1 * (FR Cv * FR T))) ->
     ordinary (FR gm1 * (FR P / (FR gm1 * (FR Cv * FR T)))) -> ordinary (FR P) ->
     close 3 (@ig_PT_rho FArith gm1 Cv P T) (FR P / (FR gm1 * (FR Cv * FR T))) /\
     close 6 (@ig_P_e FArith gm1 (@ig_PT_rho FArith gm1 Cv P T) (@ig_e FArith Cv T)) (FR P)).
Proof.
  intros gm1 Cv rho T e P Fg FC Fr FT Fe FP Pg PC Pr PT Pe PP.
  pose proof (close_self _ Fg) as Cg. pose proof (close_self _ FC) as CC. pose proof (close_self _ Fr) as Cr. pose proof (close_self _ FT) as CT. pose proof (close_self _ Fe) as Ce. pose proof (close_self _ FP) as CP.
  assert (HCT : 0 < FR Cv * FR T) by (apply Rmult_lt_0_compat; assumption). assert (Hgr : 0 < FR gm1 * FR rho) by (apply Rmult_lt_0_compat; assumption).
  assert (HeC : 0 < FR e / FR Cv) by (apply Rdiv_lt_0_compat; assumption).
  assert (E1 : ordinary (FR Cv * FR T) -> close 1 (@ig_e FArith Cv T) (FR Cv * FR T)).
  { intros O. unfold ig_e. rewrite lit0. cbn [mul FArith]. apply mymax_close; [|lra]. apply (op_mul 0 0); try assumption; try lra; lia. }
  refine (conj _ (conj _ (conj _ (conj _ _)))).
  - intros O1 O2. specialize (E1 O1). unfold ig_T. rewrite lit0. cbn [div FArith]. apply mymax_close; [|lra].
    apply (close_eq _ _ (FR Cv * FR T / FR Cv)); [|field; lra]. apply (op_div 1 0); try assumption; try lra; [|lia]. replace (FR Cv * FR T / FR Cv) with (FR T) by (field; lra). exact O2.
  - intros O1 O2. assert (E2 : close 1 (@ig_T FArith Cv e) (FR e / FR Cv)). { unfold ig_T. rewrite lit0. cbn [div FArith]. apply mymax_close; [|lra]. apply (op_div 0 0); try assumption; try lra; lia. }
    unfold ig_e. rewrite lit0. cbn [mul FArith]. apply mymax_close; [|lra]. apply (close_eq _ _ (FR Cv * (FR e / FR Cv))); [|field; lra]. apply (op_mul 0 1); try assumption; try lra; [|lia]. replace (FR Cv * (FR e / FR Cv)) with (FR e) by (field; lra). exact O2.
  - intros O1 O2 O3 O4. specialize (E1 O3). assert (A1 : close 1 (PrimFloat.mul gm1 rho) (FR gm1 * FR rho)) by (apply (op_mul 0 0); try assumption; try lra; lia).
    assert (A2 : close 2 (PrimFloat.mul (PrimFloat.mul gm1 rho) Cv) (FR gm1 * FR rho * FR Cv)) by (apply (op_mul 1 0); try assumption; try lra; lia).
    assert (HgrC : 0 < FR gm1 * FR rho * FR Cv) by (apply Rmult_lt_0_compat; assumption).
    assert (HgrCT : 0 < FR gm1 * FR rho * FR Cv * FR T) by (apply Rmult_lt_0_compat; assumption).
    assert (R1 : close 3 (@ig_P_T FArith gm1 Cv rho T) (FR gm1 * FR rho * FR Cv * FR T)). { unfold ig_P_T. rewrite lit0. cbn [mul FArith]. apply mymax_close; [|lra]. apply (op_mul 2 0); try assumption; try lra; lia. }
    assert (R2 : close 3 (@ig_P_e FArith gm1 rho (@ig_e FArith Cv T)) (FR gm1 * FR rho * (FR Cv * FR T))). { unfold ig_P_e. rewrite lit0. cbn [mul FArith]. apply mymax_close; [|rewrite <- Rmult_assoc; lra]. apply (op_mul 1 1); try assumption; try lra; [|lia]. rewrite <- Rmult_assoc. exact O4. }
    change 6%nat with (3 + 3)%nat. apply near_trans with (FR gm1 * FR rho * FR Cv * FR T); [rewrite (Rmult_assoc (FR gm1 * FR rho)); exact (proj2 R2)|apply near_sym; exact (proj2 R1)].
  - intros O1 O2 O3. assert (A1 : close 1 (PrimFloat.mul gm1 rho) (FR gm1 * FR rho)) by (apply (op_mul 0 0); try assumption; try lra; lia).
    assert (HP : 0 < FR P / (FR gm1 * FR rho)) by (apply Rdiv_lt_0_compat; assumption).
    assert (A2 : close 2 (@ig_e_rho_P FArith gm1 rho P) (FR P / (FR gm1 * FR rho))). { unfold ig_e_rho_P. cbn [mul div FArith]. apply (op_div 0 1); try assumption; try lra; lia. }
    unfold ig_P_e. rewrite lit0. cbn [mul FArith]. apply mymax_close; [|lra]. apply (close_eq _ _ (FR gm1 * FR rho * (FR P / (FR gm1 * FR rho)))); [|field; lra].
    apply (op_mul 1 2); try assumption; try lra; [|lia]. replace (FR gm1 * FR rho * (FR P / (FR gm1 * FR rho))) with (FR P) by (field; lra). exact O3.
  - intros O1 O2 O3 O4 O5. specialize (E1 O1). assert (HgCT : 0 < FR gm1 * (FR Cv * FR T)) by (apply Rmult_lt_0_compat; assumption).
    assert (HP : 0 < FR P / (FR gm1 * (FR Cv * FR T))) by (apply Rdiv_lt_0_compat; assumption).
    assert (A1 : close 2 (PrimFloat.mul gm1 (@ig_e FArith Cv T)) (FR gm1 * (FR Cv * FR T))) by (apply (op_mul 0 1); try assumption; try lra; lia).
    assert (A2 : close 3 (@ig_PT_rho FArith gm1 Cv P T) (FR P / (FR gm1 * (FR Cv * FR T)))). { unfold ig_PT_rho. rewrite lit0. cbn [mul div FArith]. apply mymax_close; [|lra]. apply (op_div 0 2); try assumption; try lra; lia. }
    split; [exact A2|]. assert (HgP : 0 < FR gm1 * (FR P / (FR gm1 * (FR Cv * FR T)))) by (apply Rmult_lt_0_compat; assumption).
    assert (A3 : close 4 (PrimFloat.mul gm1 (@ig_PT_rho FArith gm1 Cv P T)) (FR gm1 * (FR P / (FR gm1 * (FR Cv * FR T))))) by (apply (op_mul 0 3); try assumption; try lra; lia).
    unfold ig_P_e. rewrite lit0. cbn [mul FArith]. apply mymax_close; [|lra]. assert (EP : FR P = FR gm1 * (FR P / (FR gm1 * (FR Cv * FR T))) * (FR Cv * FR T)) by (field; lra).
    apply (close_eq _ _ (FR gm1 * (FR P / (FR gm1 * (FR Cv * FR T))) * (FR Cv * FR T))); [|symmetry; exact EP]. apply (op_mul 4 1); try assumption; try lra; [|lia]. rewrite <- EP. exact O5.
Qed.

(** For all finite inputs (any sign, any size, as long as the coefficient in front of the last factor has not overflowed): the answer is a
    number and not negative, and it does not decrease when its argument grows -- in the arithmetic of the machine *)
Theorem C85_ideal_never_nan : forall gm1 Cv rho T e : float, fin Cv -> fin T -> fin e ->
  let nonnegative x := PrimFloat.leb PrimFloat.zero x = true in
  nonnegative (@ig_e FArith Cv T) /\
  (FR Cv <> 0 -> nonnegative (@ig_T FArith Cv e)) /\
  (fin (PrimFloat.mul gm1 rho) -> nonnegative (@ig_P_e FArith gm1 rho e)) /\
  (fin (PrimFloat.mul (PrimFloat.mul gm1 rho) Cv) -> nonnegative (@ig_P_T FArith gm1 Cv rho T)) /\
  (fin (PrimFloat.mul (PrimFloat.mul (PrimFloat.add gm1 PrimFloat.one) gm1) rho) -> nonnegative (@ig_B_e FArith gm1 rho e)) /\
  (fin (PrimFloat.mul (PrimFloat.mul (PrimFloat.mul (PrimFloat.add gm1 PrimFloat.one) gm1) rho) Cv) -> nonnegative (@ig_B_T FArith gm1 Cv rho T)).
Proof.
  intros gm1 Cv rho T e FC FT Fe nonneg. unfold nonneg.
  refine (conj _ (conj _ (conj _ (conj _ (conj _ _))))); intros; apply mymax_nonneg; cbn [mul div add FArith]; eapply outcome_num;
    first [apply mul_outcome; assumption | apply div_outcome; assumption].
Qed.
Theorem C85_ideal_monotone : forall gm1 Cv rho x y : float, fin Cv -> fin x -> fin y -> FR x <= FR y ->
  (0 <= FR Cv -> PrimFloat.leb (@ig_e FArith Cv x) (@ig_e FArith Cv y) = true) /\
  (0 < FR Cv -> PrimFloat.leb (@ig_T FArith Cv x) (@ig_T FArith Cv y) = true) /\
  (fin (PrimFloat.mul gm1 rho) -> 0 <= FR (PrimFloat.mul gm1 rho) -> PrimFloat.leb (@ig_P_e FArith gm1 rho x) (@ig_P_e FArith gm1 rho y) = true) /\
  (fin (PrimFloat.mul (PrimFloat.mul gm1 rho) Cv) -> 0 <= FR (PrimFloat.mul (PrimFloat.mul gm1 rho) Cv) ->
     PrimFloat.leb (@ig_P_T FArith gm1 Cv rho x) (@ig_P_T FArith gm1 Cv rho y) = true).
Proof.
  intros gm1 Cv rho x y FC Fx Fy Hxy.
  assert (ML : forall c, fin c -> 0 <= FR c -> PrimFloat.leb (@mymax FArith PrimFloat.zero (PrimFloat.mul c x)) (@mymax FArith PrimFloat.zero (PrimFloat.mul c y)) = true).
  { intros c Fc Hc. pose proof (mul_outcome c x Fc Fx) as O1. pose proof (mul_outcome c y Fc Fy) as O2. apply mymax_mono; [eapply outcome_num; exact O1|eapply outcome_num; exact O2|].
    eapply outcome_le; [exact O1|exact O2|]. apply Rmult_le_compat_l; assumption. }
  refine (conj _ (conj _ (conj _ _))).
  - intros H. unfold ig_e. rewrite lit0. apply ML; assumption.
  - intros H. unfold ig_T. rewrite lit0. cbn [div FArith]. assert (N : FR Cv <> 0) by lra. pose proof (div_outcome x Cv Fx FC N) as O1. pose proof (div_outcome y Cv Fy FC N) as O2.
    apply mymax_mono; [eapply outcome_num; exact O1|eapply outcome_num; exact O2|]. eapply outcome_le; [exact O1|exact O2|]. apply Rmult_le_compat_r; [left; apply Rinv_0_lt_compat; exact H|exact Hxy].
  - intros F H. unfold ig_P_e. rewrite lit0. apply ML; assumption.
  - intros F H. unfold ig_P_T. rewrite lit0. apply ML; assumption.
Qed.
(** pressure does not decrease with density either *)
Theorem C85_ideal_monotone_density : forall gm1 r1 r2 e : float, fin gm1 -> fin r1 -> fin r2 -> fin e -> 0 <= FR gm1 -> 0 <= FR e -> FR r1 <= FR r2 ->
  fin (PrimFloat.mul gm1 r1) -> fin (PrimFloat.mul gm1 r2) ->
  PrimFloat.leb (@ig_P_e FArith gm1 r1 e) (@ig_P_e FArith gm1 r2 e) = true.
Proof.
  intros gm1 r1 r2 e Fg F1 F2 Fe Hg He Hr G1 G2. unfold ig_P_e. rewrite lit0. cbn [mul FArith].
  pose proof (mul_outcome _ _ G1 Fe) as O1. pose proof (mul_outcome _ _ G2 Fe) as O2. apply mymax_mono; [eapply outcome_num; exact O1|eapply outcome_num; exact O2|].
  eapply outcome_le; [exact O1|exact O2|]. apply Rmult_le_compat_r; [exact He|].
  assert (L : PrimFloat.leb (PrimFloat.mul gm1 r1) (PrimFloat.mul gm1 r2) = true) by (eapply outcome_le; [apply mul_outcome; assumption|apply mul_outcome; assumption|apply Rmult_le_compat_l; assumption]).
  rewrite leb_value in L by assumption. revert L. destruct (Rle_bool_spec (FR (PrimFloat.mul gm1 r1)) (FR (PrimFloat.mul gm1 r2))); [auto|discriminate].
Qed.

(** * Not vacuous *)
Definition flit (p : Z) (q : positive) : float := @ofQ FArith p q.
Ltac fval := rewrite FR_SF; vm_compute FloatOps.Prim2SF; unfold SF2R, F2R; cbn [Fnum Fexp cond_Zopp]; simpl; lra.
Lemma ord_small v : / 1024 <= v <= 1024 -> ordinary v.
Proof.
  intros [A B]. right. split.
  - apply Rle_trans with (bpow radix2 (-10)); [apply bpow_le; lia|]. replace (bpow radix2 (-10)) with (/ 1024) by (simpl; lra). exact A.
  - apply Rle_trans with (bpow radix2 10); [|apply bpow_le; lia]. replace (bpow radix2 10) with 1024 by (simpl; lra). exact B.
Qed.
(** a gas with gamma = 3/2, Cv = 2 at rho = 3, T = 5, e = 7, and an air-like one whose gamma is not a binary fraction *)
Example C85_state : ordinary_state (FR (flit 1 2)) (FR (flit 2 1)) (FR (flit 3 1)) (FR (flit 5 1)) (FR (flit 7 1)).
Proof.
  replace (FR (flit 1 2)) with (/ 2) by (symmetry; fval). replace (FR (flit 2 1)) with 2 by (symmetry; fval). replace (FR (flit 3 1)) with 3 by (symmetry; fval).
  replace (FR (flit 5 1)) with 5 by (symmetry; fval). replace (FR (flit 7 1)) with 7 by (symmetry; fval).
  unfold ordinary_state. repeat match goal with |- _ /\ _ => split end; try lra; apply ord_small; lra.
Qed.
Example C85_air : let P := @ig_P_T FArith (flit 2 5) (flit 718 1) (flit 1 10) (flit 300 1) in
  PrimFloat.ltb (flit 861599999 100000) P = true /\ PrimFloat.ltb P (flit 861600001 100000) = true.
Proof. vm_compute. split; reflexivity. Qed.
(** a zero denominator; a zero temperature; a negative energy *)
Example C84_zero_denominator : PrimFloat.is_nan (ratio_f (flit 0 1) (flit 0 1)) = false /\ PrimFloat.eqb (ratio_f (flit 0 1) (flit 0 1)) PrimFloat.zero = true /\
  PrimFloat.eqb (ratio_f (flit 1 1) (flit 0 1)) (PrimFloat.div PrimFloat.one SMALL_f) = true /\ PrimFloat.is_finite (ratio_f (flit 1 1) (flit 0 1)) = true.
Proof. vm_compute. repeat split; reflexivity. Qed.
(** the hypothesis of C85_ideal_never_nan that the coefficient does not overflow is needed: gm1 * rho = inf times e = 0 *)
Example C85_nan_needs_overflow : let huge := @ipow_g FArith 16 16 (flit (2 ^ 60) 1) in
  PrimFloat.is_finite huge = true /\ PrimFloat.is_nan (@ig_P_e FArith huge huge PrimFloat.zero) = true.
Proof. vm_compute. split; reflexivity. Qed.
Example C84_pow_value : PrimFloat.eqb (@ipow_g FArith 13 13 (flit 3 1)) (flit 1594323 1) = true /\ PrimFloat.eqb (@ipow_neg_g FArith 3 (flit 2 1)) (flit 1 8) = true.
Proof. vm_compute. split; reflexivity. Qed.
Print Assumptions C85_same_program.
Print Assumptions C84_ratio_binary64.
Print Assumptions C84_pow_binary64.
Print Assumptions C85_ideal_accuracy.
Print Assumptions C85_ideal_round_trips.
Print Assumptions C85_ideal_never_nan.
Print Assumptions C85_ideal_monotone.
Print Assumptions C85_ideal_monotone_density.
