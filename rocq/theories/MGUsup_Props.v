(** C25 (first part): linear Us-up Mie-Gruneisen EOS *)
From Coq Require Import Reals Bool Lra Lia List Psatz.
From Flocq Require Import Core.
From Coquelicot Require Import Coquelicot.
From Verif Require Import Robust_Model Robust_Proofs Thermo_Spec Thermo_Tools MGUsup_Model.
Local Open Scope R_scope.

Definition admissible (g : mgusup) : Prop :=
  tiny <= rho0 g /\ 0 < T0 g /\ 0 <= Cs g /\ tiny <= s g /\ 0 <= G0 g /\ 0 < Cv0 g.
(** densities at which the Hugoniot exists (s eta < 1) and no computed denominator is denormal-like *)
Definition ok_rho (g : mgusup) (rho : R) : Prop :=
  let eta := 1 - rho0 g / rho in
  tiny < rho /\ tiny < 1 - s g * eta /\ tiny < (1 - s g * eta) * (1 - s g * eta).
Definition ok_eta (g : mgusup) (rho : R) : Prop := let eta := 1 - rho0 g / rho in eta = 0 \/ tiny <= Rabs eta.

(** the partial sums of the series for Ei(g f) - Ei(g) - ln f:  sum_{k=1}^{N} g^k (f^k - 1)/(k k!) *)
Fixpoint ein (g f : R) (N : nat) : R :=
  match N with O => 0 | S n => ein g f n + g ^ (S n) * (f ^ (S n) - 1) / (INR (S n) * INR (fact (S n))) end.
(** partial sums of the exponential series, sum_{k=0}^{N} x^k/k! *)
Fixpoint expsum (x : R) (N : nat) : R := match N with O => 1 | S n => expsum x n + x ^ (S n) / INR (fact (S n)) end.
(** closed form of the Hugoniot temperature with the Ei difference replaced by its N-term series (models.rst, "explicit formula"; the bracket
    printed there has the opposite sign, which contradicts the integral equation above it; here it is checked against that equation) *)
Definition TH (g : mgusup) (N : nat) (rho : R) : R :=
  let eta := 1 - rho0 g / rho in let f := 1 - s g * eta in let q := G0 g / s g in let pf := Cs g ^ 2 / (2 * Cv0 g * s g ^ 2) in
  T0 g * exp (G0 g * eta) +
  pf * (s g * eta / f ^ 2 + (q - 3) * (1 / f - exp (G0 g * eta)) - exp (- q * f) * (ln f + ein q f N) * (q ^ 2 - 4 * q + 2)).

Section D.
Variable g : mgusup.
Hypothesis Hr0 : tiny <= rho0 g.
Hypothesis HT0 : 0 < T0 g.
Hypothesis HCs : 0 <= Cs g.
Hypothesis Hs : tiny <= s g.
Hypothesis HG : 0 <= G0 g.
Hypothesis HCv : 0 < Cv0 g.
Notation et r := (1 - rho0 g / r).
Notation P_e := (PressureFromDensityInternalEnergy g).
Notation P_T := (PressureFromDensityTemperature g).
Notation E_T := (InternalEnergyFromDensityTemperature g).
Notation T_e := (TemperatureFromDensityInternalEnergy g).
Notation B_e := (BulkModulusFromDensityInternalEnergy g).
Lemma r0pos : 0 < rho0 g. Proof. pose proof tiny_pos. lra. Qed.
Lemma spos : 0 < s g. Proof. pose proof tiny_pos. lra. Qed.
Lemma eta_eq r : tiny < r -> eta_ g r = et r.
Proof. intros H. unfold eta_. rewrite ratio_pos by lra. reflexivity. Qed.
Definition PHc (x : R) : R := Cs g * Cs g * rho0 g * (x / ((1 - s g * x) * (1 - s g * x))).
Lemma PH_eq r : ok_rho g r -> HugPressureFromDensity g r = PHc (et r).
Proof. intros (H1 & H2 & H3). unfold HugPressureFromDensity. cbv zeta. rewrite eta_eq by exact H1. rewrite ratio_pos by lra. reflexivity. Qed.
Lemma EH_eq r : ok_rho g r -> HugInternalEnergyFromDensity g r = E0 g + et r / (2 * rho0 g) * PHc (et r).
Proof.
  intros H. pose proof tiny_pos. unfold HugInternalEnergyFromDensity. cbv zeta. rewrite PH_eq by exact H. rewrite eta_eq by apply H. rewrite ratio_pos by lra. reflexivity.
Qed.
Lemma ok_loc r : ok_rho g r -> locally r (fun z => ok_rho g z).
Proof.
  intros (H1 & H2 & H3). pose proof tiny_pos. unfold ok_rho. apply loc_and; [apply loc_gt, H1|]. apply loc_and.
  - apply (loc_gt_f (fun z => 1 - s g * (1 - rho0 g / z))); [|exact H2]. eapply derive_cont. auto_derive; [lra|reflexivity].
  - apply (loc_gt_f (fun z => (1 - s g * (1 - rho0 g / z)) * (1 - s g * (1 - rho0 g / z)))); [|exact H3]. eapply derive_cont. auto_derive; [lra|reflexivity].
Qed.
Lemma via (f h : R -> R) r d : (forall z, ok_rho g z -> f z = h z) -> ok_rho g r -> is_derive h r d -> is_derive f r d.
Proof. intros E H D. apply (derive_loc _ h); [|exact D]. apply (loc_imp _ (ok_rho g)); [|apply ok_loc, H]. intros z Hz. symmetry. apply E, Hz. Qed.
Lemma et_derive r : 0 < r -> is_derive (fun z => et z) r (rho0 g / r ^ 2).
Proof. intros H. auto_derive; [lra|]. field. lra. Qed.
Definition dPH x := Cs g * Cs g * rho0 g * ((1 + s g * x) / (1 - s g * x) ^ 3).
Lemma PHc_derive x : 0 < 1 - s g * x -> is_derive PHc x (dPH x).
Proof.
  intros H. unfold PHc, dPH. auto_derive; [|field; lra]. apply Rgt_not_eq. apply Rmult_lt_0_compat; lra.
Qed.
Definition Pc (e x : R) : R := PHc x + rho0 g * G0 g * (e - (E0 g + x / (2 * rho0 g) * PHc x)).
Lemma P_e_eq r e : ok_rho g r -> P_e r e = Pc e (et r).
Proof. intros H. unfold PressureFromDensityInternalEnergy. rewrite PH_eq, EH_eq by exact H. reflexivity. Qed.
Definition dPc x := dPH x - G0 g / 2 * (PHc x + x * dPH x).
Lemma Pc_derive e x : 0 < 1 - s g * x -> is_derive (Pc e) x (dPc x).
Proof.
  intros H. pose proof r0pos. pose proof (PHc_derive x H) as D. pose proof (is_derive_unique _ _ _ D) as U. change (fun z => PHc z) with PHc in U. unfold Pc, dPc.
  auto_derive; [repeat split; eexists; exact D|]. change (fun z => PHc z) with PHc. rewrite U. field. lra.
Qed.
Lemma dP_dr r e : ok_rho g r -> is_derive (fun z => P_e z e) r (rho0 g / r ^ 2 * dPc (et r)).
Proof.
  intros H. pose proof tiny_pos. assert (H' := H). destruct H' as (H1 & H2 & H3).
  apply (via _ (fun z => Pc e (et z))); [intros; apply P_e_eq; assumption|exact H|].
  apply (is_derive_comp (Pc e) (fun z => et z) r); [apply Pc_derive; lra|apply et_derive; lra].
Qed.
Lemma dP_de r e : is_derive (fun z => P_e r z) e (rho0 g * G0 g).
Proof. unfold PressureFromDensityInternalEnergy. auto_derive; [exact I|ring]. Qed.
Lemma Req_bool_true' x y : x = y -> Req_bool x y = true. Proof. apply Req_bool_true. Qed.
Lemma bmod_core r e : ok_rho g r -> ok_eta g r -> B_e r e = rho0 g / r * (dPc (et r) + G0 g * PHc (et r) + G0 g * G0 g * rho0 g * (e - HugInternalEnergyFromDensity g r)).
Proof.
  intros H Ho. pose proof tiny_pos as Ht. pose proof r0pos as Hr. assert (H' := H). destruct H' as (H1 & H2 & H3).
  unfold BulkModulusFromDensityInternalEnergy. cbv zeta. rewrite PH_eq by exact H. rewrite eta_eq by exact H1. rewrite (ratio_pos (rho0 g) r) by lra.
  unfold ok_eta in Ho. cbv zeta in Ho. set (x := et r) in *. f_equal.
  destruct (Req_bool_spec x 0) as [E|E].
  - rewrite E. unfold dPc, PHc, dPH. rewrite !Rmult_0_r, !Rminus_0_r. field.
  - rewrite (ratio_abs _ x) by (destruct Ho; [contradiction|assumption]). rewrite ratio_pos by lra. unfold dPc, PHc, dPH. field. repeat split; try lra; exact E.
Qed.
Lemma bmod_ok r e : ok_rho g r -> ok_eta g r -> is_bulk_modulus P_e r e (B_e r e).
Proof.
  intros H Ho. eexists _, _. refine (conj (dP_dr r e H) (conj (dP_de r e) _)). rewrite bmod_core by assumption. rewrite (P_e_eq r e H). rewrite EH_eq by exact H.
  destruct H as (H1 & _). pose proof tiny_pos. pose proof r0pos. unfold Pc. field. lra.
Qed.
Lemma round_T r T : 0 <= T -> T_e r (E_T r T) = T.
Proof.
  intros H. unfold TemperatureFromDensityInternalEnergy, InternalEnergyFromDensityTemperature. cbv zeta.
  match goal with |- context [Rlt_bool ?v 0] => replace v with T by (field; lra) end. rewrite Rlt_bool_false by lra. reflexivity.
Qed.
Lemma round_e r e : E_T r 0 <= e -> E_T r (T_e r e) = e /\ 0 <= T_e r e.
Proof.
  intros H. unfold TemperatureFromDensityInternalEnergy, InternalEnergyFromDensityTemperature in *. cbv zeta.
  assert (0 <= (e - HugInternalEnergyFromDensity g r) / Cv0 g + HugTemperatureFromDensity g r).
  { apply Rmult_le_reg_l with (Cv0 g); [exact HCv|]. rewrite Rmult_0_r.
    replace (Cv0 g * ((e - HugInternalEnergyFromDensity g r) / Cv0 g + HugTemperatureFromDensity g r)) with (e - HugInternalEnergyFromDensity g r + Cv0 g * HugTemperatureFromDensity g r) by (field; lra). lra. }
  rewrite Rlt_bool_false by assumption. split; [field; lra|assumption].
Qed.
Lemma P_T_eq r T : P_T r T = P_e r (E_T r T).
Proof. unfold PressureFromDensityTemperature, PressureFromDensityInternalEnergy, InternalEnergyFromDensityTemperature. ring. Qed.
Lemma cv_d r T : is_derive (fun t => E_T r t) T (Cv0 g).
Proof. unfold InternalEnergyFromDensityTemperature. auto_derive; [exact I|ring]. Qed.
(** *** the loop *)
Definition lk_ (q : R) (k : nat) : R := q ^ k * s g / (INR k * INR (fact k)).
Definition sk_ (q f : R) (k : nat) : R := q ^ k * (f ^ k - 1) / (INR k * INR (fact k)).
Lemma loop_ein q x fuel : forall i, exists N, (i + 1 <= N <= i + 1 + fuel)%nat /\ (0 < fuel -> i + 2 <= N)%nat /\
  hug_loop q (1 - s g * x) x fuel i (sk_ q (1 - s g * x) (S i)) (lk_ q (S i)) (ein q (1 - s g * x) (S i)) = ein q (1 - s g * x) N.
Proof.
  set (f := 1 - s g * x). induction fuel as [|fuel IH]; intros i.
  - exists (S i). split; [lia|]. split; [lia|]. reflexivity.
  - cbn [hug_loop]. cbv zeta.
    assert (NZ : INR (S i) <> 0) by (apply not_0_INR; lia). assert (NZ2 : INR (S (S i)) <> 0) by (apply not_0_INR; lia).
    assert (NF : INR (fact (S i)) <> 0) by (apply not_0_INR; apply fact_neq_0).
    assert (FS : INR (fact (S (S i))) = INR (S (S i)) * INR (fact (S i))) by (rewrite <- mult_INR; reflexivity).
    replace (i + 2)%nat with (S (S i)) by lia. replace (i + 1)%nat with (S i) by lia.
    assert (E1 : (sk_ q f (S i) * f - lk_ q (S i) * x) * INR (S i) * (q / INR (S (S i)) / INR (S (S i))) = sk_ q f (S (S i))).
    { unfold sk_, lk_. rewrite FS. replace (f ^ S (S i)) with (f * f ^ S i) by (cbn; ring). replace (q ^ S (S i)) with (q * q ^ S i) by (cbn; ring).
      replace (f * f ^ S i - 1) with (f * (f ^ S i - 1) - s g * x) by (unfold f; ring). field. auto. }
    assert (E2 : q / INR (S (S i)) / INR (S (S i)) * INR (S i) * lk_ q (S i) = lk_ q (S (S i))).
    { unfold lk_. rewrite FS. replace (q ^ S (S i)) with (q * q ^ S i) by (cbn; ring). field. auto. }
    rewrite E1, E2. change (ein q f (S i) + sk_ q f (S (S i))) with (ein q f (S (S i))).
    destruct (Rlt_bool _ _); [exists (S (S i)); split; [lia|split; [lia|reflexivity]]|].
    destruct (IH (S i)) as (N & HN & _ & EN). exists N. split; [lia|]. split; [lia|]. exact EN.
Qed.
Lemma expsum_last x n : x * expsum x n = x * expsum x n. Proof. reflexivity. Qed.
(** d/df (ln f + ein) = (1/f) sum_{k<=N} (q f)^k/k! *)
Lemma ein_derive q f N : 0 < f -> is_derive (fun z => ln z + ein q z N) f (expsum (q * f) N / f).
Proof.
  intros H. induction N as [|n IH].
  - cbn [ein expsum]. auto_derive; [exact H|]. field. lra.
  - cbn [ein expsum]. 
    assert (NZ : INR (S n) <> 0) by (apply not_0_INR; lia). assert (NF : INR (fact (S n)) <> 0) by (apply not_0_INR; apply fact_neq_0).
    apply (is_derive_ext (fun z => (ln z + ein q z n) + q ^ S n * (z ^ S n - 1) / (INR (S n) * INR (fact (S n))))).
    { intros t. match goal with |- @eq _ ?x ?y => change (@eq R x y) end. ring. }
    apply (is_derive_eq _ _ (expsum (q * f) n / f + q ^ S n * (INR (S n) * f ^ n) / (INR (S n) * INR (fact (S n))))).
    + apply (is_derive_plus (V := R_NormedModule) (fun z => ln z + ein q z n) (fun z => q ^ S n * (z ^ S n - 1) / (INR (S n) * INR (fact (S n)))) f); [exact IH|].
      apply (is_derive_ext (fun z => q ^ S n / (INR (S n) * INR (fact (S n))) * (z ^ S n - 1))).
      { intros t. match goal with |- @eq _ ?x ?y => change (@eq R x y) end. field. split; assumption. }
      apply (is_derive_eq _ _ (q ^ S n / (INR (S n) * INR (fact (S n))) * (INR (S n) * f ^ n))); [|field; split; assumption].
      apply is_derive_scal. apply (is_derive_eq _ _ (INR (S n) * 1 * f ^ n - 0)); [|ring].
      apply (is_derive_minus (V := R_NormedModule) (fun z => z ^ S n) (fun _ => 1)); [apply (is_derive_pow (fun z => z) (S n) f 1); apply (is_derive_id (K := R_AbsRing))|apply (is_derive_const (K := R_AbsRing) (V := R_NormedModule))].
    + rewrite Rpow_mult_distr. replace (f ^ S n) with (f * f ^ n) by (cbn; ring). field. repeat split; (assumption || lra).
Qed.
(** TH as a function of eta *)
Definition THc (N : nat) (x : R) : R :=
  let f := 1 - s g * x in let q := G0 g / s g in let pf := Cs g ^ 2 / (2 * Cv0 g * s g ^ 2) in
  T0 g * exp (G0 g * x) +
  pf * (s g * x / f ^ 2 + (q - 3) * (1 / f - exp (G0 g * x)) - exp (- q * f) * (ln f + ein q f N) * (q ^ 2 - 4 * q + 2)).
Lemma HT_eq r : ok_rho g r -> 1 / 10 ^ 8 <= et r * et r -> exists N, (2 <= N <= 21)%nat /\ HugTemperatureFromDensity g r = THc N (et r).
Proof.
  intros (H1 & H2 & H3) H4. pose proof tiny_pos. pose proof spos. unfold HugTemperatureFromDensity. cbv zeta. rewrite eta_eq by exact H1. set (x := et r) in *.
  rewrite Rlt_bool_false by lra. rewrite ratio_pos by lra. set (q := G0 g / s g).
  destruct (loop_ein q x 20 0) as (N & HN & HN2 & EN).
  assert (E1 : sk_ q (1 - s g * x) 1 = - G0 g * x) by (unfold sk_, q; cbn; field; lra).
  assert (E2 : lk_ q 1 = G0 g) by (unfold lk_, q; cbn; field; lra).
  assert (E3 : ein q (1 - s g * x) 1 = - G0 g * x) by (unfold q; cbn; field; lra).
  rewrite E1, E2, E3 in EN. rewrite EN. exists N. split; [lia|]. unfold THc. cbv zeta. fold q. set (S' := ein q (1 - s g * x) N).
  replace (exp (- q * (1 - s g * x))) with (exp (- q) * exp (G0 g * x)). 2: { rewrite <- exp_plus. f_equal. unfold q. field. lra. }
  field. lra.
Qed.
Lemma TH_aux (LL : R -> R) (x d q pf G t0 c : R) : 0 < 1 - c * x -> is_derive LL x d ->
  is_derive (fun z => t0 * exp (G * z) + pf * (c * z / (1 - c * z) ^ 2 + (q - 3) * (1 / (1 - c * z) - exp (G * z)) - exp (- q * (1 - c * z)) * LL z * (q ^ 2 - 4 * q + 2))) x
   (t0 * G * exp (G * x) + pf * (c / (1 - c * x) ^ 2 + 2 * c * c * x / (1 - c * x) ^ 3 + (q - 3) * (c / (1 - c * x) ^ 2 - G * exp (G * x))
      - (q * c * exp (- q * (1 - c * x)) * LL x + exp (- q * (1 - c * x)) * d) * (q ^ 2 - 4 * q + 2))).
Proof.
  intros H D. pose proof (is_derive_unique _ _ _ D) as U. change (fun z => LL z) with LL in U. auto_derive.
  - refine (conj _ (conj _ (conj _ I))); [apply Rgt_not_eq; rewrite Rmult_1_r; apply Rmult_lt_0_compat; exact H|lra|eexists; exact D].
  - change (fun z => LL z) with LL. rewrite U. change (1 + - (c * x)) with (1 - c * x). set (f := 1 - c * x) in *. replace (c * x) with (1 - f) by (unfold f; ring).
    replace (2 * c * c * x) with (2 * c * (1 - f)) by (unfold f; ring). field. lra.
Qed.
Lemma THc_derive N x : 0 < 1 - s g * x -> let f := 1 - s g * x in let q := G0 g / s g in
  is_derive (THc N) x (G0 g * THc N x + (x * dPH x - PHc x) / (2 * rho0 g * Cv0 g)
     - Cs g ^ 2 / (2 * Cv0 g * s g ^ 2) * (q ^ 2 - 4 * q + 2) * (s g / f) * (exp (- q * f) * (exp (q * f) - expsum (q * f) N))).
Proof.
  intros H. cbv zeta. pose proof spos as Hsp. pose proof r0pos as Hr. set (q := G0 g / s g) in *. set (f := 1 - s g * x) in *. 
  assert (DL : is_derive (fun z => ln (1 - s g * z) + ein q (1 - s g * z) N) x (- s g * (expsum (q * f) N / f))).
  { apply (is_derive_comp (fun z => ln z + ein q z N) (fun z => 1 - s g * z) x); [apply ein_derive, H|]. auto_derive; [exact I|ring]. }
  pose proof (TH_aux _ x _ q (Cs g ^ 2 / (2 * Cv0 g * s g ^ 2)) (G0 g) (T0 g) (s g) H DL) as D. apply (is_derive_eq _ _ _ _ D). clear D DL.
  assert (EX : exp (- q * f) * exp (q * f) = 1) by (rewrite <- exp_plus; replace (- q * f + q * f) with 0 by ring; apply exp_0).
  replace (exp (- q * f) * (exp (q * f) - expsum (q * f) N)) with (1 - exp (- q * f) * expsum (q * f) N) by (rewrite Rmult_minus_distr_l, EX; reflexivity).
  unfold THc. cbv zeta. fold q f. set (W := exp (- q * f)). set (X := exp (G0 g * x)). set (L := ln f + ein q f N). set (Y := expsum (q * f) N).
  unfold dPH, PHc. fold f. assert (EG : G0 g = q * s g) by (unfold q; field; lra). rewrite EG.
  assert (Ex : s g * x = 1 - f) by (unfold f; ring). replace (2 * s g * s g * x) with (2 * s g * (1 - f)) by (rewrite <- Ex; ring). rewrite Ex.
  assert (Ex' : x = (1 - f) / s g) by (rewrite <- Ex; field; lra). rewrite Ex'.
  clearbody W X L Y. clear EG EX Ex Ex'. clearbody q f. clear - H Hsp Hr HCv. field. repeat split; lra.
Qed.
End D.
(** *** remainder of the exponential series *)
Lemma nonneg_by_derive (f f' : R -> R) x : 0 <= x -> (forall z, 0 <= z <= x -> is_derive f z (f' z)) -> (forall z, 0 <= z <= x -> 0 <= f' z) -> 0 <= f 0 -> 0 <= f x.
Proof.
  intros Hx HD HP H0. destruct (Req_dec x 0) as [->|Hn]; [exact H0|].
  destruct (MVT_gen f 0 x f') as (c & Hc & E).
  - intros z Hz. rewrite Rmin_left, Rmax_right in Hz by lra. apply HD. lra.
  - intros z Hz. rewrite Rmin_left, Rmax_right in Hz by lra. apply continuity_pt_filterlim. eapply derive_cont. apply HD. lra.
  - rewrite Rmin_left, Rmax_right in Hc by lra. specialize (HP c ltac:(lra)). assert (0 <= f' c * (x - 0)) by (apply Rmult_le_pos; lra). lra.
Qed.
Lemma expsum_derive x N : is_derive (fun z => expsum z (S N)) x (expsum x N).
Proof.
  induction N as [|n IH].
  - cbn. auto_derive; [exact I|]. field.
  - assert (NZ : INR (S (S n)) <> 0) by (apply not_0_INR; lia). assert (NF : INR (fact (S n)) <> 0) by (apply not_0_INR; apply fact_neq_0).
    assert (FS : INR (fact (S (S n))) = INR (S (S n)) * INR (fact (S n))) by (rewrite <- mult_INR; reflexivity).
    change (fun z => expsum z (S (S n))) with (fun z => expsum z (S n) + z ^ S (S n) / INR (fact (S (S n)))). change (expsum x (S n)) with (expsum x n + x ^ S n / INR (fact (S n))).
    apply (is_derive_plus (V := R_NormedModule) (fun z => expsum z (S n)) (fun z => z ^ S (S n) / INR (fact (S (S n))))); [exact IH|].
    apply (is_derive_ext (fun z => / INR (fact (S (S n))) * z ^ S (S n))). { intros t. unfold Rdiv. apply Rmult_comm. }
    apply (is_derive_eq _ _ (/ INR (fact (S (S n))) * (INR (S (S n)) * 1 * x ^ S n))).
    + apply is_derive_scal. apply (is_derive_pow (fun z => z) (S (S n)) x 1). apply (is_derive_id (K := R_AbsRing)).
    + rewrite FS. field. split; assumption.
Qed.
Lemma expsum_0 N : expsum 0 N = 1.
Proof. induction N as [|n IH]; [reflexivity|]. cbn [expsum]. rewrite IH. rewrite pow_i by lia. unfold Rdiv. ring. Qed.
Lemma exp_remainder N : forall x, 0 <= x -> 0 <= exp x - expsum x N <= x ^ S N / INR (fact (S N)) * exp x.
Proof.
  induction N as [|n IH]; intros x Hx.
  - cbn [expsum]. assert (H := exp_ineq1_le x). split; [lra|]. cbn. unfold Rdiv. rewrite Rinv_1, !Rmult_1_r.
    (* e^x - 1 <= x e^x *)
    assert (K := exp_ineq1_le (- x)). rewrite exp_Ropp in K. pose proof (exp_pos x). apply Rmult_le_compat_r with (r := exp x) in K; [|lra].
    rewrite Rinv_l in K by lra. lra.
  - assert (NZ : INR (S (S n)) <> 0) by (apply not_0_INR; lia). assert (NF : INR (fact (S n)) <> 0) by (apply not_0_INR; apply fact_neq_0).
    assert (FS : INR (fact (S (S n))) = INR (S (S n)) * INR (fact (S n))) by (rewrite <- mult_INR; reflexivity).
    split.
    + apply (nonneg_by_derive (fun z => exp z - expsum z (S n)) (fun z => exp z - expsum z n) x Hx).
      * intros z Hz. apply (is_derive_minus (V := R_NormedModule) exp (fun z => expsum z (S n))); [apply is_derive_exp|apply expsum_derive].
      * intros z Hz. apply IH. lra.
      * rewrite exp_0, expsum_0. lra.
    + enough (0 <= x ^ S (S n) / INR (fact (S (S n))) * exp x - (exp x - expsum x (S n))) by lra.
      apply (nonneg_by_derive (fun z => z ^ S (S n) / INR (fact (S (S n))) * exp z - (exp z - expsum z (S n)))
        (fun z => (z ^ S n / INR (fact (S n)) * exp z + z ^ S (S n) / INR (fact (S (S n))) * exp z) - (exp z - expsum z n)) x Hx).
      * intros z Hz. apply (is_derive_minus (V := R_NormedModule) (fun z => z ^ S (S n) / INR (fact (S (S n))) * exp z) (fun z => exp z - expsum z (S n))).
        -- apply (is_derive_mult (fun z => z ^ S (S n) / INR (fact (S (S n)))) exp z (z ^ S n / INR (fact (S n))) (exp z)); [|apply is_derive_exp|intros; apply Rmult_comm].
           apply (is_derive_ext (fun z => / INR (fact (S (S n))) * z ^ S (S n))). { intros t. unfold Rdiv. apply Rmult_comm. }
           apply (is_derive_eq _ _ (/ INR (fact (S (S n))) * (INR (S (S n)) * 1 * z ^ S n))).
           ++ apply is_derive_scal. apply (is_derive_pow (fun z => z) (S (S n)) z 1). apply (is_derive_id (K := R_AbsRing)).
           ++ rewrite FS. field. split; assumption.
        -- apply (is_derive_minus (V := R_NormedModule) exp (fun z => expsum z (S n))); [apply is_derive_exp|apply expsum_derive].
      * intros z Hz. destruct (IH z ltac:(lra)) as (_ & K). 
        assert (0 <= z ^ S (S n) / INR (fact (S (S n))) * exp z). { apply Rmult_le_pos; [|pose proof (exp_pos z); lra]. unfold Rdiv. apply Rmult_le_pos; [apply pow_le; lra|]. apply Rlt_le, Rinv_0_lt_compat, INR_fact_lt_0. }
        lra.
      * rewrite exp_0, expsum_0. rewrite pow_i by lia. unfold Rdiv. lra.
Qed.
Ltac adm H := destruct H as (? & ? & ? & ? & ? & ?).

(** ** C25 (Us-up) *)
(** the reference curve is the Hugoniot of Us = Cs + s up: mass, momentum and energy jump conditions *)
Theorem C25_mgusup_hugoniot : forall g rho, admissible g -> ok_rho g rho ->
  exists Us up, Us = Cs g + s g * up /\ rho0 g * Us = rho * (Us - up) /\ HugPressureFromDensity g rho = rho0 g * Us * up /\
    HugInternalEnergyFromDensity g rho - E0 g = HugPressureFromDensity g rho / 2 * (1 / rho0 g - 1 / rho) /\
    PressureFromDensityInternalEnergy g rho (HugInternalEnergyFromDensity g rho) = HugPressureFromDensity g rho /\
    PressureFromDensityTemperature g rho (HugTemperatureFromDensity g rho) = HugPressureFromDensity g rho.
Proof.
  intros g rho HA Hr. adm HA. assert (Hr' := Hr). destruct Hr' as (R1 & R2 & R3). pose proof tiny_pos. set (x := 1 - rho0 g / rho) in *.
  assert (Ex : rho0 g = rho * (1 - x)) by (unfold x; field; lra).
  exists (Cs g / (1 - s g * x)), (Cs g * x / (1 - s g * x)). rewrite EH_eq, PH_eq; auto. fold x. unfold PHc.
  refine (conj _ (conj _ (conj _ (conj _ (conj _ _))))).
  - field. lra.
  - rewrite Ex at 1. field. lra.
  - field. lra.
  - assert (1 - x <> 0) by (intros K; rewrite K in Ex; lra). rewrite Ex. field. repeat split; try lra. 
  - unfold PressureFromDensityInternalEnergy. rewrite PH_eq; auto. rewrite EH_eq; auto. fold x. unfold PHc. ring.
  - unfold PressureFromDensityTemperature. rewrite PH_eq; auto. fold x. unfold PHc. ring.
Qed.
Theorem C25_mgusup_round_trip : forall g rho, admissible g ->
  (forall T, 0 <= T -> TemperatureFromDensityInternalEnergy g rho (InternalEnergyFromDensityTemperature g rho T) = T) /\
  (forall e, InternalEnergyFromDensityTemperature g rho 0 <= e ->
     InternalEnergyFromDensityTemperature g rho (TemperatureFromDensityInternalEnergy g rho e) = e /\ 0 <= TemperatureFromDensityInternalEnergy g rho e) /\
  (forall T, PressureFromDensityTemperature g rho T = PressureFromDensityInternalEnergy g rho (InternalEnergyFromDensityTemperature g rho T)).
Proof.
  intros g rho HA. adm HA. refine (conj _ (conj _ _)).
  - intros; apply round_T; auto.
  - intros; apply round_e; auto.
  - intros; apply P_T_eq.
Qed.
Theorem C25_mgusup_derivatives : forall g rho e T, admissible g -> ok_rho g rho -> ok_eta g rho ->
  is_gruneisen (PressureFromDensityInternalEnergy g) rho e (GruneisenParamFromDensityInternalEnergy g rho e) /\
  GruneisenParamFromDensityTemperature g rho T = GruneisenParamFromDensityInternalEnergy g rho e /\
  is_specific_heat (InternalEnergyFromDensityTemperature g) rho T (SpecificHeatFromDensityTemperature g rho T) /\
  is_bulk_modulus (PressureFromDensityInternalEnergy g) rho e (BulkModulusFromDensityInternalEnergy g rho e).
Proof.
  intros g rho e T HA Hr Ho. adm HA. refine (conj _ (conj _ (conj _ _))).
  - unfold is_gruneisen, GruneisenParamFromDensityInternalEnergy. destruct Hr as (R1 & _). pose proof tiny_pos. rewrite ratio_pos by lra.
    replace (rho * (G0 g * rho0 g / rho)) with (rho0 g * G0 g) by (field; lra). apply dP_de.
  - reflexivity.
  - apply cv_d.
  - apply bmod_ok; auto.
Qed.
Lemma aff_ET (f h : R -> R) r df dh c T : is_derive f r df -> is_derive h r dh -> is_derive (fun z => f z + c * (T - h z)) r (df - c * dh).
Proof.
  intros D1 D2. pose proof (is_derive_unique _ _ _ D1) as U1. pose proof (is_derive_unique _ _ _ D2) as U2.
  change (fun z => f z) with f in U1. change (fun z => h z) with h in U2.
  auto_derive; [refine (conj _ (conj _ I)); eexists; eassumption|]. change (fun z => f z) with f. change (fun z => h z) with h. rewrite U1, U2. ring.
Qed.
(** the Hugoniot temperature away from the reference density is the closed form with an N-term series, 2 <= N <= 21, and each such closed form
    satisfies the first law along with the coded entropy up to the remainder of the exponential series, which is bounded *)
Theorem C25_mgusup_first_law : forall g rho T, admissible g -> ok_rho g rho -> 1 / 10 ^ 8 <= (1 - rho0 g / rho) * (1 - rho0 g / rho) -> 0 < T ->
  exists N, (2 <= N <= 21)%nat /\ HugTemperatureFromDensity g rho = TH g N rho /\
  let E r t := HugInternalEnergyFromDensity g r + Cv0 g * (t - TH g N r) in
  let f := 1 - s g * (1 - rho0 g / rho) in let q := G0 g / s g in
  exists dEdr defect,
    E rho T = InternalEnergyFromDensityTemperature g rho T /\
    is_derive (fun t => EntropyFromDensityTemperature g rho t) T (Cv0 g / T) /\
    is_derive (fun r => E r T) rho dEdr /\
    is_derive (fun r => EntropyFromDensityTemperature g r T) rho ((dEdr - PressureFromDensityTemperature g rho T / (rho * rho) - defect) / T) /\
    Rabs defect <= rho0 g / rho ^ 2 * (Cs g ^ 2 / (2 * s g ^ 2) * Rabs (q ^ 2 - 4 * q + 2) * (s g / f)) * ((q * f) ^ S N / INR (fact (S N))).
Proof.
  intros g rho T HA Hr He HT. adm HA. assert (Hr' := Hr). destruct Hr' as (R1 & R2 & R3). pose proof tiny_pos as Ht.
  destruct (HT_eq g ltac:(assumption) ltac:(assumption) rho Hr He) as (N & HN & EN). exists N. split; [exact HN|].
  assert (ETH : forall r, TH g N r = THc g N (1 - rho0 g / r)) by reflexivity. rewrite ETH. split; [exact EN|]. cbv zeta. set (x := 1 - rho0 g / rho) in *.
  set (q := G0 g / s g). set (f := 1 - s g * x) in *.
  assert (Hs : 0 < s g) by lra. assert (Hr0 : 0 < rho0 g) by lra.
  set (D := Cs g ^ 2 / (2 * Cv0 g * s g ^ 2) * (q ^ 2 - 4 * q + 2) * (s g / f) * (exp (- q * f) * (exp (q * f) - expsum (q * f) N))).
  pose proof (THc_derive g ltac:(assumption) ltac:(assumption) ltac:(assumption) N x ltac:(fold f; lra)) as DT. cbv zeta in DT. fold q f D in DT.
  assert (DTr : is_derive (fun r => TH g N r) rho (rho0 g / rho ^ 2 * (G0 g * THc g N x + (x * dPH g x - PHc g x) / (2 * rho0 g * Cv0 g) - D))).
  { apply (is_derive_comp (THc g N) (fun z => 1 - rho0 g / z) rho); [exact DT|apply et_derive; lra]. }
  assert (DEH : is_derive (fun r => HugInternalEnergyFromDensity g r) rho (rho0 g / rho ^ 2 * ((PHc g x + x * dPH g x) / (2 * rho0 g)))).
  { apply (via g _ (fun r => (fun y => E0 g + y / (2 * rho0 g) * PHc g y) (1 - rho0 g / r))); [intros; apply EH_eq; auto|exact Hr|].
    apply (is_derive_comp (fun y => E0 g + y / (2 * rho0 g) * PHc g y) (fun z => 1 - rho0 g / z) rho); [|apply et_derive; lra]. fold x.
    pose proof (PHc_derive g x ltac:(fold f; lra)) as DP. pose proof (is_derive_unique _ _ _ DP) as U. change (fun z => PHc g z) with (PHc g) in U.
    auto_derive; [eexists; exact DP|]. change (fun z => PHc g z) with (PHc g). rewrite U. field. lra. }
  exists (rho0 g / rho ^ 2 * ((PHc g x + x * dPH g x) / (2 * rho0 g)) - Cv0 g * (rho0 g / rho ^ 2 * (G0 g * THc g N x + (x * dPH g x - PHc g x) / (2 * rho0 g * Cv0 g) - D))), (rho0 g / rho ^ 2 * Cv0 g * D).
  refine (conj _ (conj _ (conj _ (conj _ _)))).
  - unfold InternalEnergyFromDensityTemperature. rewrite EN. reflexivity.
  - unfold EntropyFromDensityTemperature. auto_derive; [apply Rdiv_lt_0_compat; lra|]. field. lra.
  - exact (aff_ET _ _ _ _ _ (Cv0 g) T DEH DTr).
  - apply (is_derive_eq _ _ (- (G0 g * Cv0 g * (rho0 g / rho ^ 2)))).
    + apply (via g _ (fun r => S0 g - G0 g * Cv0 g * (1 - rho0 g / r) + Cv0 g * ln (T / T0 g))); [|exact Hr|].
      * intros z Hz. unfold EntropyFromDensityTemperature. rewrite eta_eq by apply Hz. reflexivity.
      * auto_derive; [lra|]. field. lra.
    + unfold PressureFromDensityTemperature. rewrite PH_eq, EN; auto. fold x. field. lra.
  - assert (Hq : 0 <= q) by (apply Rmult_le_pos; [assumption|apply Rlt_le, Rinv_0_lt_compat; lra]).
    destruct (exp_remainder N (q * f) ltac:(apply Rmult_le_pos; lra)) as (L1 & L2).
    set (R_ := exp (q * f) - expsum (q * f) N) in *.
    assert (L3 : 0 <= exp (- q * f) * R_ <= (q * f) ^ S N / INR (fact (S N))).
    { pose proof (exp_pos (- q * f)). split; [apply Rmult_le_pos; lra|]. apply Rmult_le_compat_l with (r := exp (- q * f)) in L2; [|lra].
      replace (exp (- q * f) * ((q * f) ^ S N / INR (fact (S N)) * exp (q * f))) with ((q * f) ^ S N / INR (fact (S N)) * (exp (- q * f) * exp (q * f))) in L2 by ring.
      rewrite <- exp_plus in L2. replace (- q * f + q * f) with 0 in L2 by ring. rewrite exp_0 in L2. lra. }
    unfold D. set (Y := exp (- q * f) * R_) in *. set (Z := (q * f) ^ S N / INR (fact (S N))) in *.
    replace (rho0 g / rho ^ 2 * Cv0 g * (Cs g ^ 2 / (2 * Cv0 g * s g ^ 2) * (q ^ 2 - 4 * q + 2) * (s g / f) * Y))
      with ((rho0 g / rho ^ 2 * (Cs g ^ 2 / (2 * s g ^ 2)) * (s g / f)) * (q ^ 2 - 4 * q + 2) * Y) by (field; lra).
    assert (HP : 0 <= rho0 g / rho ^ 2 * (Cs g ^ 2 / (2 * s g ^ 2)) * (s g / f)).
    { apply Rmult_le_pos; [apply Rmult_le_pos|]; unfold Rdiv; apply Rmult_le_pos; try lra; try (apply Rlt_le, Rinv_0_lt_compat; nra). apply pow2_ge_0. }
    rewrite !Rabs_mult. rewrite (Rabs_right Y) by lra.
    assert (RR : Rabs (rho0 g / rho ^ 2) * Rabs (Cs g ^ 2 / (2 * s g ^ 2)) * Rabs (s g / f) = rho0 g / rho ^ 2 * (Cs g ^ 2 / (2 * s g ^ 2)) * (s g / f)).
    { rewrite <- !Rabs_mult. apply Rabs_right. lra. }
    rewrite RR. replace (rho0 g / rho ^ 2 * (Cs g ^ 2 / (2 * s g ^ 2) * Rabs (q ^ 2 - 4 * q + 2) * (s g / f)) * Z) with
       (rho0 g / rho ^ 2 * (Cs g ^ 2 / (2 * s g ^ 2)) * (s g / f) * Rabs (q ^ 2 - 4 * q + 2) * Z) by ring.
    apply Rmult_le_compat_l; [|lra]. apply Rmult_le_pos; [exact HP|apply Rabs_pos].
Qed.
Lemma smallh_derive w : w < 1 -> is_derive (fun z => - 2 * ln (1 - z) + z / (1 - z) ^ 2 * (3 * z - 2)) w (2 * w ^ 2 / (1 - w) ^ 3).
Proof.
  intros H. auto_derive; [|field; lra]. refine (conj _ (conj _ I)); [lra|]. apply Rgt_not_eq. rewrite Rmult_1_r. apply Rmult_lt_0_compat; lra.
Qed.
Lemma smallh_cont w : w < 1 -> continuity_pt (fun z => - 2 * ln (1 - z) + z / (1 - z) ^ 2 * (3 * z - 2)) w.
Proof. intros H. apply continuity_pt_filterlim. exact (derive_cont _ _ _ (smallh_derive w H)). Qed.
(** Refuted: within |eta| < 1e-4 the correction to T0 exp(G0 eta) is coded with the wrong sign: the documented expansion is strictly larger than
    T0 exp(G0 eta) in compression, the returned value strictly smaller, by the same amount *)
Theorem C59_mgusup_small_eta_temperature_refuted : forall g rho, admissible g -> ok_rho g rho -> 0 < Cs g -> rho0 g < rho ->
  (1 - rho0 g / rho) * (1 - rho0 g / rho) < 1 / 10 ^ 8 ->
  let eta := 1 - rho0 g / rho in
  let documented := T0 g * exp (G0 g * eta) + Cs g ^ 2 / (2 * Cv0 g * s g ^ 2) * (- 2 * ln (1 - s g * eta) + s g * eta / (1 - s g * eta) ^ 2 * (3 * s g * eta - 2)) in
  T0 g * exp (G0 g * eta) < documented /\ HugTemperatureFromDensity g rho < T0 g * exp (G0 g * eta) /\
  HugTemperatureFromDensity g rho - T0 g * exp (G0 g * eta) = - (documented - T0 g * exp (G0 g * eta)).
Proof.
  intros g rho HA Hr HCs Hc He. cbv zeta. adm HA. assert (Hr' := Hr). destruct Hr' as (R1 & R2 & R3). pose proof tiny_pos as Ht.
  set (eta := 1 - rho0 g / rho) in *. set (pf := Cs g ^ 2 / (2 * Cv0 g * s g ^ 2)).
  assert (Hpf : 0 < pf). { unfold pf. apply Rdiv_lt_0_compat; [nra|]. assert (0 < s g ^ 2) by (cbn; nra). nra. }
  assert (He0 : 0 < eta). { unfold eta. apply Rmult_lt_reg_r with rho; [lra|]. rewrite Rmult_0_l. replace ((1 - rho0 g / rho) * rho) with (rho - rho0 g) by (field; lra). lra. }
  set (h := - 2 * ln (1 - s g * eta) + s g * eta / (1 - s g * eta) ^ 2 * (3 * s g * eta - 2)).
  assert (Hh : 0 < h).
  { set (z := s g * eta) in *. assert (Hz : 0 < z < 1) by (split; [apply Rmult_lt_0_compat; lra|lra]).
    assert (E : h = (fun z => - 2 * ln (1 - z) + z / (1 - z) ^ 2 * (3 * z - 2)) z). { unfold h. replace (3 * s g * eta) with (3 * z) by (unfold z; ring). reflexivity. }
    destruct (MVT_gen (fun z => - 2 * ln (1 - z) + z / (1 - z) ^ 2 * (3 * z - 2)) 0 z (fun w => 2 * w ^ 2 / (1 - w) ^ 3)) as (c & Hcc & EM).
    - intros w Hw. rewrite Rmin_left, Rmax_right in Hw by lra. apply smallh_derive. lra.
    - intros w Hw. rewrite Rmin_left, Rmax_right in Hw by lra. apply smallh_cont. lra.
    - rewrite Rmin_left, Rmax_right in Hcc by lra. rewrite E.
      assert (E0 : (fun z => - 2 * ln (1 - z) + z / (1 - z) ^ 2 * (3 * z - 2)) 0 = 0) by (cbv beta; rewrite Rminus_0_r, ln_1; field).
      rewrite E0 in EM. rewrite Rminus_0_r in EM. rewrite EM. 
      assert (Hc0 : c <> 0). { intros ->. (* the derivative vanishes at 0: use the next order *)
        assert (K : (fun z => - 2 * ln (1 - z) + z / (1 - z) ^ 2 * (3 * z - 2)) z = 0) by (rewrite EM; field; lra).
        (* split [0,z] at z/2 *)
        exfalso.
        destruct (MVT_gen (fun z => - 2 * ln (1 - z) + z / (1 - z) ^ 2 * (3 * z - 2)) 0 (z/2) (fun w => 2 * w ^ 2 / (1 - w) ^ 3)) as (c1 & Hc1 & EM1).
        { intros w Hw. rewrite Rmin_left, Rmax_right in Hw by lra. apply smallh_derive. lra. }
        { intros w Hw. rewrite Rmin_left, Rmax_right in Hw by lra. apply smallh_cont. lra. }
        destruct (MVT_gen (fun z => - 2 * ln (1 - z) + z / (1 - z) ^ 2 * (3 * z - 2)) (z/2) z (fun w => 2 * w ^ 2 / (1 - w) ^ 3)) as (c2 & Hc2 & EM2).
        { intros w Hw. rewrite Rmin_left, Rmax_right in Hw by lra. apply smallh_derive. lra. }
        { intros w Hw. rewrite Rmin_left, Rmax_right in Hw by lra. apply smallh_cont. lra. }
        rewrite Rmin_left, Rmax_right in Hc1, Hc2 by lra.
        assert (P1 : 0 <= 2 * c1 ^ 2 / (1 - c1) ^ 3 * (z / 2 - 0)). { apply Rmult_le_pos; [|lra]. unfold Rdiv. apply Rmult_le_pos; [pose proof (pow2_ge_0 c1); lra|]. apply Rlt_le, Rinv_0_lt_compat. apply pow_lt. lra. }
        assert (P2 : 0 < 2 * c2 ^ 2 / (1 - c2) ^ 3 * (z - z / 2)). { apply Rmult_lt_0_compat; [|lra]. unfold Rdiv. apply Rmult_lt_0_compat; [assert (0 < c2 ^ 2) by (apply pow_lt; lra); lra|]. apply Rinv_0_lt_compat. apply pow_lt. lra. }
        lra. }
      apply Rmult_lt_0_compat; [|lra]. unfold Rdiv. apply Rmult_lt_0_compat; [assert (0 < c ^ 2) by (apply pow_lt; lra); lra|]. apply Rinv_0_lt_compat, pow_lt. lra. }
  assert (EV : HugTemperatureFromDensity g rho = T0 g * exp (G0 g * eta) - pf * h).
  { unfold HugTemperatureFromDensity. cbv zeta. rewrite eta_eq by exact R1. fold eta. rewrite Rlt_bool_true by exact He. unfold h, pf. field. lra. }
  assert (0 < pf * h) by (apply Rmult_lt_0_compat; assumption). rewrite EV. fold h. repeat split; lra.
Qed.
(** Refuted: the bulk modulus from (rho,T) is not the one from (rho,e). On the Hugoniot it is too large by the factor 1/eta; at the reference
    density the thermal term enters with the opposite sign *)
Theorem C59_mgusup_bulk_modulus_rho_T_refuted : forall g rho, admissible g -> ok_rho g rho -> tiny <= 1 - rho0 g / rho ->
  tiny <= (1 - rho0 g / rho) * (1 - s g * (1 - rho0 g / rho)) ->
  (let TH := HugTemperatureFromDensity g rho in
   (1 - rho0 g / rho) * BulkModulusFromDensityTemperature g rho TH = BulkModulusFromDensityInternalEnergy g rho (InternalEnergyFromDensityTemperature g rho TH)) /\
  (forall T, tiny < rho0 g -> BulkModulusFromDensityTemperature g (rho0 g) T - Cs g * Cs g * rho0 g =
     - (BulkModulusFromDensityInternalEnergy g (rho0 g) (InternalEnergyFromDensityTemperature g (rho0 g) T) - Cs g * Cs g * rho0 g) /\
     BulkModulusFromDensityInternalEnergy g (rho0 g) (InternalEnergyFromDensityTemperature g (rho0 g) T) - Cs g * Cs g * rho0 g = G0 g * G0 g * Cv0 g * rho0 g * (T - T0 g)).
Proof.
  intros g rho HA Hr He Hf. adm HA. pose proof tiny_pos as Ht. assert (Hr' := Hr). destruct Hr' as (R1 & R2 & R3). split.
  - cbv zeta. unfold BulkModulusFromDensityTemperature, BulkModulusFromDensityInternalEnergy. cbv zeta. rewrite eta_eq by exact R1. rewrite PH_eq; auto. set (x := 1 - rho0 g / rho) in *.
    rewrite Req_bool_false by lra. rewrite (ratio_pos _ (x * (1 - s g * x))) by lra. rewrite (ratio_pos _ (1 - s g * x)) by lra. rewrite (ratio_pos (PHc g x) x) by lra. rewrite (ratio_pos (rho0 g) rho) by lra.
    unfold InternalEnergyFromDensityTemperature. replace (HugTemperatureFromDensity g rho - HugTemperatureFromDensity g rho) with 0 by ring.
    replace (HugInternalEnergyFromDensity g rho + Cv0 g * 0 - HugInternalEnergyFromDensity g rho) with 0 by ring. field. lra.
  - intros T Hr0. assert (Ee : eta_ g (rho0 g) = 0) by (rewrite eta_eq by exact Hr0; field; lra).
    assert (ETH : HugTemperatureFromDensity g (rho0 g) = T0 g).
    { unfold HugTemperatureFromDensity. cbv zeta. rewrite Ee. rewrite Rlt_bool_true by lra. rewrite !Rmult_0_r, Rminus_0_r, exp_0, ln_1. unfold Rdiv. ring. }
    unfold BulkModulusFromDensityTemperature, BulkModulusFromDensityInternalEnergy. cbv zeta. rewrite Ee. rewrite Req_bool_true by reflexivity.
    rewrite (ratio_pos (rho0 g) (rho0 g)) by lra. unfold InternalEnergyFromDensityTemperature. rewrite ETH. split; field; lra.
Qed.
(** the abort in the Hugoniot temperature is never reached between 0 and the maximum density *)
Theorem C25_mgusup_no_abort : forall g rho, admissible g -> tiny < rho -> rho <= MaximumDensity g -> tiny <= s g - 1 \/ s g <= 1 ->
  HugTemperature_aborts g rho = false.
Proof.
  intros g rho HA Hr Hm Hd. adm HA. pose proof tiny_pos as Ht. unfold HugTemperature_aborts. apply Rle_bool_false. rewrite eta_eq by exact Hr.
  assert (Er : rho0 g / rho * rho = rho0 g) by (field; lra). set (w := rho0 g / rho) in *. unfold MaximumDensity in Hm.
  assert (Hw : 0 < w) by (unfold w; apply Rdiv_lt_0_compat; lra).
  destruct (Rlt_bool_spec 1 (s g)) as [K|K].
  - destruct Hd as [Hd|Hd]; [|lra]. rewrite ratio_pos in Hm by lra.
    assert (M : rho * (s g - 1) <= 99 / 100 * (s g * rho0 g)). { apply Rmult_le_compat_r with (r := s g - 1) in Hm; [|lra]. replace (99 / 100 * (s g * rho0 g / (s g - 1)) * (s g - 1)) with (99 / 100 * (s g * rho0 g)) in Hm by (field; lra). exact Hm. }
    rewrite <- Er in M. assert (s g - 1 <= 99 / 100 * (s g * w)). { apply Rmult_le_reg_l with rho; [lra|]. lra. }
    assert (0 < s g * w) by (apply Rmult_lt_0_compat; lra). lra.
  - assert (0 < s g * w) by (apply Rmult_lt_0_compat; lra). lra.
Qed.
Theorem C25_mgusup_entropy_rho_e : forall g rho e,
  0 <= EntropyFromDensityTemperature g rho (TemperatureFromDensityInternalEnergy g rho e) ->
  EntropyFromDensityInternalEnergy g rho e = EntropyFromDensityTemperature g rho (TemperatureFromDensityInternalEnergy g rho e).
Proof. intros g rho e H. unfold EntropyFromDensityInternalEnergy. cbv zeta. fold (EntropyFromDensityTemperature g rho (TemperatureFromDensityInternalEnergy g rho e)). rewrite Rlt_bool_false by exact H. reflexivity. Qed.
Theorem C25_mgusup_reference_state : forall g, admissible g -> tiny < rho0 g ->
  ValuesAtReferenceState g = (rho0 g :: T0 g :: InternalEnergyFromDensityTemperature g (rho0 g) (T0 g) :: 0 :: SpecificHeatFromDensityTemperature g (rho0 g) (T0 g) ::
    BulkModulusFromDensityInternalEnergy g (rho0 g) (E0 g) :: rho0 g * GruneisenParamFromDensityTemperature g (rho0 g) (T0 g) :: ratio (- (1)) (T0 g * G0 g * rho0 g) :: nil)%list /\
  EntropyFromDensityTemperature g (rho0 g) (T0 g) = S0 g.
Proof.
  intros g HA Hr0. adm HA. pose proof tiny_pos as Ht.
  assert (Ee : eta_ g (rho0 g) = 0) by (rewrite eta_eq by exact Hr0; field; lra).
  assert (ETH : HugTemperatureFromDensity g (rho0 g) = T0 g).
  { unfold HugTemperatureFromDensity. cbv zeta. rewrite Ee. rewrite Rlt_bool_true by lra. rewrite !Rmult_0_r, Rminus_0_r, exp_0, ln_1. unfold Rdiv. ring. }
  assert (EPH : HugPressureFromDensity g (rho0 g) = 0). { unfold HugPressureFromDensity. cbv zeta. rewrite Ee. rewrite ratio_pos by (rewrite !Rmult_0_r, Rminus_0_r; pose proof tiny_lt_1; lra). unfold Rdiv. ring. }
  assert (EEH : HugInternalEnergyFromDensity g (rho0 g) = E0 g) by (unfold HugInternalEnergyFromDensity; cbv zeta; rewrite EPH; ring).
  split.
  - unfold ValuesAtReferenceState, InternalEnergyFromDensityTemperature, PressureFromDensityTemperature, BulkModulusFromDensityInternalEnergy, GruneisenParamFromDensityTemperature, SpecificHeatFromDensityTemperature. cbv zeta.
    rewrite Ee, ETH, EPH, EEH. rewrite Req_bool_true by reflexivity. rewrite !(ratio_pos _ (rho0 g)) by lra. repeat (f_equal; try (field; lra)).
  - unfold EntropyFromDensityTemperature. rewrite Ee. replace (T0 g / T0 g) with 1 by (field; lra). rewrite ln_1. ring.
Qed.
(** FillEos *)
Theorem C25_mgusup_FillEos : forall g m o st, admissible g -> mode_of o m -> (m = InRhoSie /\ f_temp o = true) \/ (m = InRhoTemp /\ 0 <= s_temp st) ->
  exists st', FillEos g o st = Some st' /\
  fill_ok (TemperatureFromDensityInternalEnergy g) (PressureFromDensityInternalEnergy g) (SpecificHeatFromDensityInternalEnergy g) (BulkModulusFromDensityInternalEnergy g) m o st st'.
Proof.
  intros g m [fr ft fs fp fc fb] [r t e p c b] HA Hm H. adm HA. Opaque TemperatureFromDensityInternalEnergy PressureFromDensityInternalEnergy SpecificHeatFromDensityInternalEnergy BulkModulusFromDensityInternalEnergy InternalEnergyFromDensityTemperature.
  destruct H as [(-> & Hf)|(-> & Hf)]; cbn in Hm, Hf.
  - destruct Hm as (-> & ->). subst ft. eexists. split; [reflexivity|]. unfold fill_ok, fill_frame, fill_values, cond_upd. destruct fp, fc, fb; cbn; repeat split; auto; discriminate.
  - destruct Hm as (-> & -> & -> & ->). eexists. split; [reflexivity|]. unfold fill_ok, fill_frame, fill_values, cond_upd.
    destruct fc, fb; cbn; repeat split; auto; try discriminate; apply round_T; auto.
Qed.
(** Refuted: with (rho, e) as input and the temperature not requested, the input energy is overwritten from whatever the temperature holds *)
Theorem C58_mgusup_FillEos_overwrites_energy_refuted : forall g o st, f_rho o = false -> f_temp o = false -> f_sie o = false ->
  exists st', FillEos g o st = Some st' /\ s_sie st' = InternalEnergyFromDensityTemperature g (s_rho st) (s_temp st).
Proof.
  intros g [fr ft fs fp fc fb] [r t e p c b]. cbn. intros -> -> ->. eexists. split; [reflexivity|]. unfold cond_upd. destruct fp, fc, fb; reflexivity.
Qed.
Theorem C44_mgusup_CheckParams : forall g, CheckParams g = true <->
  0 <= rho0 g /\ 0 <= T0 g /\ 0 <= Cs g /\ 0 <= s g /\ 0 <= G0 g /\ 0 <= Cv0 g /\ 0 < Abar g /\ 0 < Zbar g.
Proof.
  intros g. unfold CheckParams. rewrite !andb_true_iff, !negb_true_iff.
  split.
  - intros ((((((A & B) & C) & D) & E) & F) & G & H).
    destruct (Rlt_bool_spec (rho0 g) 0), (Rlt_bool_spec (T0 g) 0), (Rlt_bool_spec (Cs g) 0), (Rlt_bool_spec (s g) 0), (Rlt_bool_spec (G0 g) 0), (Rlt_bool_spec (Cv0 g) 0), (Rlt_bool_spec 0 (Abar g)), (Rlt_bool_spec 0 (Zbar g)); try discriminate. auto 10.
  - intros (A & B & C & D & E & F & G & H). rewrite !Rlt_bool_false by assumption. rewrite !Rlt_bool_true by assumption. auto 10.
Qed.
(** Refuted: s = 0 (a constant shock speed) and Cv = 0 pass the check although the temperature divides by both *)
Theorem C62_mgusup_zero_divisors_refuted : exists g, CheckParams g = true /\ s g = 0 /\ Cv0 g = 0.
Proof. exists (mkM 1 300 1 0 1 0 0 0 1 1). split; [|split; reflexivity]. apply C44_mgusup_CheckParams. cbn. lra. Qed.
Transparent TemperatureFromDensityInternalEnergy PressureFromDensityInternalEnergy SpecificHeatFromDensityInternalEnergy BulkModulusFromDensityInternalEnergy InternalEnergyFromDensityTemperature.
(** the hypotheses are met: aluminium-like parameters, in compression, in expansion and within 1e-4 of the reference density *)
Example C25_mgusup_instance : exists g, admissible g /\ CheckParams g = true /\ 0 < Cs g /\
  (ok_rho g 3 /\ ok_eta g 3 /\ 1 / 10 ^ 8 <= (1 - rho0 g / 3) * (1 - rho0 g / 3) /\ tiny <= (1 - rho0 g / 3) * (1 - s g * (1 - rho0 g / 3)) /\ 3 <= MaximumDensity g) /\
  (ok_rho g 1 /\ ok_eta g 1) /\ (ok_rho g (200001 / 100000) /\ rho0 g < 200001 / 100000 /\ (1 - rho0 g / (200001 / 100000)) * (1 - rho0 g / (200001 / 100000)) < 1 / 10 ^ 8).
Proof.
  assert (HT : tiny < 1/1000000). { unfold tiny. eapply Rlt_le_trans; [apply (bpow_lt radix2 (-960) (-20)); lia|]. cbn. lra. }
  exists (mkM 2 300 (5/2) (3/2) 2 1 0 0 1 1). 
  assert (HA : Rabs (1 - 2 / 3) = 1 / 3) by (rewrite Rabs_right; lra). assert (HB : Rabs (1 - 2 / 1) = 1) by (rewrite Rabs_left; lra).
  split; [|split; [apply C44_mgusup_CheckParams; cbn; lra|]]; unfold admissible, ok_rho, ok_eta, MaximumDensity; cbn [rho0 T0 Cs s G0 Cv0].
  - repeat split; lra.
  - rewrite Rlt_bool_true by lra. rewrite ratio_pos by lra. rewrite HA, HB. repeat split; lra.
Qed.
Print Assumptions C25_mgusup_hugoniot.
Print Assumptions C25_mgusup_round_trip.
Print Assumptions C25_mgusup_derivatives.
Print Assumptions C25_mgusup_first_law.
Print Assumptions C59_mgusup_small_eta_temperature_refuted.
Print Assumptions C59_mgusup_bulk_modulus_rho_T_refuted.
Print Assumptions C25_mgusup_no_abort.
Print Assumptions C25_mgusup_entropy_rho_e.
Print Assumptions C25_mgusup_reference_state.
Print Assumptions C25_mgusup_FillEos.
Print Assumptions C58_mgusup_FillEos_overwrites_energy_refuted.
Print Assumptions C44_mgusup_CheckParams.
Print Assumptions C62_mgusup_zero_divisors_refuted.
