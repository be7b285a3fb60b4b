(** C82, C83: the solid and reactant EOS against the manual (Doc_Spec.v). The admissibility predicates ([vinet_ok], [admissible], [ok_rho]) are those of
    the per-EOS files: parameters accepted by the constructor, no denormal-like denominator, inside the validity range. *)
From Coq Require Import Reals Lra Lia Bool List ZArith Ranalysis5.
From Flocq Require Import Core.
From Coquelicot Require Import Coquelicot.
From Verif Require Import Arith Robust_Model Thermo_Spec Thermo_Tools Doc_Spec.
From Verif Require Vinet_Model Vinet_Props MGUsup_Model MGUsup_Props PowerMG_Model PowerMG_Props DavisReactants_Model DavisReactants_Props.
Local Open Scope R_scope.

(** ** sums *)
Lemma psum_sum a h n : Vinet_Props.psum a h (S n) = sum_n_m (fun k => a k * h ^ k) 0 n.
Proof.
  induction n as [|n IH].
  - rewrite sum_n_n. cbn. ring.
  - rewrite sum_n_Sm by lia. rewrite <- IH. reflexivity.
Qed.
Lemma psum_sum1 a h n : Vinet_Props.psum a h (S n) = a 0%nat + sum_n_m (fun k => a k * h ^ k) 1 n.
Proof.
  rewrite psum_sum. rewrite sum_Sn_m by lia. change plus with Rplus. cbn [pow]. rewrite Rmult_1_r. reflexivity.
Qed.
Lemma psum_sum2 a h n : (1 <= n)%nat -> a 1%nat = 0 -> Vinet_Props.psum a h (S n) = a 0%nat + sum_n_m (fun k => a k * h ^ k) 2 n.
Proof.
  intros Hn H1. rewrite psum_sum1. rewrite sum_Sn_m by lia. change plus with Rplus. rewrite H1. ring.
Qed.

(** ** Vinet *)
(** top index N+1 = 40 for the 39 coefficients of the code; d_0 = 1, d_1 = 0 and d_2 .. d_40 from the parameter array *)
Theorem C82_vinet : forall N r0 t0 b0 bp0 a0 cv0 e0 s0 d2 A Z g rho, Vinet_Model.make N r0 t0 b0 bp0 a0 cv0 e0 s0 d2 A Z = Some g ->
  Vinet_Props.vinet_ok N g -> Vinet_Props.ok_rho g rho ->
  let d n := match n with 0%nat => 1 | 1%nat => 0 | S (S k) => d2 k end in
  (forall T, Vinet_Model.PressureFromDensityTemperature N g rho T = vinet_P (N + 1) d b0 bp0 a0 t0 r0 rho T) /\
  (exists f, vinet_coefficients (N + 1) (vinet_eta0 bp0) d f /\
     forall T, Vinet_Model.InternalEnergyFromDensityTemperature N g rho T = vinet_E (N + 1) f b0 bp0 a0 cv0 e0 t0 r0 rho T) /\
  (forall T, 0 <= T -> tiny <= t0 -> Vinet_Model.EntropyFromDensityTemperature N g rho T = vinet_S s0 a0 b0 cv0 t0 r0 rho T) /\
  (forall x, Vinet_Model.SpecificHeatFromDensityTemperature g rho x = cv0 /\ Vinet_Model.GruneisenParamFromDensityTemperature g rho x = a0 * b0 / (rho * cv0)).
Proof.
  intros N r0 t0 b0 bp0 a0 cv0 e0 s0 d2 A Z g rho HM OK Hr d.
  assert (EG : g = Vinet_Model.mkVinet r0 t0 b0 bp0 a0 cv0 e0 s0 A Z (Vinet_Model.InitializeVIP N r0 t0 b0 bp0 a0 cv0 d2) d2).
  { unfold Vinet_Model.make in HM. destruct (Vinet_Model.CheckParams _); [|discriminate]. injection HM as <-. reflexivity. }
  assert (Ed : forall k, Vinet_Props.dkg g k = d k).
  { intros k. rewrite EG. unfold Vinet_Props.dkg, d. destruct k as [|[|k]]; try reflexivity. cbn [Vinet_Model.d]. f_equal. lia. }
  assert (EX : Vinet_Props.X g rho = vinet_X r0 rho). { rewrite EG. unfold Vinet_Props.X, vinet_X, Rpower. cbn [Vinet_Model.rho0]. f_equal. field. }
  pose proof (Vinet_Props.X_pos g rho) as XP. pose proof (Vinet_Props.eta_pos N g OK) as EP. pose proof (Vinet_Props.r0_pos N g OK) as RP. pose proof tiny_pos as Ht.
  assert (Hrho : tiny < rho) by apply Hr. pose proof (Vinet_Props.X3 N g OK rho ltac:(lra)) as X3.
  refine (conj _ (conj _ (conj _ _))).
  - intros T. rewrite (Vinet_Props.P_T_eq N g OK rho T Hr). unfold Vinet_Props.Pr, vinet_P, Vinet_Props.Dh, vinet_eta0. cbv zeta. rewrite EX in *.
    replace (N + 2)%nat with (S (N + 1)) by lia. rewrite psum_sum2 by (lia || reflexivity).
    rewrite (sum_n_m_ext (fun k => Vinet_Props.dkg g k * (1 - vinet_X r0 rho) ^ k) (fun n => d n * (1 - vinet_X r0 rho) ^ n)) by (intros k; rewrite Ed; reflexivity).
    rewrite (Ed 0%nat). unfold d at 1. rewrite EG. cbn [Vinet_Model.B0 Vinet_Model.BP0 Vinet_Model.A0 Vinet_Model.T0]. cbn [pow]. field. lra.
  - destruct (Vinet_Props.vipf N g OK) as (V1 & V2). exists (fun k => Vinet_Model.VIP g (2 + k)%nat). split.
    + unfold vinet_coefficients, vinet_eta0. split.
      * rewrite <- Ed. replace (2 + (N + 1))%nat with (N + 3)%nat by lia. exact V1.
      * intros n Hn. rewrite (V2 n Hn). rewrite Ed. replace (2 + S n)%nat with (2 + (n + 1))%nat by lia. f_equal. f_equal. rewrite EG. reflexivity.
    + intros T. rewrite (Vinet_Props.E_T_eq N g OK rho T Hr). unfold Vinet_Props.Er, vinet_E, Vinet_Props.Fh. cbv zeta. unfold vinet_eta0. rewrite EX in *.
      replace (N + 2)%nat with (S (N + 1)) by lia. rewrite psum_sum1. rewrite X3.
      assert (EB : Vinet_Model.BP0 g = bp0 /\ Vinet_Model.B0 g = b0 /\ Vinet_Model.rho0 g = r0 /\ Vinet_Model.T0 g = t0 /\ Vinet_Model.A0 g = a0 /\ Vinet_Model.Cv0 g = cv0 /\ Vinet_Model.E0 g = e0) by (rewrite EG; repeat split).
      destruct EB as (B1 & B2 & B3 & B4 & B5 & B6 & B7). rewrite B1, B2, B3, B4, B5, B6, B7 in *.
      cbv beta. change (2 + 0)%nat with 2%nat. set (W := exp _). set (SS := sum_n_m _ _ _). set (F := Vinet_Model.VIP g 2%nat). clearbody W SS F. field. lra.
  - intros T HT Ht0. unfold Vinet_Model.EntropyFromDensityTemperature, Vinet_Model.Vinet_F_DT_func. cbv zeta. cbn [Vinet_Model.o_entropy].
    rewrite Rlt_bool_false by exact HT. rewrite (ratio_pos 1 rho) by lra. rewrite EG in OK |- *. cbn [Vinet_Model.T0 Vinet_Model.rho0 Vinet_Model.A0 Vinet_Model.B0 Vinet_Model.Cv0 Vinet_Model.S0].
    destruct OK as (_ & O1 & _). cbn [Vinet_Model.rho0] in O1. rewrite (ratio_pos 1 r0), (ratio_pos T t0) by lra. unfold vinet_S. ring.
  - intros x. split; [rewrite EG; reflexivity|]. unfold Vinet_Model.GruneisenParamFromDensityTemperature. destruct Hr as (_ & _ & _ & _ & H5). rewrite ratio_pos by lra.
    rewrite EG. cbn [Vinet_Model.A0 Vinet_Model.B0 Vinet_Model.Cv0]. f_equal. ring.
Qed.

(** ** Linear Us-up *)
Lemma usup_compr r0 rho : compression r0 rho = 1 - r0 / rho. Proof. reflexivity. Qed.
Section USUP.
Variable g : MGUsup_Model.mgusup.
Hypothesis Hr0 : tiny <= MGUsup_Model.rho0 g.
Hypothesis Hs : tiny <= MGUsup_Model.s g.
Hypothesis HG : 0 <= MGUsup_Model.G0 g.
Hypothesis HCv : 0 < MGUsup_Model.Cv0 g.
Notation r0 := (MGUsup_Model.rho0 g).
Notation G := (MGUsup_Model.G0 g).
Notation s := (MGUsup_Model.s g).
Notation Cv := (MGUsup_Model.Cv0 g).
Notation Cs := (MGUsup_Model.Cs g).
Notation q := (MGUsup_Model.G0 g / MGUsup_Model.s g).
(** the loop stops after the last term is below 1e-16 of the sum, or after 21 terms *)
Lemma loop_exit x fuel : forall i, exists N, (i + 1 <= N <= i + 1 + fuel)%nat /\ (0 < fuel -> i + 2 <= N)%nat /\
  MGUsup_Model.hug_loop q (1 - s * x) x fuel i (MGUsup_Props.sk_ q (1 - s * x) (S i)) (MGUsup_Props.lk_ g q (S i)) (MGUsup_Props.ein q (1 - s * x) (S i)) = MGUsup_Props.ein q (1 - s * x) N /\
  (N = (i + 1 + fuel)%nat \/ ratio (MGUsup_Props.sk_ q (1 - s * x) N * MGUsup_Props.sk_ q (1 - s * x) N) (MGUsup_Props.ein q (1 - s * x) N * MGUsup_Props.ein q (1 - s * x) N) < 1 / 10 ^ 16 * (1 / 10 ^ 16)).
Proof.
  set (f := 1 - s * x). induction fuel as [|fuel IH]; intros i.
  - exists (S i). split; [lia|]. split; [lia|]. split; [reflexivity|left; lia].
  - cbn [MGUsup_Model.hug_loop]. cbv zeta.
    assert (NZ : INR (S i) <> 0) by (apply not_0_INR; lia). assert (NZ2 : INR (S (S i)) <> 0) by (apply not_0_INR; lia).
    assert (NF : INR (fact (S i)) <> 0) by (apply not_0_INR; apply fact_neq_0).
    assert (FS : INR (fact (S (S i))) = INR (S (S i)) * INR (fact (S i))) by (rewrite <- mult_INR; reflexivity).
    replace (i + 2)%nat with (S (S i)) by lia. replace (i + 1)%nat with (S i) by lia.
    assert (E1 : (MGUsup_Props.sk_ q f (S i) * f - MGUsup_Props.lk_ g q (S i) * x) * INR (S i) * (q / INR (S (S i)) / INR (S (S i))) = MGUsup_Props.sk_ q f (S (S i))).
    { unfold MGUsup_Props.sk_, MGUsup_Props.lk_. rewrite FS. set (qq := q). replace (f ^ S (S i)) with (f * f ^ S i) by (cbn; ring). replace (qq ^ S (S i)) with (qq * qq ^ S i) by (cbn; ring).
      replace (f * f ^ S i - 1) with (f * (f ^ S i - 1) - s * x) by (unfold f; ring). clearbody qq. field. auto. }
    assert (E2 : q / INR (S (S i)) / INR (S (S i)) * INR (S i) * MGUsup_Props.lk_ g q (S i) = MGUsup_Props.lk_ g q (S (S i))).
    { unfold MGUsup_Props.lk_. rewrite FS. set (qq := q). replace (qq ^ S (S i)) with (qq * qq ^ S i) by (cbn; ring). clearbody qq. field. auto. }
    rewrite E1, E2. change (MGUsup_Props.ein q f (S i) + MGUsup_Props.sk_ q f (S (S i))) with (MGUsup_Props.ein q f (S (S i))).
    destruct (Rlt_bool_spec (ratio (MGUsup_Props.sk_ q f (S (S i)) * MGUsup_Props.sk_ q f (S (S i))) (MGUsup_Props.ein q f (S (S i)) * MGUsup_Props.ein q f (S (S i)))) (1 / 10 ^ 16 * (1 / 10 ^ 16))) as [L|L].
    + exists (S (S i)). split; [lia|]. split; [lia|]. split; [reflexivity|right; exact L].
    + destruct (IH (S i)) as (N & HN & _ & EN & EX). exists N. split; [lia|]. split; [lia|]. split; [exact EN|]. destruct EX as [->|EX]; [left; lia|right; exact EX].
Qed.
Lemma ein_1 qq N : MGUsup_Props.ein qq 1 N = 0.
Proof. induction N as [|n IH]; [reflexivity|]. cbn [MGUsup_Props.ein]. rewrite IH, pow1. unfold Rdiv. ring. Qed.
Lemma expsum_ex N z : ex_derive (fun y => MGUsup_Props.expsum y N) z.
Proof. destruct N as [|n]; [cbn [MGUsup_Props.expsum]; auto_derive; exact I|eexists; apply MGUsup_Props.expsum_derive]. Qed.
Lemma usup_TH_bound N x slope : 0 <= x -> 0 < 1 - s * x -> is_hugoniot_slope (usup_P_eta Cs s r0) slope x ->
  Rabs (MGUsup_Props.THc g N x - hugoniot_T slope (MGUsup_Model.T0 g) G Cv r0 x) <=
  exp (G * x) * (Cs ^ 2 / (2 * Cv * s ^ 2) * Rabs (q ^ 2 - 4 * q + 2) * G * x * (q ^ N / INR (fact (S N)))).
Proof.
  intros Hx Hf HS. pose proof tiny_pos as Ht. assert (Hq : 0 <= q) by (apply Rdiv_le_0_compat; lra).
  assert (Hfz : forall z, 0 <= z <= x -> 0 < 1 - s * z <= 1). { intros z Hz. assert (s * z <= s * x) by (apply Rmult_le_compat_l; lra). assert (0 <= s * z) by (apply Rmult_le_pos; lra). lra. }
  set (pf := Cs ^ 2 / (2 * Cv * s ^ 2)). set (c := q ^ 2 - 4 * q + 2).
  set (B := fun z => exp (- G * z) * (pf * c * (s / (1 - s * z)) * (exp (- q * (1 - s * z)) * (exp (q * (1 - s * z)) - MGUsup_Props.expsum (q * (1 - s * z)) N)))).
  set (A := fun z => exp (- G * z) * ((z * MGUsup_Props.dPH g z - MGUsup_Props.PHc g z) / (2 * r0 * Cv))).
  assert (DT : forall z, 0 <= z <= x -> is_derive (fun y => exp (- G * y) * MGUsup_Props.THc g N y) z (A z - B z)).
  { intros z Hz. destruct (Hfz z Hz) as (F1 & F2).
    pose proof (MGUsup_Props.THc_derive g Hr0 Hs HCv N z F1) as D. cbv zeta in D.
    apply (is_derive_eq _ _ _ _ (is_derive_mult (fun y => exp (- G * y)) (MGUsup_Props.THc g N) z (- G * exp (- G * z)) _ ltac:(auto_derive; [exact I|ring]) D Rmult_comm)).
    unfold A, B, pf, c. cbv beta. change (mult (- G * exp (- G * z)) (MGUsup_Props.THc g N z)) with ((- G * exp (- G * z)) * MGUsup_Props.THc g N z).
    change plus with Rplus. change mult with Rmult. set (Y := exp (- q * (1 - s * z)) * _). set (TT := MGUsup_Props.THc g N z). set (W := exp (- G * z)). set (dP := _ / (2 * r0 * Cv)). ring. }
  assert (CA : forall z, 0 <= z <= x -> continuous A z).
  { intros z Hz. destruct (Hfz z Hz) as (F1 & F2). apply (ex_derive_continuous (V := R_NormedModule)). unfold A, MGUsup_Props.dPH, MGUsup_Props.PHc. auto_derive.
    assert (1 + - (s * z) <> 0) by lra. repeat split; try lra; repeat apply Rmult_integral_contrapositive_currified; lra. }
  assert (CB : forall z, 0 <= z <= x -> continuous B z).
  { intros z Hz. destruct (Hfz z Hz) as (F1 & F2). apply (ex_derive_continuous (V := R_NormedModule)). unfold B.
    apply ex_derive_mult; [auto_derive; exact I|]. apply ex_derive_mult; [auto_derive; lra|]. apply ex_derive_mult; [auto_derive; exact I|].
    apply (ex_derive_minus (V := R_NormedModule) (fun y => exp (q * (1 - s * y))) (fun y => MGUsup_Props.expsum (q * (1 - s * y)) N)); [auto_derive; exact I|].
    apply (ex_derive_comp (fun y => MGUsup_Props.expsum y N) (fun y => q * (1 - s * y))); [apply expsum_ex|auto_derive; exact I]. }
  assert (IA : ex_RInt A 0 x). { apply (ex_RInt_continuous (V := R_CompleteNormedModule)). intros z. rewrite Rmin_left, Rmax_right by lra. apply CA. }
  assert (IB : ex_RInt B 0 x). { apply (ex_RInt_continuous (V := R_CompleteNormedModule)). intros z. rewrite Rmin_left, Rmax_right by lra. apply CB. }
  assert (ED : RInt (fun z => A z - B z) 0 x = exp (- G * x) * MGUsup_Props.THc g N x - MGUsup_Model.T0 g).
  { apply is_RInt_unique. replace (MGUsup_Model.T0 g) with (exp (- G * 0) * MGUsup_Props.THc g N 0).
    - apply (is_RInt_derive (V := R_CompleteNormedModule) (fun y => exp (- G * y) * MGUsup_Props.THc g N y)).
      + intros z. rewrite Rmin_left, Rmax_right by lra. apply DT.
      + intros z. rewrite Rmin_left, Rmax_right by lra. intros Hz. apply (continuous_minus (V := R_NormedModule)); [apply CA, Hz|apply CB, Hz].
    - rewrite Rmult_0_r, exp_0. unfold MGUsup_Props.THc. cbv zeta. rewrite !Rmult_0_r, !Rminus_0_r, exp_0, ein_1, ln_1. field. lra. }
  assert (EH : RInt (fun z => exp (- G * z) * z ^ 2 * slope z) 0 x = 2 * r0 * Cv * RInt A 0 x).
  { transitivity (RInt (fun z => scal (2 * r0 * Cv) (A z)) 0 x); [|apply (RInt_scal (V := R_CompleteNormedModule)); exact IA].
    apply RInt_ext. intros z. rewrite Rmin_left, Rmax_right by lra. intros Hz. destruct (Hfz z ltac:(lra)) as (F1 & F2).
    assert (DQ : is_derive (fun y => usup_P_eta Cs s r0 y / y) z ((z * MGUsup_Props.dPH g z - MGUsup_Props.PHc g z) / z ^ 2)).
    { unfold usup_P_eta, MGUsup_Props.dPH, MGUsup_Props.PHc. auto_derive.
      - repeat split; try lra. apply Rmult_integral_contrapositive_currified; lra.
      - field. lra. }
    pose proof (is_derive_unique _ _ _ (HS z Hz)) as U1. pose proof (is_derive_unique _ _ _ DQ) as U2. rewrite U1 in U2. rewrite U2. unfold A. change scal with Rmult. 
    set (dP := MGUsup_Props.dPH g z). set (PP := MGUsup_Props.PHc g z). set (W := exp _). change (@eq R (W * z ^ 2 * ((z * dP - PP) / z ^ 2)) (2 * r0 * Cv * (W * ((z * dP - PP) / (2 * r0 * Cv))))). field. lra. }
  assert (EM : RInt (fun z => A z - B z) 0 x = RInt A 0 x - RInt B 0 x) by (apply (RInt_minus (V := R_CompleteNormedModule)); assumption).
  assert (EXP : exp (G * x) * exp (- G * x) = 1) by (rewrite <- exp_plus; replace (G * x + - G * x) with 0 by ring; apply exp_0).
  replace (MGUsup_Props.THc g N x - hugoniot_T slope (MGUsup_Model.T0 g) G Cv r0 x) with (- (exp (G * x) * RInt B 0 x)).
  2: { unfold hugoniot_T. rewrite EH. replace (MGUsup_Props.THc g N x) with (exp (G * x) * (RInt A 0 x - RInt B 0 x + MGUsup_Model.T0 g)).
       - field. lra.
       - rewrite <- EM, ED. replace (exp (- G * x) * MGUsup_Props.THc g N x - MGUsup_Model.T0 g + MGUsup_Model.T0 g) with (exp (- G * x) * MGUsup_Props.THc g N x) by ring.
         rewrite <- Rmult_assoc, EXP. ring. }
  rewrite Rabs_Ropp, Rabs_mult, (Rabs_pos_eq (exp _)) by (apply Rlt_le, exp_pos). apply Rmult_le_compat_l; [apply Rlt_le, exp_pos|].
  assert (HpF : 0 <= pf). { unfold pf. apply Rdiv_le_0_compat; [apply pow2_ge_0|]. apply Rmult_lt_0_compat; [lra|apply pow_lt; lra]. }
  set (K := pf * Rabs c * G * (q ^ N / INR (fact (S N)))).
  replace (pf * Rabs c * G * x * (q ^ N / INR (fact (S N)))) with ((x - 0) * K) by (unfold K; ring).
  apply (abs_RInt_le_const B 0 x K Hx IB). intros z Hz. destruct (Hfz z Hz) as (F1 & F2). unfold B.
  set (f := 1 - s * z) in *. destruct (MGUsup_Props.exp_remainder N (q * f) ltac:(apply Rmult_le_pos; lra)) as (E1 & E2).
  assert (EXQ : exp (- q * f) * exp (q * f) = 1) by (rewrite <- exp_plus; replace (- q * f + q * f) with 0 by ring; apply exp_0).
  assert (NF : 0 < INR (fact (S N))) by apply INR_fact_lt_0.
  assert (E3 : 0 <= exp (- q * f) * (exp (q * f) - MGUsup_Props.expsum (q * f) N) <= (q * f) ^ S N / INR (fact (S N))).
  { pose proof (exp_pos (- q * f)). split; [apply Rmult_le_pos; lra|].
    replace ((q * f) ^ S N / INR (fact (S N))) with (exp (- q * f) * ((q * f) ^ S N / INR (fact (S N)) * exp (q * f))). apply Rmult_le_compat_l; lra.
    transitivity ((q * f) ^ S N / INR (fact (S N)) * (exp (- q * f) * exp (q * f))); [ring|rewrite EXQ; ring]. }
  set (Y := exp (- q * f) * (exp (q * f) - MGUsup_Props.expsum (q * f) N)) in *.
  assert (EZ : 0 < exp (- G * z) <= 1). { split; [apply exp_pos|]. rewrite <- exp_0. destruct (Req_dec (- G * z) 0) as [->|Hn]; [lra|]. apply Rlt_le, exp_increasing.
    assert (0 <= G * z) by (apply Rmult_le_pos; lra). lra. }
  assert (SF : 0 < s / f) by (apply Rdiv_lt_0_compat; lra).
  assert (BB : Rabs (exp (- G * z) * (pf * c * (s / f) * Y)) <= pf * Rabs c * (s / f) * ((q * f) ^ S N / INR (fact (S N)))).
  { rewrite !Rabs_mult. rewrite (Rabs_pos_eq (exp _)), (Rabs_pos_eq pf), (Rabs_pos_eq (s / f)), (Rabs_pos_eq Y) by lra.
    assert (0 <= pf * Rabs c * (s / f)) by (apply Rmult_le_pos; [apply Rmult_le_pos; [lra|apply Rabs_pos]|lra]).
    apply Rle_trans with (1 * (pf * Rabs c * (s / f) * Y)).
    - apply Rmult_le_compat_r; [apply Rmult_le_pos; lra|lra].
    - rewrite Rmult_1_l. apply Rmult_le_compat_l; lra. }
  apply Rle_trans with (1 := BB). unfold K.
  replace (pf * Rabs c * (s / f) * ((q * f) ^ S N / INR (fact (S N)))) with (pf * Rabs c * (G * ((q * f) ^ N / INR (fact (S N))))).
  2: { cbn [pow]. field. split; [|split]; lra. }
  replace (pf * Rabs c * G * (q ^ N / INR (fact (S N)))) with (pf * Rabs c * (G * (q ^ N / INR (fact (S N))))) by ring.
  apply Rmult_le_compat_l; [apply Rmult_le_pos; [lra|apply Rabs_pos]|]. apply Rmult_le_compat_l; [exact HG|]. unfold Rdiv. apply Rmult_le_compat_r; [apply Rlt_le, Rinv_0_lt_compat, NF|].
  apply pow_incr. assert (0 <= q * f) by (apply Rmult_le_pos; lra). assert (q * f <= q * 1) by (apply Rmult_le_compat_l; lra). lra.
Qed.
Lemma bernoulli f k : 0 <= f <= 1 -> 1 - f ^ k <= INR k * (1 - f).
Proof.
  intros Hf. induction k as [|k IH]; [cbn; lra|]. rewrite S_INR. cbn [pow]. assert (0 <= 1 - f ^ k). { assert (f ^ k <= 1 ^ k) by (apply pow_incr; lra). rewrite pow1 in *. lra. }
  assert (f * (1 - f ^ k) <= 1 * (1 - f ^ k)) by (apply Rmult_le_compat_r; lra). lra.
Qed.
Lemma ein_bound qq f N : 0 <= qq -> 0 <= f <= 1 -> 0 <= - MGUsup_Props.ein qq f N <= (1 - f) * (MGUsup_Props.expsum qq N - 1).
Proof.
  intros Hq Hf. induction N as [|n IH]; [cbn; lra|]. cbn [MGUsup_Props.ein MGUsup_Props.expsum].
  assert (NZ : 0 < INR (S n)) by (apply lt_0_INR; lia). assert (NF : 0 < INR (fact (S n))) by apply INR_fact_lt_0.
  set (t := qq ^ S n / INR (fact (S n))). assert (Ht : 0 <= t) by (apply Rdiv_le_0_compat; [apply pow_le, Hq|exact NF]).
  pose proof (bernoulli f (S n) Hf) as BN. assert (B0 : 0 <= 1 - f ^ S n). { assert (f ^ S n <= 1 ^ S n) by (apply pow_incr; lra). rewrite pow1 in *. lra. }
  assert (E : qq ^ S n * (f ^ S n - 1) / (INR (S n) * INR (fact (S n))) = - (t * ((1 - f ^ S n) / INR (S n)))) by (unfold t; field; lra).
  rewrite E. assert (0 <= (1 - f ^ S n) / INR (S n) <= 1 - f).
  { split; [apply Rdiv_le_0_compat; lra|]. apply Rmult_le_reg_r with (INR (S n)); [exact NZ|]. replace ((1 - f ^ S n) / INR (S n) * INR (S n)) with (1 - f ^ S n) by (field; lra). lra. }
  assert (0 <= t * ((1 - f ^ S n) / INR (S n)) <= t * (1 - f)) by (split; [apply Rmult_le_pos; lra|apply Rmult_le_compat_l; lra]). lra.
Qed.
Lemma ein_first qq f N : 0 <= qq -> 0 <= f <= 1 -> (1 <= N)%nat -> qq * (1 - f) <= - MGUsup_Props.ein qq f N.
Proof.
  intros Hq Hf HN. destruct N as [|n]; [lia|]. clear HN. induction n as [|n IH].
  - cbn [MGUsup_Props.ein]. cbn. lra.
  - change (MGUsup_Props.ein qq f (S (S n))) with (MGUsup_Props.ein qq f (S n) + qq ^ S (S n) * (f ^ S (S n) - 1) / (INR (S (S n)) * INR (fact (S (S n))))).
    assert (NZ : 0 < INR (S (S n))) by (apply lt_0_INR; lia). assert (NF : 0 < INR (fact (S (S n)))) by apply INR_fact_lt_0.
    assert (B0 : 0 <= 1 - f ^ S (S n)). { assert (f ^ S (S n) <= 1 ^ S (S n)) by (apply pow_incr; lra). rewrite pow1 in *. lra. }
    assert (0 <= qq ^ S (S n) * (1 - f ^ S (S n)) / (INR (S (S n)) * INR (fact (S (S n))))).
    { apply Rdiv_le_0_compat; [apply Rmult_le_pos; [apply pow_le, Hq|exact B0]|apply Rmult_lt_0_compat; assumption]. }
    replace (qq ^ S (S n) * (f ^ S (S n) - 1) / (INR (S (S n)) * INR (fact (S (S n))))) with (- (qq ^ S (S n) * (1 - f ^ S (S n)) / (INR (S (S n)) * INR (fact (S (S n)))))) by (unfold Rdiv; ring). lra.
Qed.
(** what the exit test of the loop guarantees about the truncation *)
Lemma exit_bound f N : 0 < f < 1 -> (1 <= N)%nat -> tiny <= (G * (1 - f) / s) ^ 2 ->
  ratio (MGUsup_Props.sk_ q f N * MGUsup_Props.sk_ q f N) (MGUsup_Props.ein q f N * MGUsup_Props.ein q f N) < 1 / 10 ^ 16 * (1 / 10 ^ 16) ->
  q ^ N / INR (fact (S N)) <= 1 / 10 ^ 16 * (exp q - 1).
Proof.
  intros Hf HN HG2 HX. pose proof tiny_pos as Ht. assert (Hq : 0 <= q) by (apply Rdiv_le_0_compat; lra).
  pose proof (ein_first q f N Hq ltac:(lra) HN) as E1. destruct (ein_bound q f N Hq ltac:(lra)) as (E2 & E3). destruct (MGUsup_Props.exp_remainder N q Hq) as (X1 & _).
  set (e := - MGUsup_Props.ein q f N) in *. assert (EE : MGUsup_Props.ein q f N * MGUsup_Props.ein q f N = e ^ 2) by (unfold e; ring). rewrite EE in HX.
  assert (Q1 : G * (1 - f) / s = q * (1 - f)) by (unfold Rdiv; ring). rewrite Q1 in HG2. assert (0 <= q * (1 - f)) by (apply Rmult_le_pos; lra).
  assert (e2 : (q * (1 - f)) ^ 2 <= e ^ 2) by (apply pow_incr; lra). rewrite ratio_pos in HX by lra.
  assert (NF : 0 < INR (fact N)) by apply INR_fact_lt_0. assert (NZ : 0 < INR N) by (apply lt_0_INR; lia).
  set (t := q ^ N * (1 - f ^ N) / (INR N * INR (fact N))). assert (ET : MGUsup_Props.sk_ q f N * MGUsup_Props.sk_ q f N = t ^ 2) by (unfold MGUsup_Props.sk_, t; field; lra). rewrite ET in HX.
  assert (FN : f ^ N <= f). { destruct N as [|n]; [lia|]. cbn [pow]. assert (f ^ n <= 1 ^ n) by (apply pow_incr; lra). rewrite pow1 in *. assert (f * f ^ n <= f * 1) by (apply Rmult_le_compat_l; lra). lra. }
  assert (T0 : 0 <= t). { apply Rdiv_le_0_compat; [apply Rmult_le_pos; [apply pow_le, Hq|lra]|apply Rmult_lt_0_compat; assumption]. }
  assert (T1 : t <= 1 / 10 ^ 16 * e).
  { destruct (Rle_lt_dec t (1 / 10 ^ 16 * e)) as [L|L]; [exact L|exfalso]. assert (0 <= 1 / 10 ^ 16 * e) by lra. assert (L2 : (1 / 10 ^ 16 * e) ^ 2 <= t ^ 2) by (apply pow_incr; lra).
    assert (0 < e ^ 2) by lra. apply (Rmult_lt_compat_r (e ^ 2)) in HX; [|lra]. replace (t ^ 2 / e ^ 2 * e ^ 2) with (t ^ 2) in HX by (field; intros K; rewrite K in *; lra). 
    replace ((1 / 10 ^ 16 * e) ^ 2) with (1 / 10 ^ 16 * (1 / 10 ^ 16) * e ^ 2) in L2 by ring. lra. }
  assert (T2 : q ^ N / (INR N * INR (fact N)) * (1 - f) <= t).
  { unfold t. replace (q ^ N * (1 - f ^ N) / (INR N * INR (fact N))) with (q ^ N / (INR N * INR (fact N)) * (1 - f ^ N)) by (unfold Rdiv; ring).
    apply Rmult_le_compat_l; [|lra]. apply Rdiv_le_0_compat; [apply pow_le, Hq|apply Rmult_lt_0_compat; assumption]. }
  assert (T3 : e <= (1 - f) * (exp q - 1)). { apply Rle_trans with (1 := E3). apply Rmult_le_compat_l; lra. }
  assert (T4 : q ^ N / (INR N * INR (fact N)) <= 1 / 10 ^ 16 * (exp q - 1)).
  { apply Rmult_le_reg_r with (1 - f); [lra|]. replace (1 / 10 ^ 16 * (exp q - 1) * (1 - f)) with (1 / 10 ^ 16 * ((1 - f) * (exp q - 1))) by ring.
    apply Rle_trans with (1 := T2). apply Rle_trans with (1 := T1). apply Rmult_le_compat_l; lra. }
  apply Rle_trans with (2 := T4). unfold Rdiv. apply Rmult_le_compat_l; [apply pow_le, Hq|]. apply Rinv_le_contravar; [apply Rmult_lt_0_compat; assumption|].
  change (fact (S N)) with ((S N) * fact N)%nat. rewrite mult_INR, S_INR. apply Rmult_le_compat_r; lra.
Qed.
End USUP.
(** The coded Hugoniot temperature against the manual's integral equation, in compression outside the small-eta branch: relative to the manual's
    integral the series is cut at an error of at most 1e-16 (e^q - 1), or q^21/22! if all 21 terms are used, q = G0/s, times the explicit prefactor. *)
Theorem C82_usup_hugoniot_temperature : forall g rho slope, MGUsup_Props.admissible g -> MGUsup_Props.ok_rho g rho -> MGUsup_Model.rho0 g < rho ->
  let eta := compression (MGUsup_Model.rho0 g) rho in let s := MGUsup_Model.s g in let G := MGUsup_Model.G0 g in let Cs := MGUsup_Model.Cs g in let Cv := MGUsup_Model.Cv0 g in
  let q := G / s in
  1 / 10 ^ 8 <= eta ^ 2 -> tiny <= (G * eta) ^ 2 -> is_hugoniot_slope (usup_P_eta Cs s (MGUsup_Model.rho0 g)) slope eta ->
  Rabs (MGUsup_Model.HugTemperatureFromDensity g rho - hugoniot_T slope (MGUsup_Model.T0 g) G Cv (MGUsup_Model.rho0 g) eta) <=
  exp (G * eta) * (Cs ^ 2 / (2 * Cv * s ^ 2) * Rabs (q ^ 2 - 4 * q + 2) * G * eta * Rmax (1 / 10 ^ 16 * (exp q - 1)) (q ^ 21 / INR (fact 22))).
Proof.
  intros g rho slope HA Hr Hc. cbv zeta. intros H1 H2 HS. destruct HA as (A1 & A2 & A3 & A4 & A5 & A6). pose proof tiny_pos as Ht. assert (Hr' := Hr). destruct Hr' as (R1 & R2 & R3).
  unfold compression in *. set (x := 1 - MGUsup_Model.rho0 g / rho) in *.
  assert (Hx : 0 < x). { unfold x. enough (MGUsup_Model.rho0 g / rho < 1) by lra. apply Rmult_lt_reg_r with rho; [lra|]. replace (MGUsup_Model.rho0 g / rho * rho) with (MGUsup_Model.rho0 g) by (field; lra). lra. }
  set (q := MGUsup_Model.G0 g / MGUsup_Model.s g) in *. assert (Hq : 0 <= q) by (apply Rdiv_le_0_compat; lra).
  destruct (loop_exit g x 20 0) as (N & HN & HN2 & EN & EX).
  assert (ETH : MGUsup_Model.HugTemperatureFromDensity g rho = MGUsup_Props.THc g N x).
  { unfold MGUsup_Model.HugTemperatureFromDensity. cbv zeta. rewrite MGUsup_Props.eta_eq by exact R1. fold x.
    rewrite Rlt_bool_false by (replace (x * x) with (x ^ 2) by ring; lra). rewrite ratio_pos by lra. fold q.
    assert (E1 : MGUsup_Props.sk_ q (1 - MGUsup_Model.s g * x) 1 = - MGUsup_Model.G0 g * x) by (unfold MGUsup_Props.sk_, q; cbn; field; lra).
    assert (E2 : MGUsup_Props.lk_ g q 1 = MGUsup_Model.G0 g) by (unfold MGUsup_Props.lk_, q; cbn; field; lra).
    assert (E3 : MGUsup_Props.ein q (1 - MGUsup_Model.s g * x) 1 = - MGUsup_Model.G0 g * x) by (unfold q; cbn; field; lra).
    fold q in EN. rewrite E1, E2, E3 in EN. rewrite EN. unfold MGUsup_Props.THc. cbv zeta. fold q. set (S' := MGUsup_Props.ein q (1 - MGUsup_Model.s g * x) N).
    replace (exp (- q * (1 - MGUsup_Model.s g * x))) with (exp (- q) * exp (MGUsup_Model.G0 g * x)) by (rewrite <- exp_plus; f_equal; unfold q; field; lra).
    field. lra. }
  rewrite ETH. apply Rle_trans with (1 := usup_TH_bound g A1 A4 A5 A6 N x slope ltac:(lra) ltac:(lra) HS).
  apply Rmult_le_compat_l; [apply Rlt_le, exp_pos|]. fold q. apply Rmult_le_compat_l.
  { apply Rmult_le_pos; [|lra]. apply Rmult_le_pos; [|exact A5]. apply Rmult_le_pos; [|apply Rabs_pos]. apply Rdiv_le_0_compat; [apply pow2_ge_0|]. apply Rmult_lt_0_compat; [lra|apply pow_lt; lra]. }
  destruct EX as [E|EX].
  - change (0 + 1 + 20)%nat with 21%nat in E. rewrite E. apply Rmax_r.
  - apply Rle_trans with (2 := Rmax_l _ _). apply (exit_bound g A4 A5 (1 - MGUsup_Model.s g * x)); [|lia| |exact EX].
    + assert (0 < MGUsup_Model.s g * x) by (apply Rmult_lt_0_compat; lra). lra.
    + replace (MGUsup_Model.G0 g * (1 - (1 - MGUsup_Model.s g * x)) / MGUsup_Model.s g) with (MGUsup_Model.G0 g * x) by (field; lra). exact H2.
Qed.
Theorem C82_usup : forall g rho, MGUsup_Props.admissible g -> MGUsup_Props.ok_rho g rho ->
  let r0 := MGUsup_Model.rho0 g in let G := MGUsup_Model.G0 g in let Cv := MGUsup_Model.Cv0 g in
  let P_H := usup_P_H (MGUsup_Model.Cs g) (MGUsup_Model.s g) r0 rho in let E_H := usup_E_H (MGUsup_Model.Cs g) (MGUsup_Model.s g) (MGUsup_Model.E0 g) r0 rho in
  let Gamma := G * r0 / rho in
  (forall e, MGUsup_Model.PressureFromDensityInternalEnergy g rho e = mie_gruneisen P_H E_H Gamma rho e) /\
  (forall x, MGUsup_Model.GruneisenParamFromDensityTemperature g rho x = Gamma /\ MGUsup_Model.SpecificHeatFromDensityTemperature g rho x = Cv) /\
  (forall T, MGUsup_Model.EntropyFromDensityTemperature g rho T = usup_S (MGUsup_Model.S0 g) G Cv (MGUsup_Model.T0 g) r0 rho T) /\
  (exists T_H, (forall T, MGUsup_Model.InternalEnergyFromDensityTemperature g rho T = E_H + Cv * (T - T_H) /\
      MGUsup_Model.PressureFromDensityTemperature g rho T = P_H + Gamma * rho * Cv * (T - T_H)) /\
     T_H = MGUsup_Model.HugTemperatureFromDensity g rho).
Proof.
  intros g rho HA Hr. cbv zeta. destruct HA as (A1 & A2 & A3 & A4 & A5 & A6). pose proof tiny_pos as Ht. assert (Hr' := Hr). destruct Hr' as (R1 & R2 & R3).
  assert (EP : MGUsup_Model.HugPressureFromDensity g rho = usup_P_H (MGUsup_Model.Cs g) (MGUsup_Model.s g) (MGUsup_Model.rho0 g) rho).
  { rewrite MGUsup_Props.PH_eq by assumption. unfold MGUsup_Props.PHc, usup_P_H, usup_P_eta, compression. cbv zeta. set (x := 1 - MGUsup_Model.rho0 g / rho) in *. field. lra. }
  assert (EE : MGUsup_Model.HugInternalEnergyFromDensity g rho = usup_E_H (MGUsup_Model.Cs g) (MGUsup_Model.s g) (MGUsup_Model.E0 g) (MGUsup_Model.rho0 g) rho).
  { rewrite MGUsup_Props.EH_eq by assumption. unfold usup_E_H. rewrite <- EP. rewrite MGUsup_Props.PH_eq by assumption. unfold compression.
    set (x := 1 - MGUsup_Model.rho0 g / rho) in *. set (P := MGUsup_Props.PHc g x). field. lra. }
  refine (conj _ (conj _ (conj _ _))).
  - intros e. unfold MGUsup_Model.PressureFromDensityInternalEnergy. rewrite EP, EE. unfold mie_gruneisen.
    set (PH := usup_P_H _ _ _ _). set (EH := usup_E_H _ _ _ _ _). field. lra.
  - intros x. split; [|reflexivity]. unfold MGUsup_Model.GruneisenParamFromDensityTemperature. rewrite ratio_pos by lra. reflexivity.
  - intros T. unfold MGUsup_Model.EntropyFromDensityTemperature. rewrite MGUsup_Props.eta_eq by assumption. reflexivity.
  - eexists. split; [|reflexivity]. intros T. unfold MGUsup_Model.InternalEnergyFromDensityTemperature, MGUsup_Model.PressureFromDensityTemperature. rewrite EP, EE.
    split; [reflexivity|]. set (PH := usup_P_H _ _ _ _). set (TH := MGUsup_Model.HugTemperatureFromDensity g rho). field. lra.
Qed.

(** ** Power series *)
Lemma psum_shift1 a h m : h * Vinet_Props.psum (fun k => a (S k)) h m = sum_n_m (fun n => a n * h ^ n) 1 m.
Proof.
  destruct m as [|m]; [rewrite sum_n_m_zero by lia; cbn; change zero with 0; ring|]. rewrite psum_sum. rewrite <- (sum_n_m_S (fun n => a n * h ^ n) 0 m).
  symmetry. transitivity (sum_n_m (fun n => scal h (a (S n) * h ^ n)) 0 m); [apply sum_n_m_ext; intros n; change (@eq R (a (S n) * h ^ S n) (h * (a (S n) * h ^ n))); cbn [pow]; ring|].
  apply (sum_n_m_mult_l (K := R_Ring)).
Qed.
Lemma power_P_comp_eq g x : PowerMG_Props.P_H g x = power_P_comp (PowerMG_Model.M g) (PowerMG_Model.K g) x.
Proof. unfold PowerMG_Props.P_H, power_P_comp. rewrite <- (psum_shift1 (PowerMG_Model.K g)). reflexivity. Qed.
Theorem C82_power_mg : forall r0 t0 g0 cv0 e0 s0 pmin k A Z g rho, PowerMG_Model.make r0 t0 g0 cv0 e0 s0 pmin k A Z = Some g -> PowerMG_Props.admissible g -> tiny < rho ->
  let eta := compression r0 rho in let Pmin := if Rle_dec 0 pmin then - (1000) * k 0%nat else pmin in
  exists P_H E_H T_H, let Gamma := g0 * r0 / rho in
  P_H = power_P_H 40 k Pmin eta /\ (Pmin / k 0%nat <= eta -> E_H = power_E_H 40 k Pmin r0 e0 eta) /\ (eta < 0 -> T_H = power_T_H 40 k t0 g0 cv0 r0 eta) /\
  (forall e, PowerMG_Model.PressureFromDensityInternalEnergy g rho e = mie_gruneisen P_H E_H Gamma rho e) /\
  (forall x, PowerMG_Model.GruneisenParamFromDensityTemperature g rho x = Gamma /\ PowerMG_Model.SpecificHeatFromDensityTemperature g rho x = cv0) /\
  (forall T, PowerMG_Model.EntropyFromDensityTemperature g rho T = usup_S s0 g0 cv0 t0 r0 rho T) /\
  (forall T, PowerMG_Model.InternalEnergyFromDensityTemperature g rho T = E_H + cv0 * (T - T_H) /\
     PowerMG_Model.PressureFromDensityTemperature g rho T = P_H + Gamma * rho * cv0 * (T - T_H)).
Proof.
  intros r0 t0 g0 cv0 e0 s0 pmin k A Z g rho HM HA Hr. cbv zeta. pose proof tiny_pos as Ht.
  destruct (PowerMG_Props.C25_powermg_constructor _ _ _ _ _ _ _ _ _ _ _ HM) as (E1 & E2 & E3 & E4 & E5 & E6 & EK & M40 & Mz & EP & _).
  assert (EPm : PowerMG_Model.Pmin g = if Rle_dec 0 pmin then - (1000) * k 0%nat else pmin).
  { rewrite EP. destruct (Rle_bool_spec 0 pmin), (Rle_dec 0 pmin); try reflexivity; lra. }
  rewrite <- EPm. assert (HA' := HA). destruct HA' as (A1 & A2 & A3 & A4 & A5). rewrite E1, E2, E4, EK in *.
  pose proof (PowerMG_Props.C25_powermg_reference_curve g rho HA Hr) as (RC1 & RC2 & RC3). rewrite E1, E2, E3, E5, EK in *. fold (compression r0 rho) in RC1, RC2, RC3.
  set (x := compression r0 rho) in *. set (pm := PowerMG_Model.Pmin g) in *. assert (PK : pm / k 0%nat < 0) by (unfold Rdiv; assert (0 < / k 0%nat) by (apply Rinv_0_lt_compat; lra); assert (0 < (- pm) * / k 0%nat) by (apply Rmult_lt_0_compat; lra); lra).
  assert (EPc : PowerMG_Props.P_H g x = power_P_comp 40 k x).
  { rewrite power_P_comp_eq. unfold power_P_comp. rewrite EK. f_equal. f_equal.
    rewrite (sum_n_m_ext _ (fun n => k n * x ^ n)) by (intros; rewrite EK; reflexivity). set (m := PowerMG_Model.M g) in *.
    destruct (Nat.eq_dec m 40) as [->|Hm40]; [reflexivity|]. rewrite (sum_n_m_Chasles (fun n => k n * x ^ n) 1 m 40) by lia.
    rewrite (sum_n_m_ext_loc (fun n => k n * x ^ n) (fun _ => zero) (S m) 40), sum_n_m_const_zero, plus_zero_r; [reflexivity|].
    intros n Hn. rewrite <- (EK n), Mz by lia. apply Rmult_0_l. }
  rewrite EPc in RC1.
  exists (PowerMG_Model.AllHugPressureFromDensity g rho), (PowerMG_Model.AllHugInternalEnergyFromDensity g rho), (PowerMG_Model.AllHugTemperatureFromDensity g rho).
  refine (conj _ (conj _ (conj _ (conj _ (conj _ (conj _ _)))))).
  - unfold power_P_H. destruct (Rle_dec 0 x) as [L|L].
    + destruct (Req_dec x 0) as [E0|N0]; [|apply RC1; lra]. destruct (RC2 ltac:(lra)) as (-> & _). rewrite E0. unfold power_P_comp. ring.
    + destruct (Rle_dec (pm / k 0%nat) x) as [L2|L2]; [apply RC2; lra|apply RC3; lra].
  - intros Hx. unfold power_E_H, power_P_H. destruct (Rle_dec 0 x) as [L|L].
    + destruct (Req_dec x 0) as [E0|N0]; [|apply RC1; lra]. destruct (RC2 ltac:(lra)) as (_ & -> & _). rewrite E0. unfold power_P_comp, Rdiv. ring.
    + destruct (Rle_dec (pm / k 0%nat) x) as [L2|L2]; [apply RC2; lra|lra].
  - intros Hx. unfold power_T_H. destruct (Rle_dec 0 x) as [L|L]; [lra|].
    destruct (Rle_lt_dec (pm / k 0%nat) x) as [L2|L2]; [apply RC2; lra|apply RC3; lra].
  - intros e. unfold PowerMG_Model.PressureFromDensityInternalEnergy, mie_gruneisen. rewrite E1, E3. set (PH := PowerMG_Model.AllHugPressureFromDensity g rho). set (EH := PowerMG_Model.AllHugInternalEnergyFromDensity g rho). field. lra.
  - intros y. split; [|exact E4]. unfold PowerMG_Model.GruneisenParamFromDensityTemperature. rewrite ratio_pos by lra. rewrite E1, E3. reflexivity.
  - intros T. unfold PowerMG_Model.EntropyFromDensityTemperature. rewrite PowerMG_Props.eta_eq by assumption. rewrite E1, E2, E3, E4, E6. reflexivity.
  - intros T. unfold PowerMG_Model.InternalEnergyFromDensityTemperature, PowerMG_Model.PressureFromDensityTemperature. rewrite E1, E3, E4. split; [reflexivity|].
    set (PH := PowerMG_Model.AllHugPressureFromDensity g rho). set (TH := PowerMG_Model.AllHugTemperatureFromDensity g rho). field. lra.
Qed.

(** *** the Hugoniot temperature in compression *)
Lemma exp_neg_le1 G z : 0 <= G -> 0 <= z -> 0 < exp (- G * z) <= 1.
Proof.
  intros HG Hz. split; [apply exp_pos|]. rewrite <- exp_0. destruct (Req_dec (- G * z) 0) as [->|Hn]; [lra|]. apply Rlt_le, exp_increasing.
  assert (0 <= G * z) by (apply Rmult_le_pos; lra). lra.
Qed.
Section SERIES.
Variables G x : R.
Hypothesis HG : 0 <= G.
Hypothesis Hx : 0 <= x.
Lemma I_ex n y : 0 <= y -> ex_RInt (fun z => exp (- G * z) * z ^ (n - 1)) 0 y.
Proof. intros Hy. apply (ex_RInt_continuous (V := R_CompleteNormedModule)). intros z _. apply (ex_derive_continuous (V := R_NormedModule)). auto_derive. exact I. Qed.
Lemma I_nonneg n y : 0 <= y -> 0 <= power_I G y n.
Proof.
  intros Hy. unfold power_I. replace 0 with (RInt (fun _ => 0) 0 y) at 1. 2: { rewrite RInt_const. change scal with Rmult. apply Rmult_0_r. }
  apply RInt_le; [exact Hy|apply (ex_RInt_const (V := R_NormedModule))|apply I_ex, Hy|]. intros z Hz. apply Rmult_le_pos; [apply Rlt_le, exp_pos|apply pow_le; lra].
Qed.
Lemma tm_mono n N z : 0 <= z <= x -> PowerMG_Props.tm n N (G * z) <= PowerMG_Props.tm n N (G * x).
Proof.
  intros Hz. unfold PowerMG_Props.tm, Rdiv. apply Rmult_le_compat_r; [apply Rlt_le, Rinv_0_lt_compat, INR_fact_lt_0|]. apply Rmult_le_compat_r; [apply Rlt_le, INR_fact_lt_0|].
  apply pow_incr. split; [apply Rmult_le_pos; lra|apply Rmult_le_compat_l; lra].
Qed.
(** x^n S_n(Gx) against e^(Gx) I_n *)
Lemma S_integral n N : (1 <= n)%nat -> 0 <= exp (G * x) * power_I G x n - x ^ n * PowerMG_Props.S_ n N (G * x) <= exp (G * x) * (x * (G * x ^ n * PowerMG_Props.tm n N (G * x))).
Proof.
  intros Hn. set (B := fun z => exp (- G * z) * (G * (z ^ n * PowerMG_Props.tm n N (G * z)))). set (A := fun z => exp (- G * z) * z ^ (n - 1)).
  assert (CB : forall z, continuous B z).
  { intros z. apply (ex_derive_continuous (V := R_NormedModule)). unfold B, PowerMG_Props.tm. auto_derive. exact I. }
  assert (CA : forall z, continuous A z). { intros z. apply (ex_derive_continuous (V := R_NormedModule)). unfold A. auto_derive. exact I. }
  assert (IB : ex_RInt B 0 x) by (apply (ex_RInt_continuous (V := R_CompleteNormedModule)); intros; apply CB).
  assert (IA : ex_RInt A 0 x) by (apply (ex_RInt_continuous (V := R_CompleteNormedModule)); intros; apply CA).
  assert (ED : RInt (fun z => A z - B z) 0 x = exp (- G * x) * (x ^ n * PowerMG_Props.S_ n N (G * x)) - 0).
  { apply is_RInt_unique. replace 0 with (exp (- G * 0) * (0 ^ n * PowerMG_Props.S_ n N (G * 0))) at 2 by (rewrite pow_i by lia; ring).
    apply (is_RInt_derive (V := R_CompleteNormedModule) (fun y => exp (- G * y) * (y ^ n * PowerMG_Props.S_ n N (G * y)))).
    - intros z _.
      apply (is_derive_eq _ _ _ _ (is_derive_mult (fun y => exp (- G * y)) (fun y => y ^ n * PowerMG_Props.S_ n N (G * y)) z (- G * exp (- G * z)) _ ltac:(auto_derive; [exact I|ring]) (PowerMG_Props.Y_derive n N G z Hn) Rmult_comm)).
      unfold A, B. change plus with Rplus. change mult with Rmult. ring.
    - intros z _. apply (continuous_minus (V := R_NormedModule)); [apply CA|apply CB]. }
  assert (EM : RInt (fun z => A z - B z) 0 x = RInt A 0 x - RInt B 0 x) by (apply (RInt_minus (V := R_CompleteNormedModule)); assumption).
  assert (EXP : exp (G * x) * exp (- G * x) = 1) by (rewrite <- exp_plus; replace (G * x + - G * x) with 0 by ring; apply exp_0).
  replace (exp (G * x) * power_I G x n - x ^ n * PowerMG_Props.S_ n N (G * x)) with (exp (G * x) * RInt B 0 x).
  2: { change (power_I G x n) with (RInt A 0 x). replace (RInt A 0 x) with (RInt B 0 x + exp (- G * x) * (x ^ n * PowerMG_Props.S_ n N (G * x))) by lra.
       rewrite Rmult_plus_distr_l, <- (Rmult_assoc (exp (G * x)) (exp (- G * x))), EXP. ring. }
  pose proof (exp_pos (G * x)) as EP.
  assert (T0 : forall z, 0 <= z -> 0 <= PowerMG_Props.tm n N (G * z)) by (intros z Hz; apply PowerMG_Props.tm_nonneg, Rmult_le_pos; lra).
  split.
  - apply Rmult_le_pos; [lra|]. replace 0 with (RInt (fun _ => 0) 0 x) at 1. 2: { rewrite RInt_const. change scal with Rmult. apply Rmult_0_r. }
    apply RInt_le; [exact Hx|apply (ex_RInt_const (V := R_NormedModule))|exact IB|]. intros z Hz. unfold B. apply Rmult_le_pos; [apply Rlt_le, exp_pos|].
    apply Rmult_le_pos; [exact HG|]. apply Rmult_le_pos; [apply pow_le; lra|apply T0; lra].
  - apply Rmult_le_compat_l; [lra|]. set (K := G * x ^ n * PowerMG_Props.tm n N (G * x)). replace (x * K) with (RInt (fun _ => K) 0 x).
    2: { rewrite RInt_const. change (@eq R ((x - 0) * K) (x * K)). ring. }
    apply RInt_le; [exact Hx|exact IB|apply (ex_RInt_const (V := R_NormedModule))|]. intros z Hz. unfold B, K. destruct (exp_neg_le1 G z HG ltac:(lra)) as (Z1 & Z2).
    assert (L1 : 0 <= G * (z ^ n * PowerMG_Props.tm n N (G * z))) by (apply Rmult_le_pos; [exact HG|]; apply Rmult_le_pos; [apply pow_le; lra|apply T0; lra]).
    apply Rle_trans with (1 * (G * (z ^ n * PowerMG_Props.tm n N (G * z)))); [apply Rmult_le_compat_r; lra|]. rewrite Rmult_1_l, Rmult_assoc. apply Rmult_le_compat_l; [exact HG|].
    apply Rmult_le_compat; [apply pow_le; lra|apply T0; lra|apply pow_incr; lra|apply tm_mono; lra].
Qed.
(** a uniform bound on all further partial sums carries over to the integral *)
Lemma S_limit n N C : (1 <= n)%nat -> (forall j, PowerMG_Props.S_ n (N + j) (G * x) <= C) -> exp (G * x) * power_I G x n <= x ^ n * C.
Proof.
  intros Hn HC. assert (Hu : 0 <= G * x) by (apply Rmult_le_pos; assumption). apply le_epsilon. intros eps He.
  set (c := exp (G * x) * (x * (G * x ^ n))). assert (Hc : 0 <= c). { apply Rmult_le_pos; [apply Rlt_le, exp_pos|]. apply Rmult_le_pos; [exact Hx|]. apply Rmult_le_pos; [exact HG|apply pow_le, Hx]. }
  set (t := PowerMG_Props.tm n N (G * x)). assert (Ht : 0 <= t) by (apply PowerMG_Props.tm_nonneg, Hu).
  destruct (cv_speed_pow_fact (G * x) (eps / (c * t + 1))) as (j & Hj). { apply Rdiv_lt_0_compat; [exact He|]. assert (0 <= c * t) by (apply Rmult_le_pos; assumption). lra. }
  specialize (Hj j (Nat.le_refl j)). unfold R_dist in Hj. rewrite Rminus_0_r in Hj.
  destruct (S_integral n (N + j) Hn) as (_ & I2). pose proof (PowerMG_Props.tm_tail n N j (G * x) Hu) as TT. fold t in TT. specialize (HC j).
  set (p := (G * x) ^ j / INR (fact j)) in *. assert (Hp : 0 <= p) by (apply Rdiv_le_0_compat; [apply pow_le, Hu|apply INR_fact_lt_0]). rewrite Rabs_pos_eq in Hj by exact Hp.
  assert (L1 : exp (G * x) * (x * (G * x ^ n * PowerMG_Props.tm n (N + j) (G * x))) <= c * t * p).
  { replace (exp (G * x) * (x * (G * x ^ n * PowerMG_Props.tm n (N + j) (G * x)))) with (c * PowerMG_Props.tm n (N + j) (G * x)) by (unfold c; ring). rewrite Rmult_assoc. apply Rmult_le_compat_l; assumption. }
  assert (L2 : c * t * p <= eps). { assert (0 <= c * t) by (apply Rmult_le_pos; assumption). apply Rle_trans with ((c * t + 1) * p); [apply Rmult_le_compat_r; lra|].
    apply Rmult_lt_compat_l with (r := c * t + 1) in Hj; [|lra]. replace ((c * t + 1) * (eps / (c * t + 1))) with eps in Hj by (field; lra). lra. }
  assert (L3 : x ^ n * PowerMG_Props.S_ n (N + j) (G * x) <= x ^ n * C) by (apply Rmult_le_compat_l; [apply pow_le, Hx|exact HC]). lra.
Qed.
(** the relative tail bound goes down the recursion of the coefficients *)
Lemma tail_down n N eps : (1 <= n)%nat -> 0 <= eps -> (forall j, PowerMG_Props.S_ (S n) (N + j) (G * x) - PowerMG_Props.S_ (S n) N (G * x) <= eps * PowerMG_Props.S_ (S n) N (G * x)) ->
  forall j, PowerMG_Props.S_ n (S N + j) (G * x) - PowerMG_Props.S_ n (S N) (G * x) <= eps * PowerMG_Props.S_ n (S N) (G * x).
Proof.
  intros Hn He H j. specialize (H j). change (S N + j)%nat with (S (N + j)). rewrite !PowerMG_Props.S_rec by exact Hn. set (u := G * x) in *.
  assert (Hu : 0 <= u) by (apply Rmult_le_pos; assumption). assert (NZ : 0 < INR n) by (apply lt_0_INR; lia). assert (Hq : 0 <= u / INR n) by (apply Rdiv_le_0_compat; assumption).
  apply Rmult_le_compat_l with (r := u / INR n) in H; [|exact Hq]. assert (0 <= eps * (1 / INR n)) by (apply Rmult_le_pos; [exact He|apply Rdiv_le_0_compat; lra]). lra.
Qed.
End SERIES.
Fixpoint zfact (n : nat) : Z := match n with O => 1%Z | S m => (Z.of_nat (S m) * zfact m)%Z end.
Lemma zfact_INR n : INR (fact n) = IZR (zfact n).
Proof. induction n as [|n IH]; [reflexivity|]. change (fact (S n)) with (S n * fact n)%nat. rewrite mult_INR, IH. cbn [zfact]. rewrite mult_IZR, <- INR_IZR_INZ. reflexivity. Qed.
Lemma pow_fact_decr u n0 k : 0 <= u <= 20 -> 20 <= INR n0 -> u ^ (n0 + k) / INR (fact (n0 + k)) <= 20 ^ n0 / INR (fact n0).
Proof.
  intros Hu Hn. induction k as [|k IH].
  - rewrite Nat.add_0_r. unfold Rdiv. apply Rmult_le_compat_r; [apply Rlt_le, Rinv_0_lt_compat, INR_fact_lt_0|]. apply pow_incr. lra.
  - replace (n0 + S k)%nat with (S (n0 + k)) by lia. assert (Hm : (n0 <= n0 + k)%nat) by lia. set (m := (n0 + k)%nat) in *. clearbody m.
    change (fact (S m)) with (S m * fact m)%nat. rewrite mult_INR. cbn [pow].
    assert (NF : 0 < INR (fact m)) by apply INR_fact_lt_0. assert (NZ : 20 <= INR (S m)) by (apply Rle_trans with (1 := Hn); apply le_INR; lia).
    replace (u * u ^ m / (INR (S m) * INR (fact m))) with (u / INR (S m) * (u ^ m / INR (fact m))) by (field; lra).
    assert (U : 0 <= u / INR (S m) <= 1). { split; [apply Rdiv_le_0_compat; lra|]. apply Rmult_le_reg_r with (INR (S m)); [lra|]. replace (u / INR (S m) * INR (S m)) with u by (field; lra). lra. }
    assert (0 <= u ^ m / INR (fact m)) by (apply Rdiv_le_0_compat; [apply pow_le; lra|exact NF]).
    apply Rle_trans with (2 := IH). rewrite <- (Rmult_1_l (u ^ m / INR (fact m))) at 2. apply Rmult_le_compat_r; lra.
Qed.
Lemma exp20 u : 0 <= u <= 20 -> exp u <= 3 ^ 20.
Proof.
  intros Hu. apply Rle_trans with (exp 20). { destruct (Req_dec u 20) as [->|]; [lra|]. apply Rlt_le, exp_increasing. lra. }
  replace (exp 20) with (exp 1 ^ 20). apply pow_incr. split; [apply Rlt_le, exp_pos|apply exp_le_3]. 
  rewrite <- (Rpower_pow 20 (exp 1)) by apply exp_pos. unfold Rpower. rewrite ln_exp. f_equal. rewrite INR_IZR_INZ. cbn. ring.
Qed.
Lemma late_num n0 : n0 = 158%nat -> 20 ^ n0 / INR (fact n0) * 3 ^ 20 <= 1 / 10 ^ 15.
Proof.
  intros E. rewrite zfact_INR. assert (F : (0 < zfact n0)%Z) by (rewrite E; vm_compute; reflexivity). assert (L : (20 ^ Z.of_nat n0 * (3 ^ 20 * 10 ^ 15) <= zfact n0)%Z) by (rewrite E; vm_compute; discriminate).
  apply IZR_lt in F. apply IZR_le in L. rewrite !mult_IZR in L. rewrite <- pow_IZR in L. change (3 ^ 20)%Z with (3 ^ Z.of_nat 20)%Z in L. change (10 ^ 15)%Z with (10 ^ Z.of_nat 15)%Z in L. rewrite <- !pow_IZR in L.
  clear E. set (zf := IZR (zfact n0)) in *. set (a := 20 ^ n0) in *. assert (B : 0 < 3 ^ 20) by (apply pow_lt; lra). assert (C : 0 < 10 ^ 15) by (apply pow_lt; lra).
  set (b := 3 ^ 20) in *. set (c := 10 ^ 15) in *. clearbody zf a b c. apply Rmult_le_reg_r with (zf * c); [apply Rmult_lt_0_compat; assumption|].
  replace (a / zf * b * (zf * c)) with (a * (b * c)) by (field; lra). replace (1 / c * (zf * c)) with zf by (field; lra). exact L.
Qed.
Lemma late_tail u N : 0 <= u <= 20 -> (158 <= N)%nat -> u ^ N / INR (fact N) * (exp u - 1) <= 1 / 10 ^ 15.
Proof.
  intros Hu. assert (E : exists n0, n0 = 158%nat) by (eexists; reflexivity). destruct E as (n0 & En). rewrite <- En. intros HN.
  assert (H20 : 20 <= INR n0). { rewrite En, INR_IZR_INZ. apply IZR_le. vm_compute. discriminate. }
  pose proof (late_num n0 En) as LN. clear En. replace N with (n0 + (N - n0))%nat by lia. pose proof (pow_fact_decr u n0 (N - n0) Hu H20) as P. pose proof (exp20 u Hu) as E.
  assert (E0 : 0 <= exp u - 1). { pose proof (exp_ineq1_le u). lra. }
  assert (Q : 0 <= 20 ^ n0 / INR (fact n0)) by (apply Rdiv_le_0_compat; [apply pow_le; lra|apply INR_fact_lt_0]).
  set (p := u ^ (n0 + (N - n0)) / INR (fact (n0 + (N - n0)))) in *. set (q := 20 ^ n0 / INR (fact n0)) in *. clearbody p q. clear HN H20.
  apply Rle_trans with (2 := LN). set (b := 3 ^ 20) in *. clearbody b.
  apply Rle_trans with (q * (exp u - 1)); [apply Rmult_le_compat_r; assumption|]. apply Rmult_le_compat_l; [exact Q|lra].
Qed.

Section PMG.
Variable g : PowerMG_Model.powermg.
Hypothesis HA : PowerMG_Props.admissible g.
Hypothesis HM : (PowerMG_Model.M g <= 40)%nat.
Hypothesis HG : 0 <= PowerMG_Model.G0 g.
Notation r0 := (PowerMG_Model.rho0 g).
Notation G := (PowerMG_Model.G0 g).
Notation K := (PowerMG_Model.K g).
Notation M := (PowerMG_Model.M g).
Notation Cv := (PowerMG_Model.Cv0 g).
(** sum_{i=1}^{m} i c_i e^(G eta) I_(i+2) *)
Fixpoint isum (c : nat -> R) (x : R) (m : nat) : R := match m with O => 0 | S j => isum c x j + INR (S j) * c (S j) * power_I G x (S j + 2) end.
Lemma isum_sum c x m : isum c x m = sum_n_m (fun n => INR n * c n * power_I G x (n + 2)) 1 m.
Proof. induction m as [|m IH]; [rewrite sum_n_m_zero by lia; reflexivity|]. rewrite sum_n_Sm by lia. rewrite <- IH. reflexivity. Qed.
Lemma isum_RInt (a : nat -> R) x m : 0 <= x -> is_RInt (fun z => exp (- G * z) * (z ^ 2 * Vinet_Props.psum (fun k => INR (S k) * a (S k)) z m)) 0 x (isum a x m).
Proof.
  intros Hx. induction m as [|m IH].
  - cbn [Vinet_Props.psum isum]. apply (is_RInt_ext (fun _ => zero)). { intros z _. match goal with |- @eq _ ?u ?v => change (@eq R 0 v) end. ring. }
    replace 0 with (scal (x - 0) (@zero R_AbelianGroup)) at 2 by (change (@eq R ((x - 0) * 0) 0); ring). apply (is_RInt_const (V := R_NormedModule)).
  - cbn [Vinet_Props.psum isum].
    apply (is_RInt_ext (fun z => plus (exp (- G * z) * (z ^ 2 * Vinet_Props.psum (fun k => INR (S k) * a (S k)) z m)) (scal (INR (S m) * a (S m)) (exp (- G * z) * z ^ (S m + 2 - 1))))).
    { intros z _. change plus with Rplus. change scal with Rmult. replace (S m + 2 - 1)%nat with (2 + m)%nat by lia. rewrite pow_add.
      set (p := Vinet_Props.psum _ z m). set (w := exp _). match goal with |- @eq _ ?u ?v => change (@eq R u v) end. ring. }
    apply (is_RInt_plus (V := R_NormedModule)); [exact IH|]. apply (is_RInt_scal (V := R_NormedModule)).
    apply (RInt_correct (V := R_CompleteNormedModule)). apply (I_ex G (S m + 2) x Hx).
Qed.
Lemma power_hugoniot_T x slope : 0 <= x -> is_hugoniot_slope (power_P_comp M K) slope x ->
  hugoniot_T slope (PowerMG_Model.T0 g) G Cv r0 x = PowerMG_Model.T0 g * exp (G * x) + K 0%nat / (2 * Cv * r0) * (exp (G * x) * isum K x M).
Proof.
  intros Hx HS. destruct HA as (A1 & A2 & A3 & A4 & A5). pose proof tiny_pos as Ht. unfold hugoniot_T.
  assert (E : RInt (fun z => exp (- G * z) * z ^ 2 * slope z) 0 x = K 0%nat * isum K x M).
  { apply is_RInt_unique. apply (is_RInt_ext (fun z => scal (K 0%nat) (exp (- G * z) * (z ^ 2 * Vinet_Props.psum (fun k => INR (S k) * K (S k)) z M)))).
    - intros z. rewrite Rmin_left, Rmax_right by lra. intros Hz.
      assert (DP : is_derive (power_P_comp M K) z (PowerMG_Props.dP_H g z)). { apply (is_derive_ext (PowerMG_Props.P_H g)); [intros t; apply power_P_comp_eq|]. apply PowerMG_Props.PH_derive. }
      assert (DQ : is_derive (fun y => power_P_comp M K y / y) z ((PowerMG_Props.dP_H g z * z - power_P_comp M K z * 1) / z ^ 2)).
      { apply (is_derive_div (power_P_comp M K) (fun y => y) z (PowerMG_Props.dP_H g z) 1 DP); [apply (is_derive_id (K := R_AbsRing))|lra]. }
      pose proof (is_derive_unique _ _ _ (HS z Hz)) as U1. pose proof (is_derive_unique _ _ _ DQ) as U2. rewrite U1 in U2. rewrite U2.
      rewrite <- power_P_comp_eq. replace (PowerMG_Props.dP_H g z * z - PowerMG_Props.P_H g z * 1) with (z * PowerMG_Props.dP_H g z - PowerMG_Props.P_H g z) by ring.
      rewrite PowerMG_Props.PH_euler. set (p := Vinet_Props.psum _ z _). set (w := exp _).
      match goal with |- @eq _ ?u ?v => change (@eq R u v) end. change scal with Rmult. field. lra.
    - apply (is_RInt_scal (V := R_NormedModule)). apply isum_RInt, Hx. }
  rewrite E. field. lra.
Qed.
Lemma wsum_le N x m : 0 <= x -> (m <= M)%nat -> (forall n, 0 <= K n) -> PowerMG_Props.wsum g N x m <= exp (G * x) * isum K x m.
Proof.
  intros Hx. induction m as [|m IH]; intros Hm HK; [cbn; lra|]. cbn [PowerMG_Props.wsum isum]. specialize (IH ltac:(lia) HK).
  destruct (S_integral G x HG Hx (S m + 2) (N + (M - S m)) ltac:(lia)) as (L & _).
  assert (0 <= INR (S m) * K (S m)) by (apply Rmult_le_pos; [apply pos_INR|apply HK]). apply Rmult_le_compat_l with (r := INR (S m) * K (S m)) in L; [|assumption]. lra.
Qed.
Lemma wsum_close N x m : 0 <= x -> (m <= M)%nat ->
  (forall j, PowerMG_Props.S_ (M + 2) (N + j) (G * x) - PowerMG_Props.S_ (M + 2) N (G * x) <= 1 / 10 ^ 15 * PowerMG_Props.S_ (M + 2) N (G * x)) ->
  Rabs (PowerMG_Props.wsum g N x m - exp (G * x) * isum K x m) <= 1 / 10 ^ 15 * (exp (G * x) * isum (fun n => Rabs (K n)) x m).
Proof.
  intros Hx Hm HT.
  assert (HD : forall i, (i <= M)%nat -> forall j, PowerMG_Props.S_ (M - i + 2) (N + i + j) (G * x) - PowerMG_Props.S_ (M - i + 2) (N + i) (G * x) <= 1 / 10 ^ 15 * PowerMG_Props.S_ (M - i + 2) (N + i) (G * x)).
  { induction i as [|i IH]; intros Hi j; [rewrite Nat.sub_0_r, Nat.add_0_r; apply HT|]. replace (N + S i)%nat with (S (N + i)) by lia. apply (tail_down G x HG Hx); [lia|lra|].
    replace (S (M - S i + 2)) with (M - i + 2)%nat by lia. apply IH. lia. }
  induction m as [|m IH].
  - cbn [PowerMG_Props.wsum isum]. rewrite !Rmult_0_r, Rminus_0_r, Rabs_R0. lra.
  - specialize (IH ltac:(lia)). cbn [PowerMG_Props.wsum isum]. set (n := (S m + 2)%nat). set (NN := (N + (M - S m))%nat).
    specialize (HD (M - S m)%nat ltac:(lia)). fold NN in HD. replace (M - (M - S m) + 2)%nat with n in HD by (unfold n; lia).
    destruct (S_integral G x HG Hx n NN ltac:(unfold n; lia)) as (L1 & _).
    assert (L2 : exp (G * x) * power_I G x n <= x ^ n * (PowerMG_Props.S_ n NN (G * x) + 1 / 10 ^ 15 * PowerMG_Props.S_ n NN (G * x))).
    { apply (S_limit G x HG Hx n NN); [unfold n; lia|]. intros j. specialize (HD j). lra. }
    set (e := exp (G * x)) in *. set (I := power_I G x n) in *. set (s := x ^ n * PowerMG_Props.S_ n NN (G * x)) in *.
    assert (L3 : e * I - s <= 1 / 10 ^ 15 * s). { replace (x ^ n * (PowerMG_Props.S_ n NN (G * x) + 1 / 10 ^ 15 * PowerMG_Props.S_ n NN (G * x))) with (s + 1 / 10 ^ 15 * s) in L2 by (unfold s; ring). lra. }
    set (c := INR (S m)) in *. assert (Hc : 0 <= c) by apply pos_INR. set (k := K (S m)). set (ws := PowerMG_Props.wsum g N x m) in *. set (is1 := isum K x m) in *. set (is2 := isum (fun n0 => Rabs (K n0)) x m) in *.
    replace (ws + c * k * s - e * (is1 + c * k * I)) with ((ws - e * is1) + c * k * (s - e * I)) by ring.
    apply Rle_trans with (1 := Rabs_triang _ _). replace (1 / 10 ^ 15 * (e * (is2 + c * Rabs k * I))) with (1 / 10 ^ 15 * (e * is2) + c * Rabs k * (1 / 10 ^ 15 * (e * I))) by ring.
    apply Rplus_le_compat; [exact IH|]. rewrite !Rabs_mult, (Rabs_pos_eq c) by exact Hc. apply Rmult_le_compat_l; [apply Rmult_le_pos; [exact Hc|apply Rabs_pos]|].
    rewrite Rabs_left1 by lra. lra.
Qed.
Lemma loop_tail x N : 0 <= x -> G * x <= 20 ->
  (exp (G * x) - 1) * PowerMG_Props.tm (M + 2) N (G * x) <= 1 / 10 ^ 15 * PowerMG_Props.S_ (M + 2) N (G * x) \/ (200 <= M + 2 + N)%nat ->
  forall j, PowerMG_Props.S_ (M + 2) (N + j) (G * x) - PowerMG_Props.S_ (M + 2) N (G * x) <= 1 / 10 ^ 15 * PowerMG_Props.S_ (M + 2) N (G * x).
Proof.
  intros Hx HG20 HC j. assert (Hu : 0 <= G * x) by (apply Rmult_le_pos; assumption). destruct (PowerMG_Props.S_tail (M + 2) N j _ Hu) as (_ & T). destruct HC as [HC|HC]; [lra|].
  pose proof (PowerMG_Props.tm_tail (M + 2) 0 N (G * x) Hu) as TT. cbn [Nat.add] in TT. rewrite PowerMG_Props.tm0 in TT by lia.
  pose proof (late_tail (G * x) N ltac:(lra) ltac:(lia)) as LT.
  assert (SB : 1 / INR (M + 2) <= PowerMG_Props.S_ (M + 2) N (G * x)).
  { rewrite <- (PowerMG_Props.tm0 (M + 2) (G * x)) by lia. change (PowerMG_Props.tm (M + 2) 0 (G * x)) with (PowerMG_Props.S_ (M + 2) 0 (G * x)). destruct (PowerMG_Props.S_tail (M + 2) 0 N _ Hu) as (S1 & _). exact S1. }
  assert (NZ : 0 < 1 / INR (M + 2)) by (apply Rdiv_lt_0_compat; [lra|apply lt_0_INR; lia]). assert (E0 : 0 <= exp (G * x) - 1) by (pose proof (exp_ineq1_le (G * x)); lra).
  set (p := (G * x) ^ N / INR (fact N)) in *. set (t := PowerMG_Props.tm (M + 2) N (G * x)) in *. set (E := exp (G * x) - 1) in *. set (i := 1 / INR (M + 2)) in *.
  apply Rmult_le_compat_r with (r := E) in TT; [|exact E0]. apply Rmult_le_compat_l with (r := i) in LT; [|lra]. lra.
Qed.
End PMG.
(** The coded Hugoniot temperature against the manual's integral equation for the documented power-series Hugoniot: relative error 1e-15 in every term.
    (G0 <= 20 covers the case in which the loop stops at its cap of 200 terms.) *)
Theorem C82_power_mg_hugoniot_temperature : forall g rho slope, PowerMG_Props.admissible g -> (PowerMG_Model.M g <= 40)%nat -> tiny < rho ->
  let eta := compression (PowerMG_Model.rho0 g) rho in let G := PowerMG_Model.G0 g in let K := PowerMG_Model.K g in let M := PowerMG_Model.M g in
  let r0 := PowerMG_Model.rho0 g in let Cv := PowerMG_Model.Cv0 g in
  tiny < eta -> 0 <= G <= 20 -> is_hugoniot_slope (power_P_comp M K) slope eta ->
  Rabs (PowerMG_Model.AllHugTemperatureFromDensity g rho - hugoniot_T slope (PowerMG_Model.T0 g) G Cv r0 eta) <=
  1 / 10 ^ 15 * (K 0%nat / (2 * Cv * r0) * exp (G * eta) * sum_n_m (fun n => INR n * Rabs (K n) * power_I G eta (n + 2)) 1 M).
Proof.
  intros g rho slope HA HM Hr. cbv zeta. unfold compression. set (x := 1 - PowerMG_Model.rho0 g / rho). intros Hx HG HS. pose proof tiny_pos as Ht.
  assert (HA' := HA). destruct HA' as (A1 & A2 & A3 & A4 & A5).
  assert (X1 : x < 1). { unfold x. assert (0 < PowerMG_Model.rho0 g / rho) by (apply Rdiv_lt_0_compat; lra). lra. }
  assert (GX : PowerMG_Model.G0 g * x <= 20). { apply Rle_trans with (PowerMG_Model.G0 g * 1); [apply Rmult_le_compat_l; lra|lra]. }
  destruct (PowerMG_Props.HT_eq g A1 A3 rho Hr HM) as (N & HN & _ & EN & HC). fold x in EN, HC.
  rewrite (PowerMG_Props.AT_comp g rho (conj Hr Hx)), EN. rewrite (power_hugoniot_T g HA HM x slope ltac:(lra) HS). unfold PowerMG_Props.T_H.
  pose proof (wsum_close g HM (proj1 HG) N x (PowerMG_Model.M g) ltac:(lra) ltac:(lia) (loop_tail g HM (proj1 HG) x N ltac:(lra) GX HC)) as W.
  rewrite <- (isum_sum g HM). set (ws := PowerMG_Props.wsum g N x (PowerMG_Model.M g)) in *. set (i1 := isum g (PowerMG_Model.K g) x (PowerMG_Model.M g)) in *. set (i2 := isum g (fun n0 => Rabs (PowerMG_Model.K g n0)) x (PowerMG_Model.M g)) in *.
  set (e := exp (PowerMG_Model.G0 g * x)) in *. set (c := PowerMG_Model.K g 0%nat / (2 * PowerMG_Model.Cv0 g * PowerMG_Model.rho0 g)).
  assert (Hc : 0 < c). { apply Rdiv_lt_0_compat; [exact A4|]. apply Rmult_lt_0_compat; lra. }
  replace (PowerMG_Model.T0 g * e + c * ws - (PowerMG_Model.T0 g * e + c * (e * i1))) with (c * (ws - e * i1)) by ring.
  rewrite Rabs_mult, (Rabs_pos_eq c) by lra. replace (1 / 10 ^ 15 * (c * e * i2)) with (c * (1 / 10 ^ 15 * (e * i2))) by ring. apply Rmult_le_compat_l; lra.
Qed.
(** Refuted: the closed form printed under the integral equation, T_0 e^(G eta) + ... (K_1 I_2 + 2 K_2 I_3 + ...), has the index of the incomplete
    gamma integrals off by one; the code evaluates K_1 I_3 + 2 K_2 I_4 + ..., and is strictly below the printed form for non-negative coefficients *)
Theorem C83_power_mg_temperature_index_refuted : forall g rho, PowerMG_Props.admissible g -> (1 <= PowerMG_Model.M g <= 40)%nat -> tiny < rho ->
  let eta := compression (PowerMG_Model.rho0 g) rho in
  tiny < eta -> 0 <= PowerMG_Model.G0 g -> (forall n, 0 <= PowerMG_Model.K g n) -> 0 < PowerMG_Model.K g 1%nat ->
  PowerMG_Model.AllHugTemperatureFromDensity g rho < power_T_H (PowerMG_Model.M g) (PowerMG_Model.K g) (PowerMG_Model.T0 g) (PowerMG_Model.G0 g) (PowerMG_Model.Cv0 g) (PowerMG_Model.rho0 g) eta.
Proof.
  intros g rho HA HM Hr. cbv zeta. unfold compression. set (x := 1 - PowerMG_Model.rho0 g / rho). intros Hx HG HK K1. pose proof tiny_pos as Ht.
  assert (HA' := HA). destruct HA' as (A1 & A2 & A3 & A4 & A5).
  assert (X1 : x < 1). { unfold x. assert (0 < PowerMG_Model.rho0 g / rho) by (apply Rdiv_lt_0_compat; lra). lra. }
  destruct (PowerMG_Props.HT_eq g A1 A3 rho Hr ltac:(lia)) as (N & HN & _ & EN & _). fold x in EN.
  rewrite (PowerMG_Props.AT_comp g rho (conj Hr Hx)), EN. unfold power_T_H, PowerMG_Props.T_H. destruct (Rle_dec 0 x) as [_|]; [|lra].
  pose proof (wsum_le g (proj2 HM) HG N x (PowerMG_Model.M g) ltac:(lra) ltac:(lia) HK) as W.
  assert (II : forall n, (1 <= n)%nat -> power_I (PowerMG_Model.G0 g) x (n + 2) < power_I (PowerMG_Model.G0 g) x (n + 1)).
  { intros n Hn. unfold power_I. apply RInt_lt; [lra| | |].
    - intros z _. apply (ex_derive_continuous (V := R_NormedModule)). auto_derive. exact I.
    - intros z _. apply (ex_derive_continuous (V := R_NormedModule)). auto_derive. exact I.
    - intros z Hz. apply Rmult_lt_compat_l; [apply exp_pos|]. replace (n + 2 - 1)%nat with (S n) by lia. replace (n + 1 - 1)%nat with n by lia. cbn [pow].
      assert (0 < z ^ n) by (apply pow_lt; lra). rewrite <- (Rmult_1_l (z ^ n)) at 2. apply Rmult_lt_compat_r; lra. }
  assert (LT : forall m, (1 <= m)%nat -> isum g (PowerMG_Model.K g) x m < sum_n_m (fun n => INR n * PowerMG_Model.K g n * power_I (PowerMG_Model.G0 g) x (n + 1)) 1 m).
  { induction m as [|m IH]; intros Hm; [lia|]. rewrite sum_n_Sm by lia. cbn [isum]. set (sm := sum_n_m _ 1 m) in *. change (plus sm ?t) with (sm + t).
    pose proof (II (S m) ltac:(lia)) as L. destruct m as [|m].
    - cbn [isum]. assert (E : sm = 0) by (unfold sm; rewrite sum_n_m_zero by lia; reflexivity). rewrite E. rewrite !Rplus_0_l. apply Rmult_lt_compat_l; [|exact L]. change (INR 1) with 1. lra.
    - specialize (IH ltac:(lia)). assert (0 <= INR (S (S m)) * PowerMG_Model.K g (S (S m))) by (apply Rmult_le_pos; [apply pos_INR|apply HK]).
      apply Rplus_lt_le_compat; [exact IH|]. apply Rmult_le_compat_l; lra. }
  specialize (LT (PowerMG_Model.M g) ltac:(lia)). set (i1 := isum g (PowerMG_Model.K g) x (PowerMG_Model.M g)) in *. set (i2 := sum_n_m _ _ _) in *. set (ws := PowerMG_Props.wsum g N x (PowerMG_Model.M g)) in *.
  pose proof (exp_pos (PowerMG_Model.G0 g * x)) as EP. set (e := exp (PowerMG_Model.G0 g * x)) in *. set (c := 2 * PowerMG_Model.Cv0 g * PowerMG_Model.rho0 g).
  assert (Hc : 0 < c) by (unfold c; apply Rmult_lt_0_compat; lra). clearbody c.
  apply Rplus_lt_compat_l. apply Rlt_le_trans with (PowerMG_Model.K g 0%nat / c * (e * i2)); [|apply Req_le; field; lra].
  apply Rmult_lt_compat_l; [apply Rdiv_lt_0_compat; assumption|]. apply Rle_lt_trans with (1 := W). apply Rmult_lt_compat_l; assumption.
Qed.

(** ** Davis reactants *)
Lemma sum13 (f : nat -> R) : sum_n_m f 1 3 = f 1%nat + f 2%nat + f 3%nat.
Proof. rewrite (sum_n_Sm f 1 2), (sum_n_Sm f 1 1) by lia. rewrite sum_n_n. reflexivity. Qed.
Section DAVIS.
Variable g : DavisReactants_Model.reactants.
Hypothesis HA : DavisReactants_Props.admissible g.
Notation r0 := (DavisReactants_Model.rho0 g).
Notation docP := (davisr_P_S (DavisReactants_Model.P0 g) (DavisReactants_Model.A g) (DavisReactants_Model.B g) (DavisReactants_Model.C g) r0).
Lemma davis_facts : tiny < r0 /\ tiny <= 4 * DavisReactants_Model.B g /\ DavisReactants_Model.spvol0 g = 1 / r0 /\ DavisReactants_Model.i1pa g = 1 / (1 + DavisReactants_Model.alpha g) /\
  DavisReactants_Model.A2oB g = DavisReactants_Model.A g ^ 2 / DavisReactants_Model.B g /\ 0 <= DavisReactants_Model.alpha g /\ 0 < DavisReactants_Model.Cv0 g /\ 0 < DavisReactants_Model.T0 g.
Proof.
  destruct HA as ((a1 & a2 & a3 & a4 & a5 & a6 & a7 & a8 & a9 & a10 & a11 & a12 & a13 & E) & H1 & H2 & H3 & H4 & H5). pose proof tiny_pos as Ht. clear HA.
  refine (conj H1 (conj H2 (conj _ (conj _ (conj _ (conj H3 (conj H4 H5))))))); rewrite E in *; cbn in *; try reflexivity. field. lra.
Qed.
Lemma doc_PsH r : r0 <= r -> docP r = DavisReactants_Props.PsH g r + DavisReactants_Model.P0 g.
Proof.
  intros Hr. destruct davis_facts as (F1 & F2 & F3 & F4 & F5 & _). pose proof tiny_pos as Ht. unfold davisr_P_S, DavisReactants_Props.PsH, compression. cbv zeta. destruct (Rlt_dec r r0) as [|_]; [lra|].
  rewrite sum13, F5. change (INR (fact 1)) with 1. replace (INR (fact 2)) with 2 by (cbn; ring). replace (INR (fact 3)) with 6 by (cbn; ring). replace (INR (fact 4)) with 24 by (cbn; ring).
  replace (1 - (1 - r0 / r)) with (r0 / r) by ring. assert (0 < r0 / r) by (apply Rdiv_lt_0_compat; lra). set (w := r0 / r) in *. clearbody w. field. lra.
Qed.
Lemma doc_PsL r : r < r0 -> docP r = DavisReactants_Props.PsL g r + DavisReactants_Model.P0 g.
Proof.
  intros Hr. destruct davis_facts as (F1 & F2 & F3 & F4 & F5 & _). pose proof tiny_pos as Ht. unfold davisr_P_S, DavisReactants_Props.PsL, compression. cbv zeta. destruct (Rlt_dec r r0) as [_|]; [|lra].
  rewrite F5. set (E := exp _). field. lra.
Qed.
Lemma doc_Es rho : tiny < rho -> DavisReactants_Model.Es g rho = davisr_e_S (DavisReactants_Model.e0 g) (DavisReactants_Model.P0 g) (DavisReactants_Model.A g) (DavisReactants_Model.B g) (DavisReactants_Model.C g) r0 rho.
Proof.
  intros Hr. destruct davis_facts as (F1 & F2 & F3 & F4 & F5 & _). pose proof tiny_pos as Ht. rewrite DavisReactants_Props.Es_eq by assumption. unfold davisr_e_S.
  destruct (Rle_bool_spec rho r0) as [L|L].
  - assert (E : RInt (fun r => docP r / r ^ 2) r0 rho = DavisReactants_Props.EsL g rho - DavisReactants_Props.EsL g r0).
    { apply is_RInt_unique. apply (is_RInt_ext (fun r => (DavisReactants_Props.PsL g r + DavisReactants_Model.P0 g) / r ^ 2)).
      - intros z. rewrite Rmin_right, Rmax_left by lra. intros Hz. rewrite doc_PsL by lra. reflexivity.
      - apply (is_RInt_derive (V := R_CompleteNormedModule) (DavisReactants_Props.EsL g)); intros z; rewrite Rmin_right, Rmax_left by lra; intros Hz.
        + apply DavisReactants_Props.EsL_derive; try assumption; lra.
        + apply (ex_derive_continuous (V := R_NormedModule)). unfold DavisReactants_Props.PsL. auto_derive. repeat split; try lra. apply Rmult_integral_contrapositive_currified; lra. }
    rewrite E. unfold DavisReactants_Props.EsL at 3. replace (r0 / r0) with 1 by (field; lra). replace (1 - 1) with 0 by ring. rewrite Rmult_0_r, exp_0. unfold Rdiv. ring.
  - assert (E : RInt (fun r => docP r / r ^ 2) r0 rho = DavisReactants_Props.EsH g rho - DavisReactants_Props.EsH g r0).
    { apply is_RInt_unique. apply (is_RInt_ext (fun r => (DavisReactants_Props.PsH g r + DavisReactants_Model.P0 g) / r ^ 2)).
      - intros z. rewrite Rmin_left, Rmax_right by lra. intros Hz. rewrite doc_PsH by lra. reflexivity.
      - apply (is_RInt_derive (V := R_CompleteNormedModule) (DavisReactants_Props.EsH g)); intros z; rewrite Rmin_left, Rmax_right by lra; intros Hz.
        + apply DavisReactants_Props.EsH_derive; try assumption; lra.
        + apply (ex_derive_continuous (V := R_NormedModule)). unfold DavisReactants_Props.PsH. auto_derive. assert (0 < r0 * / z) by (apply Rdiv_lt_0_compat; lra).
          set (w := r0 * / z) in *. clearbody w. repeat split; try lra; repeat apply Rmult_integral_contrapositive_currified; lra. }
    rewrite E. unfold DavisReactants_Props.EsH at 3. replace (r0 / r0) with 1 by (field; lra). replace (1 - 1) with 0 by ring. unfold Rdiv. ring.
Qed.
End DAVIS.
(** Gamma and e_S at every density; temperatures, energies and the specific heat in compression, where the coded T_S is the documented one (C59 treats expansion);
    the coded pressure is the documented one minus P_0 (C59) *)
Theorem C82_davis_reactants : forall g rho, DavisReactants_Props.admissible g -> DavisReactants_Props.ok_rho g rho ->
  let r0 := DavisReactants_Model.rho0 g in let P0 := DavisReactants_Model.P0 g in let al := DavisReactants_Model.alpha g in let Cv0 := DavisReactants_Model.Cv0 g in
  let Gamma := davisr_Gamma (DavisReactants_Model.G0 g) (DavisReactants_Model.Z g) r0 rho in
  let P_S := davisr_P_S P0 (DavisReactants_Model.A g) (DavisReactants_Model.B g) (DavisReactants_Model.C g) r0 rho in
  let e_S := davisr_e_S (DavisReactants_Model.e0 g) P0 (DavisReactants_Model.A g) (DavisReactants_Model.B g) (DavisReactants_Model.C g) r0 rho in
  let T_S := davisr_T_S (DavisReactants_Model.T0 g) (DavisReactants_Model.G0 g) (DavisReactants_Model.Z g) r0 rho in
  (forall x, DavisReactants_Model.GruneisenParamFromDensityInternalEnergy g rho x = Gamma) /\
  (forall e, DavisReactants_Model.PressureFromDensityInternalEnergy g rho e + P0 = mie_gruneisen P_S e_S Gamma rho e) /\
  (r0 <= rho -> forall T, 0 < T -> DavisReactants_Model.InternalEnergyFromDensityTemperature g rho T = davisr_e e_S T_S Cv0 al T) /\
  (r0 <= rho -> 0 < al -> forall T, 0 < T -> tiny <= Rpower (T / T_S) (- al) ->
     DavisReactants_Model.SpecificHeatFromDensityTemperature g rho T = davisr_Cv Cv0 al (davisr_S Cv0 al T_S T) (davisr_S Cv0 al T_S T_S)).
Proof.
  intros g rho HA Hr. cbv zeta. destruct (davis_facts g HA) as (F1 & F2 & F3 & F4 & F5 & F6 & F7 & F8). pose proof tiny_pos as Ht. assert (Hr' := Hr). destruct Hr' as (R1 & R2 & R3 & R4 & R5).
  assert (EG : DavisReactants_Model.Gamma g rho = davisr_Gamma (DavisReactants_Model.G0 g) (DavisReactants_Model.Z g) (DavisReactants_Model.rho0 g) rho).
  { rewrite DavisReactants_Props.Gamma_eq by assumption. unfold davisr_Gamma, compression. destruct (Rle_bool_spec (DavisReactants_Model.rho0 g) rho), (Rlt_dec rho (DavisReactants_Model.rho0 g)); try lra; ring. }
  assert (EPs : DavisReactants_Model.Ps g rho + DavisReactants_Model.P0 g = davisr_P_S (DavisReactants_Model.P0 g) (DavisReactants_Model.A g) (DavisReactants_Model.B g) (DavisReactants_Model.C g) (DavisReactants_Model.rho0 g) rho).
  { rewrite DavisReactants_Props.Ps_eq by assumption. destruct (Rle_bool_spec (DavisReactants_Model.rho0 g) rho) as [L|L]; [rewrite doc_PsH by assumption|rewrite doc_PsL by assumption]; reflexivity. }
  assert (EE := doc_Es g HA rho R1).
  assert (ET : DavisReactants_Model.rho0 g <= rho -> DavisReactants_Model.Ts g rho = davisr_T_S (DavisReactants_Model.T0 g) (DavisReactants_Model.G0 g) (DavisReactants_Model.Z g) (DavisReactants_Model.rho0 g) rho).
  { intros L. rewrite DavisReactants_Props.Ts_eq by assumption. unfold DavisReactants_Props.Tc, davisr_T_S, compression. destruct (Rlt_dec rho (DavisReactants_Model.rho0 g)) as [|_]; [lra|].
    f_equal. unfold Rpower. f_equal. replace (DavisReactants_Model.rho0 g / rho) with (/ (rho / DavisReactants_Model.rho0 g)) by (field; lra). rewrite ln_Rinv by (apply Rdiv_lt_0_compat; lra). ring. }
  refine (conj _ (conj _ (conj _ _))).
  - intros x. exact EG.
  - intros e. unfold DavisReactants_Model.PressureFromDensityInternalEnergy, mie_gruneisen. rewrite <- EPs, <- EE, EG. ring.
  - intros L T HT. specialize (ET L). rewrite <- ET, <- EE. rewrite DavisReactants_Props.E_T_eq by assumption. rewrite DavisReactants_Props.cpow_pos by (apply Rdiv_lt_0_compat; lra). reflexivity.
  - intros L Hal T HT Hd. specialize (ET L). rewrite <- ET in *. unfold DavisReactants_Model.SpecificHeatFromDensityTemperature, DavisReactants_Model.SpecificHeatFromDensityInternalEnergy. cbv zeta.
    assert (Hq : 0 < T / DavisReactants_Model.Ts g rho) by (apply Rdiv_lt_0_compat; lra).
    rewrite DavisReactants_Props.DE_eq by assumption. rewrite !DavisReactants_Props.cpow_pos by (try apply exp_pos; exact Hq). rewrite Rle_bool_false by apply exp_pos.
    rewrite Rpower_mult.
    replace ((1 + DavisReactants_Model.alpha g) * (- DavisReactants_Model.alpha g * DavisReactants_Model.i1pa g)) with (- DavisReactants_Model.alpha g) by (rewrite F4; field; lra).
    rewrite ratio_pos by exact Hd. rewrite Rpower_Ropp. unfold davisr_Cv, davisr_S. replace (DavisReactants_Model.Ts g rho / DavisReactants_Model.Ts g rho) with 1 by (field; lra).
    assert (E1 : Rpower 1 (DavisReactants_Model.alpha g) = 1) by (unfold Rpower; rewrite ln_1, Rmult_0_r; apply exp_0). rewrite E1.
    pose proof (exp_pos (DavisReactants_Model.alpha g * ln (T / DavisReactants_Model.Ts g rho))) as EPo. fold (Rpower (T / DavisReactants_Model.Ts g rho) (DavisReactants_Model.alpha g)) in EPo.
    set (w := Rpower _ _) in *. clearbody w. field. lra.
Qed.

(** ** the hypotheses are met (see also C23_instance, C25_mgusup_instance, C25_powermg_instance, C24_reactants_instance) *)
Lemma tiny_6 : tiny < 1 / 1000000.
Proof. unfold tiny. eapply Rlt_le_trans; [apply (bpow_lt radix2 (-960) (-20)); lia|]. cbn. lra. Qed.
Example C82_usup_nonvacuous : exists g slope, MGUsup_Props.admissible g /\ MGUsup_Props.ok_rho g 3 /\ MGUsup_Model.rho0 g < 3 /\
  1 / 10 ^ 8 <= compression (MGUsup_Model.rho0 g) 3 ^ 2 /\ tiny <= (MGUsup_Model.G0 g * compression (MGUsup_Model.rho0 g) 3) ^ 2 /\
  is_hugoniot_slope (usup_P_eta (MGUsup_Model.Cs g) (MGUsup_Model.s g) (MGUsup_Model.rho0 g)) slope (compression (MGUsup_Model.rho0 g) 3).
Proof.
  pose proof tiny_6 as H. pose proof tiny_pos as H0. exists (MGUsup_Model.mkM 2 300 5 1 2 1 0 0 1 1), (fun z => 5 ^ 2 * 2 * (2 / (1 - 1 * z) ^ 3)).
  unfold MGUsup_Props.admissible, MGUsup_Props.ok_rho, compression. cbn [MGUsup_Model.rho0 MGUsup_Model.T0 MGUsup_Model.Cs MGUsup_Model.s MGUsup_Model.G0 MGUsup_Model.Cv0]. cbv zeta.
  replace (1 - 2 / 3) with (1 / 3) by field. refine (conj _ (conj _ (conj _ (conj _ (conj _ _))))); [repeat split; lra|repeat split; lra|lra|lra|lra|].
  intros z Hz. unfold usup_P_eta. auto_derive.
  - repeat split; try lra. apply Rmult_integral_contrapositive_currified; lra.
  - field. lra.
Qed.
Example C82_power_mg_nonvacuous : exists g slope, PowerMG_Model.make 2 300 2 1 0 0 (- (1)) (fun i => if Nat.eqb i 0 then 4 else if Nat.eqb i 1 then 3 else 0) 1 1 = Some g /\
  PowerMG_Props.admissible g /\ (1 <= PowerMG_Model.M g <= 40)%nat /\ tiny < compression (PowerMG_Model.rho0 g) 3 /\ 0 <= PowerMG_Model.G0 g <= 20 /\ (forall n, 0 <= PowerMG_Model.K g n) /\ 0 < PowerMG_Model.K g 1%nat /\
  is_hugoniot_slope (power_P_comp (PowerMG_Model.M g) (PowerMG_Model.K g)) slope (compression (PowerMG_Model.rho0 g) 3).
Proof.
  destruct PowerMG_Props.C25_powermg_instance as (g & E & A & M1 & _ & T & _). exists g, (fun _ => 12). split; [exact E|]. split; [exact A|]. split; [lia|]. split; [exact T|].
  destruct (PowerMG_Props.C25_powermg_constructor _ _ _ _ _ _ _ _ _ _ _ E) as (_ & _ & EG & _ & _ & _ & EK & _). rewrite EG. split; [lra|]. split; [|split].
  - intros n. rewrite EK. destruct (Nat.eqb n 0), (Nat.eqb n 1); lra.
  - rewrite EK. cbn. lra.
  - rewrite M1. intros z Hz. unfold power_P_comp. apply (is_derive_ext_loc (fun y => 4 * (1 + 3 * y))).
    + apply (filter_imp (fun y => 0 < y)); [|apply loc_gt; lra]. intros y Hy. rewrite sum_n_n, !EK. cbn [Nat.eqb]. match goal with |- @eq _ ?u ?v => change (@eq R u v) end. field. lra.
    + auto_derive; [exact I|ring].
Qed.
Print Assumptions C82_vinet.
Print Assumptions C82_usup_hugoniot_temperature.
Print Assumptions C82_usup.
Print Assumptions C82_power_mg.
Print Assumptions C82_power_mg_hugoniot_temperature.
Print Assumptions C83_power_mg_temperature_index_refuted.
Print Assumptions C82_davis_reactants.
