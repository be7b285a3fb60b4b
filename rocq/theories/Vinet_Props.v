(** C23: Vinet equation of state *)
From Coq Require Import Reals Bool Lra Lia List Arith Psatz.
From Flocq Require Import Core.
From Coquelicot Require Import Coquelicot.
From Verif Require Import Robust_Model Robust_Proofs Thermo_Spec Thermo_Tools Vinet_Model.
Local Open Scope R_scope.

(** ** specification: power sums and the documented reference isotherm (doc/sphinx/src/models.rst, "Vinet EOS") *)
(** sum over k < n of a(k) h^k *)
Fixpoint psum (a : nat -> R) (h : R) (n : nat) : R := match n with O => 0 | S m => psum a h m + a m * h ^ m end.
(** P_ref(X) = 3 B0/X^2 (1-X) exp(eta0 (1-X)) (1 + sum_{n=2}^{N+1} d_n (1-X)^n),  eta0 = 3/2 (B0'-1), X = (rho0/rho)^(1/3) *)
Definition P_isotherm (N : nat) (d : nat -> R) (B0 BP0 X : R) : R :=
  3 * B0 / X ^ 2 * (1 - X) * exp (3 / 2 * (BP0 - 1) * (1 - X)) * (1 + psum (fun k => if Nat.leb 2 k then d (k - 2)%nat else 0) (1 - X) (N + 2)).

(** ** loops *)
Lemma psum_shift a h n : psum a h (S n) = a 0%nat + h * psum (fun k => a (S k)) h n.
Proof. induction n as [|n IH]; [cbn; ring|]. change (psum a h (S (S n))) with (psum a h (S n) + a (S n) * h ^ S n). rewrite IH. cbn. ring. Qed.
Lemma psum_ext a b h n : (forall k, (k < n)%nat -> a k = b k) -> psum a h n = psum b h n.
Proof. induction n as [|n IH]; intros H; [reflexivity|]. cbn. rewrite IH by (intros; apply H; lia). rewrite (H n) by lia. reflexivity. Qed.
Lemma horner a h c lo s : downto c lo (fun ind z => a ind + h * z) s = psum (fun k => a (lo + k)%nat) h c + h ^ c * s.
Proof. revert s. induction c as [|c IH]; intros s; cbn; [ring|]. rewrite IH. ring. Qed.
Lemma psum_derive a h n : is_derive (fun z => psum a z n) h (psum (fun k => INR (S k) * a (S k)) h (n - 1)).
Proof.
  induction n as [|n IH]; cbn [psum].
  - apply (is_derive_const (K := R_AbsRing) (V := R_NormedModule)).
  - replace (S n - 1)%nat with n by lia. destruct n as [|n].
    + cbn. auto_derive; [exact I|ring].
    + replace (S n - 1)%nat with n in IH by lia.
      apply (is_derive_eq _ _ (psum (fun k => INR (S k) * a (S k)) h n + a (S n) * (INR (S n) * h ^ n))); [|cbn [psum]; ring].
      apply (is_derive_plus (V := R_NormedModule) (fun z => psum a z (S n)) (fun z => a (S n) * z ^ S n)); [exact IH|].
      apply (is_derive_eq _ _ (a (S n) * (INR (S n) * 1 * h ^ n))); [|ring].
      apply is_derive_scal. apply (is_derive_pow (fun z => z) (S n) h 1). apply (is_derive_id (K := R_AbsRing)).
Qed.
(** the energy coefficients *)
Lemma init_inv N r0 t0 b0 bp0 a0 cv0 d2 : 3 / 2 * (bp0 - 1) <> 0 ->
  let V := InitializeVIP N r0 t0 b0 bp0 a0 cv0 d2 in
  let dd := fun ind : nat => match ind with 2%nat => 1 | 3%nat => 0 | _ => d2 (ind - 4)%nat end in
  V 0%nat = ratio b0 r0 + ratio (a0 * a0 * b0 * b0 * t0) (r0 * r0 * cv0) /\ V 1%nat = 3 / 2 * (bp0 - 1) /\ V (N + 3)%nat = dd (N + 3)%nat /\
  forall ind, (2 <= ind <= N + 2)%nat -> V ind = dd ind - INR ind / (3 / 2 * (bp0 - 1)) * V (ind + 1)%nat.
Proof.
  intros He. cbv zeta. unfold InitializeVIP. cbv zeta.
  set (init := fun ind : nat => match ind with 0%nat => _ | _ => _ end).
  set (dd := fun ind : nat => match ind with 2%nat => 1 | 3%nat => 0 | _ => d2 (ind - 4)%nat end).
  set (eta := 3 / 2 * (bp0 - 1)) in *.
  set (body := fun (ind : nat) (V : nat -> R) => _).
  assert (G : forall c V, (forall i, (i < 2 + c)%nat -> V i = init i) ->
     let W := downto c 2 body V in
     W 0%nat = init 0%nat /\ W 1%nat = eta /\ (forall i, (2 + c <= i)%nat -> W i = V i) /\
     forall i, (2 <= i < 2 + c)%nat -> W i = dd i - INR i / eta * W (i + 1)%nat).
  { intros c. induction c as [|c IH]; intros V HV; cbv zeta; cbn [downto].
    - refine (conj _ (conj _ (conj _ _))); [apply HV; lia|apply (HV 1%nat); lia|auto|intros; lia].
    - destruct (IH (body (2 + c)%nat V)) as (W0 & W1 & W2 & W3).
      { intros i Hi. unfold body, store. destruct (Nat.eqb_spec i (2 + c)); [lia|]. apply HV. lia. }
      refine (conj W0 (conj W1 (conj _ _))).
      + intros i Hi. rewrite W2 by lia. unfold body, store. destruct (Nat.eqb_spec i (2 + c)); [lia|reflexivity].
      + intros i Hi. destruct (Nat.eq_dec i (2 + c)) as [->|Hn]; [|apply W3; lia].
        rewrite (W2 (2 + c)%nat) by lia. rewrite (W2 (2 + c + 1)%nat) by lia. unfold body, store. rewrite Nat.eqb_refl.
        destruct (Nat.eqb_spec (2 + c + 1) (2 + c)); [lia|]. rewrite (HV 1%nat) by lia. rewrite (HV (2 + c)%nat) by lia.
        change (init 1%nat) with eta. reflexivity. }
  destruct (G (N + 1)%nat init ltac:(auto)) as (W0 & W1 & W2 & W3). refine (conj W0 (conj W1 (conj _ _))).
  - rewrite W2 by lia. unfold init, dd. destruct N; [reflexivity|]. replace (S N + 3)%nat with (S (S (S (S N)))) by lia. reflexivity.
  - intros ind Hi. apply W3. lia.
Qed.
(** the identity behind the energy series: eta h S + S + h S' - f0 = eta h sum d_k h^k when f_k = d_k - (k+2)/eta f_(k+1) *)
Lemma series_id (eta h : R) (f dd : nat -> R) (K : nat) : eta <> 0 -> (forall k, (k < K)%nat -> f k = dd k - INR (k + 2) / eta * f (S k)) -> f K = dd K ->
  eta * h * psum f h (S K) + psum f h (S K) + h * psum (fun k => INR (S k) * f (S k)) h K - f 0%nat = eta * h * psum dd h (S K).
Proof.
  intros He Hf HK.
  assert (G : forall n, (n <= K)%nat ->
    eta * h * psum f h (S n) + psum f h (S n) + h * psum (fun k => INR (S k) * f (S k)) h n - f 0%nat = eta * h * psum dd h n + eta * f n * h ^ S n).
  { induction n as [|n IH]; intros Hn; [cbn; ring|].
    specialize (IH ltac:(lia)). 
    change (psum f h (S (S n))) with (psum f h (S n) + f (S n) * h ^ S n).
    change (psum dd h (S n)) with (psum dd h n + dd n * h ^ n).
    change (psum (fun k => INR (S k) * f (S k)) h (S n)) with (psum (fun k => INR (S k) * f (S k)) h n + INR (S n) * f (S n) * h ^ n).
    assert (E : eta * dd n = eta * f n + INR (n + 2) * f (S n)). { rewrite (Hf n) by lia. field. exact He. }
    rewrite plus_INR in E. change (INR 2) with (1 + 1) in E. rewrite (S_INR n).
    transitivity ((eta * h * psum f h (S n) + psum f h (S n) + h * psum (fun k => INR (S k) * f (S k)) h n - f 0%nat) +
       (eta * h * (f (S n) * h ^ S n) + f (S n) * h ^ S n + h * ((INR n + 1) * f (S n) * h ^ n))); [ring|].
    rewrite IH.
    replace (eta * h * (psum dd h n + dd n * h ^ n)) with (eta * h * psum dd h n + (eta * dd n) * h ^ S n) by (cbn; ring).
    rewrite E. cbn. ring. }
  rewrite G by lia. rewrite HK. cbn. ring.
Qed.

(** ** the constructed object *)
(** [vinet_ok N g]: parameters for which the model is meaningful, and g is what the constructor builds *)
Definition vinet_ok (N : nat) (g : vinet) : Prop :=
  (exists r0 t0 b0 bp0 a0 cv0 e0 s0 d2 A Z, make N r0 t0 b0 bp0 a0 cv0 e0 s0 d2 A Z = Some g) /\
  tiny < rho0 g /\ 1 < BP0 g /\ tiny < Cv0 g /\ tiny <= (3 / 2 * (BP0 g - 1)) * (3 / 2 * (BP0 g - 1)) * rho0 g.
(** densities whose derived quantities are not denormal-like *)
Definition X (g : vinet) (rho : R) : R := exp (ln (rho0 g / rho) / 3).
Definition ok_rho (g : vinet) (rho : R) : Prop :=
  tiny < rho /\ tiny < X g rho * X g rho /\ tiny < rho * rho /\ tiny < rho * rho * Cv0 g /\ tiny < Cv0 g * rho.

(** d0 = 1, d1 = 0, d_k *)
Definition dkg (g : vinet) (k : nat) : R := match k with 0%nat => 1 | 1%nat => 0 | _ => d g (k - 2)%nat end.
Section V.
Variable N : nat.
Variable g : vinet.
Hypothesis OK : vinet_ok N g.
Notation eta := (3 / 2 * (BP0 g - 1)).
Notation E_T := (InternalEnergyFromDensityTemperature N g).
Notation P_T := (PressureFromDensityTemperature N g).
Notation S_T := (EntropyFromDensityTemperature N g).
Notation T_e := (TemperatureFromDensityInternalEnergy N g).
Notation P_e := (PressureFromDensityInternalEnergy N g).
Notation S_e := (EntropyFromDensityInternalEnergy N g).
Notation B_e := (BulkModulusFromDensityInternalEnergy N g).
Notation B_T := (BulkModulusFromDensityTemperature N g).

Lemma r0_pos : 0 < rho0 g. Proof. destruct OK as (_ & H & _). pose proof tiny_pos. lra. Qed.
Lemma eta_pos : 0 < eta. Proof. destruct OK as (_ & _ & H & _). lra. Qed.
Lemma cv_pos : 0 < Cv0 g. Proof. destruct OK as (_ & _ & _ & H & _). pose proof tiny_pos. lra. Qed.
Lemma vip1 : VIP g 1%nat = eta.
Proof.
  destruct OK as ((r0 & t0 & b0 & bp0 & a0 & cv0 & e0 & s0 & d2 & A & Z & H) & _ & Hb & _). unfold make in H.
  destruct (CheckParams _); [|discriminate]. injection H as <-. cbn [VIP BP0] in *.
  destruct (init_inv N r0 t0 b0 bp0 a0 cv0 d2 ltac:(lra)) as (_ & E & _). exact E.
Qed.
Lemma vip0 : VIP g 0%nat = ratio (B0 g) (rho0 g) + ratio (A0 g * A0 g * B0 g * B0 g * T0 g) (rho0 g * rho0 g * Cv0 g).
Proof.
  destruct OK as ((r0 & t0 & b0 & bp0 & a0 & cv0 & e0 & s0 & d2 & A & Z & H) & _ & Hb & _). unfold make in H.
  destruct (CheckParams _); [|discriminate]. injection H as <-. cbn [VIP BP0 B0 rho0 A0 T0 Cv0] in *.
  destruct (init_inv N r0 t0 b0 bp0 a0 cv0 d2 ltac:(lra)) as (E & _). exact E.
Qed.
Notation dk := (dkg g).
Lemma vipf : VIP g (N + 3)%nat = dk (N + 1) /\ forall k, (k < N + 1)%nat -> VIP g (2 + k)%nat = dk k - INR (k + 2) / eta * VIP g (2 + S k)%nat.
Proof.
  destruct OK as ((r0 & t0 & b0 & bp0 & a0 & cv0 & e0 & s0 & d2 & A & Z & H) & _ & Hb & _). unfold make in H.
  destruct (CheckParams _); [|discriminate]. injection H as <-. cbn [VIP BP0 d] in *. unfold dkg. cbn [d].
  destruct (init_inv N r0 t0 b0 bp0 a0 cv0 d2 ltac:(lra)) as (_ & _ & E2 & E3). split.
  - rewrite E2. clear. destruct N as [|n]; [reflexivity|]. replace (S n + 3)%nat with (S (S (S (S n)))) by lia. replace (S n + 1)%nat with (S (S n)) by lia. cbv iota beta. f_equal.
  - intros k Hk. rewrite E3 by lia. replace (2 + k + 1)%nat with (2 + S k)%nat by lia. replace (k + 2)%nat with (2 + k)%nat by lia. reflexivity.
Qed.
(** *** closed forms *)
Definition Dh h := psum dk h (N + 2).
Definition Fh h := psum (fun k => VIP g (2 + k)%nat) h (N + 2).
Definition Er rho : R := let h := 1 - X g rho in
  9 * B0 g / (eta * eta * rho0 g) * (VIP g 2%nat - exp (eta * h) * (VIP g 2%nat - eta * h * Fh h)) - A0 g * B0 g * (T0 g / rho0 g - T0 g / rho).
Definition Pr rho : R := let h := 1 - X g rho in 3 * B0 g / (X g rho * X g rho) * h * exp (eta * h) * Dh h.
Definition dPr rho : R := let h := 1 - X g rho in
  B0 g / rho0 g * X g rho * exp (eta * h) * ((1 + h * (eta * X g rho + 1)) * Dh h + X g rho * h * psum (fun k => INR (S k) * dk (S k)) h (N + 1)).
Lemma X_pos rho : 0 < X g rho. Proof. apply exp_pos. Qed.
Lemma X_cbrt rho : 0 < rho -> cbrt (rho0 g / rho) = X g rho.
Proof. intros H. unfold cbrt, X. rewrite Rlt_bool_true; [reflexivity|]. apply Rdiv_lt_0_compat; [apply r0_pos|exact H]. Qed.
Lemma X3 rho : 0 < rho -> X g rho ^ 3 = rho0 g / rho.
Proof.
  intros H. unfold X. assert (0 < rho0 g / rho) by (apply Rdiv_lt_0_compat; [apply r0_pos|exact H]).
  replace (exp (ln (rho0 g / rho) / 3) ^ 3) with (exp (ln (rho0 g / rho) / 3 + (ln (rho0 g / rho) / 3 + ln (rho0 g / rho) / 3))) by (rewrite !exp_plus; ring).
  replace (ln (rho0 g / rho) / 3 + (ln (rho0 g / rho) / 3 + ln (rho0 g / rho) / 3)) with (ln (rho0 g / rho)) by field. apply exp_ln. assumption.
Qed.
Lemma X_derive rho : 0 < rho -> is_derive (X g) rho (- X g rho / (3 * rho)).
Proof.
  intros H. pose proof r0_pos. unfold X. auto_derive.
  - split; [lra|]. split; [|exact I]. apply Rdiv_lt_0_compat; lra.
  - unfold Rdiv. set (K := exp (ln (rho0 g * / rho) * / 3)). field. lra.
Qed.
Lemma sumP_eq h : 1 + downto N 2 (fun ind s => d g (ind - 2)%nat + h * s) 0 * (h * h) = Dh h.
Proof.
  rewrite (horner (fun ind => d g (ind - 2)%nat)). unfold Dh. replace (N + 2)%nat with (S (S N)) by lia. rewrite !psum_shift. change (dk 0%nat) with 1. change (dk 1%nat) with 0.
  change (psum (fun k => dk (S (S k))) h N) with (psum (fun k => d g (2 + k - 2)%nat) h N). ring.
Qed.
Lemma sumB_eq h : downto N 2 (fun ind s => d g (ind - 2)%nat * INR ind + h * s) 0 * h = psum (fun k => INR (S k) * dk (S k)) h (N + 1).
Proof.
  rewrite (horner (fun ind => d g (ind - 2)%nat * INR ind)). replace (N + 1)%nat with (S N) by lia. rewrite psum_shift. change (dk 1%nat) with 0.
  rewrite (psum_ext (fun k => d g (2 + k - 2)%nat * INR (2 + k)) (fun k => INR (S (S k)) * dk (S (S k)))); [ring|].
  intros k _. change (dk (S (S k))) with (d g (2 + k - 2)%nat). change (S (S k)) with (2 + k)%nat. ring.
Qed.
Lemma sumE_eq h : downto 2 0 (fun ind s => VIP g (2 + ind)%nat + h * s) (downto N 2 (fun ind s => VIP g (2 + ind)%nat + h * s) 0) = Fh h.
Proof.
  rewrite !(horner (fun ind => VIP g (2 + ind)%nat)). unfold Fh. replace (N + 2)%nat with (S (S N)) by lia. rewrite !psum_shift.
  change (psum (fun k => VIP g (2 + S (S k))%nat) h N) with (psum (fun k => VIP g (2 + (2 + k))%nat) h N). cbn [psum pow]. cbn [Nat.add]. ring.
Qed.
Lemma F_eq rho T : ok_rho g rho ->
  o_energy (Vinet_F_DT_func N g rho T) = Er rho + Cv0 g * (T - T0 g) + E0 g /\
  o_pressure (Vinet_F_DT_func N g rho T) = Pr rho + A0 g * B0 g * (T - T0 g) /\
  o_dpdrho (Vinet_F_DT_func N g rho T) = dPr rho.
Proof.
  intros (H1 & H2 & H3 & H4 & H5). pose proof tiny_pos. pose proof r0_pos. assert (O := OK). destruct O as (_ & O1 & O2 & O3 & O4).
  unfold Vinet_F_DT_func. cbv zeta. cbn [o_energy o_pressure o_dpdrho].
  rewrite (ratio_pos (rho0 g) rho) by lra. rewrite X_cbrt by lra. rewrite (ratio_pos 1 (X g rho * X g rho)) by lra.
  rewrite sumE_eq, sumP_eq, sumB_eq. rewrite vip1.
  rewrite (ratio_pos _ (_ * _ * rho0 g)) by lra. rewrite (ratio_pos _ (rho0 g)), (ratio_pos _ rho), (ratio_pos (B0 g) (rho0 g)) by lra.
  unfold Er, Pr, dPr. cbv zeta. refine (conj _ (conj _ _)); unfold Rdiv; ring.
Qed.
Lemma E_T_eq rho T : ok_rho g rho -> E_T rho T = Er rho + Cv0 g * (T - T0 g) + E0 g.
Proof. intros H. apply F_eq. exact H. Qed.
Lemma P_T_eq rho T : ok_rho g rho -> P_T rho T = Pr rho + A0 g * B0 g * (T - T0 g).
Proof. intros H. apply F_eq. exact H. Qed.
Lemma T_e_eq rho e : ok_rho g rho -> T_e rho e = (e - Er rho - E0 g) / Cv0 g + T0 g.
Proof.
  intros H. unfold TemperatureFromDensityInternalEnergy. destruct (F_eq rho (T0 g) H) as (-> & _). assert (O := OK). destruct O as (_ & _ & _ & O3 & _).
  rewrite ratio_pos by lra. f_equal. f_equal. ring.
Qed.
(** *** derivatives *)
Lemma DF_id h : eta * h * Fh h + Fh h + h * psum (fun k => INR (S k) * VIP g (2 + S k)%nat) h (N + 1) - VIP g 2%nat = eta * h * Dh h.
Proof.
  unfold Fh, Dh. replace (N + 2)%nat with (S (N + 1)) by lia. destruct vipf as (V1 & V2).
  apply (series_id eta h (fun k => VIP g (2 + k)%nat) dk (N + 1)).
  - pose proof eta_pos. lra.
  - exact V2.
  - replace (2 + (N + 1))%nat with (N + 3)%nat by lia. exact V1.
Qed.
Lemma Er_derive rho : ok_rho g rho -> is_derive Er rho ((Pr rho - T0 g * (A0 g * B0 g)) / (rho * rho)).
Proof.
  intros (H1 & H2 & _). pose proof tiny_pos. pose proof r0_pos as Hr0. pose proof eta_pos as He.
  assert (Hr : 0 < rho) by lra. pose proof (X_derive rho Hr) as DX. pose proof (X3 rho Hr) as HX3. pose proof (X_pos rho) as HX.
  set (G := fun z => 9 * B0 g / (eta * eta * rho0 g) * (VIP g 2%nat - exp (eta * (1 - z)) * (VIP g 2%nat - eta * (1 - z) * Fh (1 - z)))).
  assert (DG : is_derive G (X g rho) (- (9 * B0 g / rho0 g) * (1 - X g rho) * exp (eta * (1 - X g rho)) * Dh (1 - X g rho))).
  { set (x := X g rho) in *. set (S' := psum (fun k => INR (S k) * VIP g (2 + S k)%nat) (1 - x) (N + 1)).
    assert (DF : is_derive Fh (1 - x) S').
    { unfold Fh, S'. replace (N + 1)%nat with (N + 2 - 1)%nat by lia. apply (psum_derive (fun k => VIP g (2 + k)%nat)). }
    pose proof (is_derive_unique _ _ _ DF) as DU.
    unfold G. auto_derive; [repeat split; exists S'; exact DF|].
    change (Derive (fun x0 => Fh x0) (1 + - x)) with (Derive Fh (1 - x)). rewrite DU. change (1 + - x) with (1 - x).
    pose proof (DF_id (1 - x)) as ID. fold S' in ID.
    apply Rmult_eq_reg_l with (eta * rho0 g); [|apply Rmult_integral_contrapositive; lra].
    transitivity (9 * B0 g * exp (eta * (1 - x)) * ( - (eta * (1 - x) * Fh (1 - x) + Fh (1 - x) + (1 - x) * S' - VIP g 2%nat))); [field; lra|].
    rewrite ID. field. lra. }
  apply (is_derive_eq _ _ ((- X g rho / (3 * rho)) * (- (9 * B0 g / rho0 g) * (1 - X g rho) * exp (eta * (1 - X g rho)) * Dh (1 - X g rho)) - A0 g * B0 g * (T0 g / rho ^ 2))).
  - unfold Er. cbv zeta.
    apply (is_derive_minus (V := R_NormedModule) (fun r => G (X g r)) (fun r => A0 g * B0 g * (T0 g / rho0 g - T0 g / r))).
    + exact (is_derive_comp G (X g) rho _ _ DG DX).
    + auto_derive; [lra|]. field. lra.
  - unfold Pr. cbv zeta. set (x := X g rho) in *. set (K := (1 - x) * exp (eta * (1 - x)) * Dh (1 - x)).
    assert (E3 : x * rho / rho0 g = / (x * x)). { apply Rmult_eq_reg_l with (x * x); [|apply Rmult_integral_contrapositive; lra].
      rewrite Rinv_r by (apply Rmult_integral_contrapositive; lra). transitivity (x ^ 3 * rho / rho0 g); [field; lra|]. rewrite HX3. field. lra. }
    transitivity ((3 * B0 g * (x * rho / rho0 g) * K - T0 g * (A0 g * B0 g)) / (rho * rho)); [unfold K; field; lra|].
    rewrite E3. unfold K, Rdiv. ring.
Qed.
Lemma Pr_derive rho : ok_rho g rho -> is_derive Pr rho (dPr rho).
Proof.
  intros (H1 & H2 & _). pose proof tiny_pos. pose proof r0_pos as Hr0. pose proof eta_pos as He.
  assert (Hr : 0 < rho) by lra. pose proof (X_derive rho Hr) as DX. pose proof (X3 rho Hr) as HX3. pose proof (X_pos rho) as HX.
  set (G := fun z => 3 * B0 g / (z * z) * (1 - z) * exp (eta * (1 - z)) * Dh (1 - z)).
  set (x := X g rho) in *. set (S' := psum (fun k => INR (S k) * dk (S k)) (1 - x) (N + 1)).
  assert (DF : is_derive Dh (1 - x) S').
  { unfold Dh, S'. replace (N + 1)%nat with (N + 2 - 1)%nat by lia. apply (psum_derive dk). }
  pose proof (is_derive_unique _ _ _ DF) as DU.
  assert (DG : is_derive G x (- (3 * B0 g / (x * x * x)) * exp (eta * (1 - x)) * ((1 + (1 - x) * (eta * x + 1)) * Dh (1 - x) + x * (1 - x) * S'))).
  { unfold G. auto_derive; [split; [apply Rmult_integral_contrapositive; lra|repeat split; exists S'; exact DF]|].
    change (Derive (fun x0 => Dh x0) (1 + - x)) with (Derive Dh (1 - x)). rewrite DU. change (1 + - x) with (1 - x). field. lra. }
  apply (is_derive_eq _ _ ((- x / (3 * rho)) * (- (3 * B0 g / (x * x * x)) * exp (eta * (1 - x)) * ((1 + (1 - x) * (eta * x + 1)) * Dh (1 - x) + x * (1 - x) * S')))).
  - exact (is_derive_comp G (X g) rho _ _ DG DX).
  - unfold dPr. cbv zeta. fold x. fold S'.
    assert (E3 : x * rho / rho0 g = / (x * x)). { apply Rmult_eq_reg_l with (x * x); [|apply Rmult_integral_contrapositive; lra].
      rewrite Rinv_r by (apply Rmult_integral_contrapositive; lra). transitivity (x ^ 3 * rho / rho0 g); [field; lra|]. rewrite HX3. field. lra. }
    transitivity (B0 g / rho * (/ (x * x)) * exp (eta * (1 - x)) * ((1 + (1 - x) * (eta * x + 1)) * Dh (1 - x) + x * (1 - x) * S')); [field; lra|].
    rewrite <- E3. field. lra.
Qed.
Lemma ok_loc rho : ok_rho g rho -> locally rho (fun y => ok_rho g y).
Proof.
  intros (H1 & H2 & H3 & H4 & H5). pose proof tiny_pos. unfold ok_rho.
  apply loc_and; [apply loc_gt, H1|]. apply loc_and.
  { apply (loc_gt_f (fun y => X g y * X g y)); [|exact H2]. pose proof (X_derive rho ltac:(lra)) as DX.
    eapply derive_cont. apply (is_derive_mult (X g) (X g)); [exact DX|exact DX|]. intros; apply Rmult_comm. }
  apply loc_and; [apply (loc_gt_f (fun y => y * y)); [|exact H3]; eapply derive_cont; auto_derive; [exact I|reflexivity]|].
  apply loc_and; [apply (loc_gt_f (fun y => y * y * Cv0 g)); [|exact H4]; eapply derive_cont; auto_derive; [exact I|reflexivity]|].
  apply (loc_gt_f (fun y => Cv0 g * y)); [|exact H5]; eapply derive_cont; auto_derive; [exact I|reflexivity].
Qed.
Lemma dE_drho rho T : ok_rho g rho -> is_derive (fun r => E_T r T) rho ((P_T rho T - T * (A0 g * B0 g)) / (rho * rho)).
Proof.
  intros H. apply (derive_loc _ (fun r => Er r + (Cv0 g * (T - T0 g) + E0 g))).
  - apply (loc_imp _ (ok_rho g)); [|apply ok_loc, H]. intros y Hy. rewrite E_T_eq by exact Hy. ring.
  - rewrite P_T_eq by exact H. destruct H as (H1 & H'). assert (Hr : rho <> 0) by (pose proof tiny_pos; lra).
    apply (is_derive_eq _ _ ((Pr rho - T0 g * (A0 g * B0 g)) / (rho * rho) + 0)); [|field; exact Hr].
    apply (is_derive_plus (V := R_NormedModule) Er (fun _ => Cv0 g * (T - T0 g) + E0 g)); [apply Er_derive; split; assumption|apply (is_derive_const (K := R_AbsRing) (V := R_NormedModule))].
Qed.
Lemma dP_drho_T rho T : ok_rho g rho -> is_derive (fun r => P_T r T) rho (dPr rho).
Proof.
  intros H. apply (derive_loc _ (fun r => Pr r + A0 g * B0 g * (T - T0 g))).
  - apply (loc_imp _ (ok_rho g)); [|apply ok_loc, H]. intros y Hy. rewrite P_T_eq by exact Hy. reflexivity.
  - apply (is_derive_eq _ _ (dPr rho + 0)); [|ring].
    apply (is_derive_plus (V := R_NormedModule) Pr (fun _ => A0 g * B0 g * (T - T0 g))); [apply Pr_derive, H|apply (is_derive_const (K := R_AbsRing) (V := R_NormedModule))].
Qed.
Lemma P_e_eq rho e : ok_rho g rho -> P_e rho e = Pr rho + A0 g * B0 g * ((e - Er rho - E0 g) / Cv0 g).
Proof. intros H. change (P_e rho e) with (P_T rho (T_e rho e)). rewrite P_T_eq, T_e_eq by exact H. ring. Qed.
Lemma dP_de rho e : ok_rho g rho -> is_derive (fun s => P_e rho s) e (A0 g * B0 g / Cv0 g).
Proof.
  intros H. pose proof cv_pos. apply (derive_loc _ (fun s => Pr rho + A0 g * B0 g * ((s - Er rho - E0 g) / Cv0 g))).
  - apply filter_forall. intros y. symmetry. apply P_e_eq, H.
  - auto_derive; [exact I|]. field. lra.
Qed.
Lemma dP_drho_e rho e : ok_rho g rho -> is_derive (fun r => P_e r e) rho (dPr rho - A0 g * B0 g / Cv0 g * ((Pr rho - T0 g * (A0 g * B0 g)) / (rho * rho))).
Proof.
  intros H. pose proof cv_pos. apply (derive_loc _ (fun r => Pr r + A0 g * B0 g * ((e - Er r - E0 g) / Cv0 g))).
  - apply (loc_imp _ (ok_rho g)); [|apply ok_loc, H]. intros y Hy. rewrite P_e_eq by exact Hy. reflexivity.
  - pose proof (Er_derive rho H) as D1. pose proof (Pr_derive rho H) as D2. set (D := (Pr rho - T0 g * (A0 g * B0 g)) / (rho * rho)) in *.
    apply (is_derive_plus (V := R_NormedModule) Pr (fun r => A0 g * B0 g * ((e - Er r - E0 g) / Cv0 g)) rho (dPr rho) (- (A0 g * B0 g / Cv0 g * D))); [exact D2|].
    pose proof (is_derive_unique _ _ _ D1) as DU. auto_derive; [exists D; exact D1|].
    change (Derive (fun x => Er x) rho) with (Derive Er rho). rewrite DU. field. lra.
Qed.
Lemma B_T_eq rho T : ok_rho g rho -> 0 <= dPr rho + T * ((A0 g * B0 g) * (A0 g * B0 g) / (rho * rho * Cv0 g)) ->
  B_T rho T = (dPr rho + T * ((A0 g * B0 g) * (A0 g * B0 g) / (rho * rho * Cv0 g))) * rho.
Proof.
  intros H Hs. unfold BulkModulusFromDensityTemperature. cbv zeta. destruct (F_eq rho T H) as (_ & _ & E).
  assert (ES : o_soundspeed (Vinet_F_DT_func N g rho T) = sqrt (Rmax 0 (o_dpdrho (Vinet_F_DT_func N g rho T) + T * ratio (A0 g * B0 g * (A0 g * B0 g)) (rho * rho * Cv0 g)))) by reflexivity.
  rewrite ES, E. destruct H as (_ & _ & _ & H4 & _). rewrite ratio_pos by lra. rewrite Rmax_right by exact Hs. rewrite sqrt_sqrt by exact Hs. reflexivity.
Qed.
Lemma B_e_eq rho e : B_e rho e = B_T rho (T_e rho e).
Proof. reflexivity. Qed.
End V.

(** ** C23 *)
(** the pressure isotherm is the documented one *)
Theorem C23_documented_isotherm : forall N g rho, vinet_ok N g -> ok_rho g rho ->
  PressureFromDensityTemperature N g rho (T0 g) = P_isotherm N (d g) (B0 g) (BP0 g) (X g rho).
Proof.
  intros N g rho H Hr. rewrite P_T_eq by assumption. unfold Pr, P_isotherm, Dh. cbv zeta. replace (T0 g - T0 g) with 0 by ring. rewrite Rmult_0_r, Rplus_0_r.
  replace (N + 2)%nat with (S (S N)) by lia. rewrite !psum_shift.
  replace (X g rho ^ 2) with (X g rho * X g rho) by ring.
  change (psum (fun k => if Nat.leb 2 (S (S k)) then d g (S (S k) - 2)%nat else 0) (1 - X g rho) N) with (psum (fun k => dkg g (S (S k))) (1 - X g rho) N).
  change (dkg g 0%nat) with 1. change (dkg g 1%nat) with 0. cbn [Nat.leb]. unfold Rdiv. ring.
Qed.
(** energy and pressure derive from one free energy: (de/drho)_T = (P - T (dP/dT)_rho) / rho^2, for every array of coefficients *)
Theorem C23_energy_pressure_consistent : forall N g rho T, vinet_ok N g -> ok_rho g rho ->
  exists dPdT, is_derive (fun t => PressureFromDensityTemperature N g rho t) T dPdT /\
    is_derive (fun r => InternalEnergyFromDensityTemperature N g r T) rho ((PressureFromDensityTemperature N g rho T - T * dPdT) / (rho * rho)).
Proof.
  intros N g rho T H Hr. exists (A0 g * B0 g). split; [|apply dE_drho; assumption].
  apply (derive_loc _ (fun t => Pr N g rho + A0 g * B0 g * (t - T0 g))).
  - apply filter_forall. intros y. symmetry. apply P_T_eq; assumption.
  - auto_derive; [exact I|ring].
Qed.
Theorem C23_first_law : forall N g rho T, vinet_ok N g -> ok_rho g rho -> 0 < T -> tiny <= T0 g ->
  first_law (EntropyFromDensityTemperature N g) (InternalEnergyFromDensityTemperature N g) (PressureFromDensityTemperature N g) rho T.
Proof.
  intros N g rho T H Hr HT HT0. pose proof tiny_pos. pose proof (cv_pos N g H). assert (O := H). destruct O as (_ & O1 & _).
  exists (Cv0 g), ((PressureFromDensityTemperature N g rho T - T * (A0 g * B0 g)) / (rho * rho)). refine (conj _ (conj _ (conj _ _))).
  - apply (derive_loc _ (fun t => Er N g rho + Cv0 g * (t - T0 g) + E0 g)).
    + apply filter_forall. intros y. symmetry. apply E_T_eq; assumption.
    + auto_derive; [exact I|ring].
  - apply dE_drho; assumption.
  - set (K := A0 g * B0 g * (ratio 1 rho - ratio 1 (rho0 g))).
    apply (derive_loc _ (fun t => K + Cv0 g * ln (t / T0 g) + S0 g)).
    + apply (loc_imp _ (fun y => 0 < y)); [|apply loc_gt, HT]. intros y Hy. unfold EntropyFromDensityTemperature, Vinet_F_DT_func. cbv zeta. cbn [o_entropy].
      rewrite Rlt_bool_false by lra. rewrite (ratio_pos y) by lra. reflexivity.
    + auto_derive; [apply Rdiv_lt_0_compat; lra|]. field. lra.
  - set (K := Cv0 g * ln (ratio T (T0 g)) + S0 g).
    apply (derive_loc _ (fun r => A0 g * B0 g * (1 / r - 1 / rho0 g) + K)).
    + destruct Hr as (Hr1 & _). apply (loc_imp _ (fun y => tiny < y)); [|apply loc_gt, Hr1]. intros y Hy. unfold EntropyFromDensityTemperature, Vinet_F_DT_func. cbv zeta. cbn [o_entropy].
      rewrite Rlt_bool_false by lra. rewrite (ratio_pos 1 y), (ratio_pos 1 (rho0 g)) by lra. unfold K. ring.
    + destruct Hr as (Hr1 & _). auto_derive; [lra|]. field. split; lra.
Qed.
Theorem C23_round_trip : forall N g rho, vinet_ok N g -> ok_rho g rho ->
  (forall T, TemperatureFromDensityInternalEnergy N g rho (InternalEnergyFromDensityTemperature N g rho T) = T) /\
  (forall e, InternalEnergyFromDensityTemperature N g rho (TemperatureFromDensityInternalEnergy N g rho e) = e).
Proof.
  intros N g rho H Hr. pose proof (cv_pos N g H). split; intros z.
  - rewrite (T_e_eq N g H rho _ Hr), (E_T_eq N g H rho _ Hr). field. lra.
  - rewrite (E_T_eq N g H rho _ Hr), (T_e_eq N g H rho _ Hr). field. lra.
Qed.
Theorem C23_entry_points_agree : forall N g rho T, vinet_ok N g -> ok_rho g rho ->
  PressureFromDensityTemperature N g rho T = PressureFromDensityInternalEnergy N g rho (InternalEnergyFromDensityTemperature N g rho T) /\
  BulkModulusFromDensityTemperature N g rho T = BulkModulusFromDensityInternalEnergy N g rho (InternalEnergyFromDensityTemperature N g rho T) /\
  EntropyFromDensityTemperature N g rho T = EntropyFromDensityInternalEnergy N g rho (InternalEnergyFromDensityTemperature N g rho T).
Proof.
  intros N g rho T H Hr. destruct (C23_round_trip N g rho H Hr) as (R1 & _).
  unfold PressureFromDensityInternalEnergy, BulkModulusFromDensityInternalEnergy, EntropyFromDensityInternalEnergy. rewrite R1. auto.
Qed.
Theorem C23_derivatives : forall N g rho e T, vinet_ok N g -> ok_rho g rho ->
  is_gruneisen (PressureFromDensityInternalEnergy N g) rho e (GruneisenParamFromDensityInternalEnergy g rho e) /\
  is_specific_heat (InternalEnergyFromDensityTemperature N g) rho T (SpecificHeatFromDensityTemperature g rho T) /\
  is_derive (fun r => PressureFromDensityTemperature N g r T) rho (TBulkModulusFromDensityTemperature N g rho T / rho).
Proof.
  intros N g rho e T H Hr. pose proof (cv_pos N g H). assert (Hr' := Hr). destruct Hr' as (H1 & H2 & H3 & H4 & H5). pose proof tiny_pos. refine (conj _ (conj _ _)).
  - unfold is_gruneisen, GruneisenParamFromDensityInternalEnergy. rewrite ratio_pos by lra.
    apply (is_derive_eq _ _ (A0 g * B0 g / Cv0 g)); [apply dP_de; assumption|]. field. lra.
  - apply (derive_loc _ (fun t => Er N g rho + Cv0 g * (t - T0 g) + E0 g)).
    + apply filter_forall. intros y. symmetry. apply E_T_eq; assumption.
    + unfold SpecificHeatFromDensityTemperature. auto_derive; [exact I|ring].
  - unfold TBulkModulusFromDensityTemperature. destruct (F_eq N g H rho T Hr) as (_ & _ & ->).
    apply (is_derive_eq _ _ (dPr N g rho)); [apply dP_drho_T; assumption|]. field. lra.
Qed.
(** wherever the isentropic sound speed is real (otherwise the code clips it to zero) *)
Theorem C23_bulk_modulus : forall N g rho e, vinet_ok N g -> ok_rho g rho ->
  let T := TemperatureFromDensityInternalEnergy N g rho e in
  0 <= TBulkModulusFromDensityTemperature N g rho T + T * (A0 g * B0 g) ^ 2 / (rho * Cv0 g) ->
  is_bulk_modulus (PressureFromDensityInternalEnergy N g) rho e (BulkModulusFromDensityInternalEnergy N g rho e).
Proof.
  intros N g rho e H Hr T HB. pose proof (cv_pos N g H) as HC. assert (Hr' := Hr). destruct Hr' as (H1 & _). assert (Hp : 0 < rho) by (pose proof tiny_pos; lra).
  exists (dPr N g rho - A0 g * B0 g / Cv0 g * ((Pr N g rho - T0 g * (A0 g * B0 g)) / (rho * rho))), (A0 g * B0 g / Cv0 g).
  refine (conj (dP_drho_e N g H rho e Hr) (conj (dP_de N g H rho e Hr) _)).
  rewrite B_e_eq. rewrite B_T_eq; try assumption.
  - rewrite P_e_eq, T_e_eq by assumption. field. lra.
  - unfold TBulkModulusFromDensityTemperature in HB. destruct (F_eq N g H rho T Hr) as (_ & _ & E). rewrite E in HB. fold T.
    apply Rmult_le_reg_r with rho; [exact Hp|]. rewrite Rmult_0_l.
    replace ((dPr N g rho + T * (A0 g * B0 g * (A0 g * B0 g) / (rho * rho * Cv0 g))) * rho) with (dPr N g rho * rho + T * (A0 g * B0 g) ^ 2 / (rho * Cv0 g)) by (field; lra).
    exact HB.
Qed.
(** the thermal expansion coefficient is -(1/rho) (drho/dT)_P, i.e. (dP/dT)_rho = alpha * rho * (dP/drho)_T *)
Theorem C23_thermal_expansion : forall N g rho T, vinet_ok N g -> ok_rho g rho -> tiny <= Rabs (TBulkModulusFromDensityTemperature N g rho T) ->
  is_derive (fun t => PressureFromDensityTemperature N g rho t) T
    (TExpansionCoeffFromDensityTemperature N g rho T * TBulkModulusFromDensityTemperature N g rho T).
Proof.
  intros N g rho T H Hr HB. pose proof tiny_pos. assert (NZ : TBulkModulusFromDensityTemperature N g rho T <> 0) by (intros E; rewrite E, Rabs_R0 in HB; lra).
  unfold TExpansionCoeffFromDensityTemperature. cbv zeta. fold (TBulkModulusFromDensityTemperature N g rho T). rewrite ratio_abs by exact HB.
  replace (o_dpdt (Vinet_F_DT_func N g rho T) / TBulkModulusFromDensityTemperature N g rho T * TBulkModulusFromDensityTemperature N g rho T) with (A0 g * B0 g)
    by (change (o_dpdt (Vinet_F_DT_func N g rho T)) with (A0 g * B0 g); field; exact NZ).
  apply (derive_loc _ (fun t => Pr N g rho + A0 g * B0 g * (t - T0 g))).
  - apply filter_forall. intros y. symmetry. apply P_T_eq; assumption.
  - auto_derive; [exact I|ring].
Qed.
Theorem C23_reference_state : forall N g, vinet_ok N g -> ok_rho g (rho0 g) -> 0 <= B0 g -> 0 <= T0 g -> exists rho T sie P cv bmod dpde dvdt,
  ValuesAtReferenceState N g = (rho :: T :: sie :: P :: cv :: bmod :: dpde :: dvdt :: nil)%list /\ P = 0 /\
  sie = InternalEnergyFromDensityTemperature N g rho T /\ bmod = BulkModulusFromDensityTemperature N g rho T /\
  TBulkModulusFromDensityTemperature N g rho T = B0 g /\ bmod = rho * VIP g 0%nat /\
  is_derive (fun e => PressureFromDensityInternalEnergy N g rho e) sie dpde /\
  (0 < B0 g -> tiny <= B0 g -> dvdt = TExpansionCoeffFromDensityTemperature N g rho T / rho).
Proof.
  intros N g H Hr HB0 HT0. eexists _, _, _, _, _, _, _, _. split; [reflexivity|].
  pose proof tiny_pos as Ht. pose proof (cv_pos N g H) as HC. pose proof (r0_pos N g H) as Hr0. assert (O := H). destruct O as (_ & O1 & O2 & O3 & O4).
  assert (X1 : X g (rho0 g) = 1). { unfold X. replace (rho0 g / rho0 g) with 1 by (field; lra). rewrite ln_1. replace (0 / 3) with 0 by field. apply exp_0. }
  assert (D0 : Dh N g 0 = 1). { unfold Dh. replace (N + 2)%nat with (S (N + 1)) by lia. rewrite psum_shift. cbn [dkg]. ring. }
  assert (TB : TBulkModulusFromDensityTemperature N g (rho0 g) (T0 g) = B0 g).
  { unfold TBulkModulusFromDensityTemperature. destruct (F_eq N g H _ (T0 g) Hr) as (_ & _ & ->). unfold dPr. cbv zeta. rewrite X1.
    replace (1 - 1) with 0 by ring. rewrite D0. rewrite !Rmult_0_r, exp_0. field. lra. }
  refine (conj _ (conj _ (conj eq_refl (conj TB (conj _ (conj _ _)))))).
  - rewrite P_T_eq by assumption. unfold Pr. cbv zeta. rewrite X1. ring.
  - rewrite E_T_eq by assumption. unfold Er. cbv zeta. rewrite X1. replace (1 - 1) with 0 by ring. rewrite !Rmult_0_r, exp_0. unfold Rdiv. ring.
  - assert (ED : dPr N g (rho0 g) = B0 g / rho0 g).
    { unfold TBulkModulusFromDensityTemperature in TB. destruct (F_eq N g H _ (T0 g) Hr) as (_ & _ & E). rewrite E in TB. rewrite <- TB. field. lra. }
    destruct Hr as (R1 & R2 & R3 & R4 & R5).
    rewrite B_T_eq; [|assumption|repeat split; assumption|].
    + rewrite (vip0 N g H). rewrite ratio_pos by lra. rewrite ratio_pos by lra. rewrite ED. field. lra.
    + rewrite ED. assert (0 <= A0 g * B0 g * (A0 g * B0 g)) by apply Rle_0_sqr.
      apply Rplus_le_le_0_compat; [apply Rle_mult_inv_pos; lra|]. apply Rmult_le_pos; [exact HT0|]. apply Rle_mult_inv_pos; [assumption|lra].
  - rewrite ratio_pos by lra. apply dP_de; assumption.
  - intros HB HBt. unfold TExpansionCoeffFromDensityTemperature. cbv zeta. fold (TBulkModulusFromDensityTemperature N g (rho0 g) (T0 g)). rewrite TB.
    rewrite (ratio_pos _ (B0 g)) by lra. change (o_dpdt _) with (A0 g * B0 g). rewrite ratio_pos by lra. field. lra.
Qed.
Opaque Vinet_F_DT_func.
(** FillEos from (rho, e) with the temperature requested, and from (rho, T) *)
Theorem C23_FillEos : forall N g m o s s', vinet_ok N g -> ok_rho g (s_rho s) -> mode_of o m ->
  (m = InRhoSie /\ f_temp o = true \/ m = InRhoTemp) -> FillEos N g o s = Some s' ->
  fill_ok (TemperatureFromDensityInternalEnergy N g) (PressureFromDensityInternalEnergy N g) (SpecificHeatFromDensityInternalEnergy g)
          (BulkModulusFromDensityInternalEnergy N g) m o s s'.
Proof.
  intros N g m [fr ft fs fp fc fb] [r t e p c bb] s' H Hr Hm Hd HF. cbn [s_rho] in Hr. destruct (C23_round_trip N g r H Hr) as (R1 & R2).
  unfold FillEos, cond_upd in HF. cbn [f_rho f_sie f_temp f_press f_cv f_bmod] in *.
  destruct Hd as [(-> & Ht)| ->]; cbn in Hm.
  - destruct Hm as (-> & ->). subst ft. cbn in HF. injection HF as <-. unfold fill_ok, fill_frame, fill_values.
    destruct fp, fc, fb; cbn; repeat split; intros; try discriminate; reflexivity.
  - destruct Hm as (-> & -> & -> & ->). cbn -[Vinet_F_DT_func] in HF. injection HF as <-. unfold fill_ok, fill_frame, fill_values.
    change (o_energy (Vinet_F_DT_func N g r t)) with (InternalEnergyFromDensityTemperature N g r t).
    unfold PressureFromDensityInternalEnergy, BulkModulusFromDensityInternalEnergy.
    destruct fc, fb; cbn -[Vinet_F_DT_func TemperatureFromDensityInternalEnergy InternalEnergyFromDensityTemperature]; rewrite ?R1; repeat split; intros; try discriminate; reflexivity.
Qed.
Transparent Vinet_F_DT_func.
(** the density is never an output and temperature and energy cannot both be: such requests are refused *)
Theorem C23_FillEos_refuses : forall N g o s, f_rho o = true \/ (f_temp o = true /\ f_sie o = true) -> FillEos N g o s = None.
Proof. intros N g [[] [] [] fp fc fb] s; cbn; intros [H|[H H1]]; try reflexivity; discriminate. Qed.
Corollary C23_FillEos_refuses_underdetermined : forall N g o s, (inputs o < 2)%nat -> FillEos N g o s = None.
Proof.
  intros N g o s H. apply C23_FillEos_refuses; destruct o as [[] [] [] [] fc fb]; unfold inputs in H; cbn in *; auto; lia.
Qed.
Example C23_FillEos_refuses_instance : (inputs (mkF true false true true true true) < 2)%nat.
Proof. cbn. lia. Qed.
(** FillEos succeeds in these modes *)
Theorem C23_FillEos_total : forall N g m o s, mode_of o m -> (m = InRhoSie /\ f_temp o = true \/ m = InRhoTemp) -> exists s', FillEos N g o s = Some s'.
Proof.
  intros N g m [fr ft fs fp fc fb] s Hm Hd. unfold FillEos. destruct Hd as [(-> & Ht)| ->]; cbn in *.
  - destruct Hm as (-> & ->). cbn. rewrite andb_false_r. eexists; reflexivity.
  - destruct Hm as (-> & -> & -> & ->). cbn. eexists; reflexivity.
Qed.
(** Refuted: with density and energy as inputs and the temperature not requested, FillEos still overwrites the caller's temperature *)
Theorem C58_vinet_FillEos_frame_refuted : forall N, exists g o s s', vinet_ok N g /\ mode_of o InRhoSie /\ f_temp o = false /\ FillEos N g o s = Some s' /\ s_temp s' <> s_temp s.
Proof.
  intros N. pose proof tiny_lt_1. assert (HT : tiny < 1/1000000).
  { unfold tiny. apply Rlt_le_trans with (bpow radix2 (-20)); [apply bpow_lt; lia|cbn; lra]. }
  set (d2 := fun _ : nat => 0).
  set (g := mkVinet 1 1 1 3 1 1 0 0 1 1 (InitializeVIP N 1 1 1 3 1 1 d2) d2).
  assert (OK : vinet_ok N g).
  { split. { exists 1, 1, 1, 3, 1, 1, 0, 0, d2, 1, 1. unfold make. cbv zeta. fold g. unfold CheckParams, g; cbn.
      rewrite ?Rlt_bool_false by lra. rewrite ?Rlt_bool_true by lra. reflexivity. }
    unfold g; cbn. repeat split; lra. }
  set (t := TemperatureFromDensityInternalEnergy N g 1 0).
  exists g, (mkF false false false true false false), (mkS 1 (t + 1) 0 0 0 0). eexists. split; [exact OK|]. split; [cbn; auto|]. split; [reflexivity|].
  split; [unfold FillEos; cbn; reflexivity|]. cbn. fold t. lra.
Qed.
(** parameter admissibility: exactly the documented sign conditions ... *)
Theorem C44_vinet_construction : forall N r0 t0 b0 bp0 a0 cv0 e0 s0 d2 A Z,
  (exists g, make N r0 t0 b0 bp0 a0 cv0 e0 s0 d2 A Z = Some g) <-> 0 <= r0 /\ 0 <= t0 /\ 0 <= b0 /\ 1 <= bp0 /\ 0 <= a0 /\ 0 <= cv0 /\ 0 < A /\ 0 < Z.
Proof.
  intros. unfold make. cbv zeta. split.
  - intros (g & H). destruct (CheckParams _) eqn:E; [|discriminate]. unfold CheckParams in E. cbn in E. rewrite !andb_true_iff, !negb_true_iff in E.
    destruct E as (((((((E1 & E2) & E3) & E4) & E5) & E6) & E7) & E8).
    destruct (Rlt_bool_spec r0 0), (Rlt_bool_spec t0 0), (Rlt_bool_spec b0 0), (Rlt_bool_spec bp0 1), (Rlt_bool_spec a0 0), (Rlt_bool_spec cv0 0), (Rlt_bool_spec 0 A), (Rlt_bool_spec 0 Z); try discriminate. auto 10.
  - intros (H1 & H2 & H3 & H4 & H5 & H6 & H7 & H8). unfold CheckParams. cbn. rewrite !Rlt_bool_false by assumption. rewrite !Rlt_bool_true by assumption. cbn. eexists; reflexivity.
Qed.
(** Refuted: ... but B0' = 1 is accepted although eta0 = 0 is then used as a divisor in every energy coefficient *)
Theorem C62_vinet_BP0_refuted : forall N d2, exists g, make N 1 1 1 1 1 1 0 0 d2 1 1 = Some g /\ VIP g 1%nat = 0.
Proof.
  intros N d2. destruct (proj2 (C44_vinet_construction N 1 1 1 1 1 1 0 0 d2 1 1)) as (g & H); [repeat split; lra|]. exists g. split; [exact H|].
  unfold make in H. destruct (CheckParams _); [|discriminate]. injection H as <-. cbn [VIP]. unfold InitializeVIP. cbv zeta.
  set (body := fun (ind : nat) (V : nat -> R) => _).
  assert (G : forall c (V : nat -> R), downto c 2 body V 1%nat = V 1%nat).
  { induction c as [|c IH]; intros V; [reflexivity|]. cbn [downto]. rewrite IH. reflexivity. }
  rewrite G. cbn. lra.
Qed.
(** the hypotheses are met, with a non-zero expansion coefficient, at densities on both sides of the reference *)
Example C23_instance : exists g, vinet_ok 39 g /\ d g 0%nat = 5 /\ ok_rho g 1 /\ ok_rho g 2 /\ ok_rho g (1/2).
Proof.
  assert (HT : tiny < 1/1000000).
  { unfold tiny. apply Rlt_le_trans with (bpow radix2 (-20)); [apply bpow_lt; lia|cbn; lra]. }
  set (d2 := fun k : nat => match k with 0%nat => 5 | _ => 0 end).
  set (g := mkVinet 1 1 1 3 1 1 0 0 1 1 (InitializeVIP 39 1 1 1 3 1 1 d2) d2). exists g.
  assert (OK : vinet_ok 39 g).
  { split. { exists 1, 1, 1, 3, 1, 1, 0, 0, d2, 1, 1. unfold make. cbv zeta. fold g. unfold CheckParams, g; cbn.
      rewrite ?Rlt_bool_false by lra. rewrite ?Rlt_bool_true by lra. reflexivity. }
    unfold g; cbn [rho0 BP0 Cv0]. repeat split; lra. }
  assert (K : forall r, 1/2 <= r <= 2 -> ok_rho g r).
  { intros r Hr. assert (XB : 1/2 <= X g r).
    { destruct (Rle_dec (1/2) (X g r)) as [|Hn]; [assumption|]. exfalso. apply Rnot_le_lt in Hn.
      pose proof (X3 39 g OK r ltac:(lra)) as E. pose proof (X_pos g r) as Hp. change (rho0 g) with 1 in E.
      assert (Hq : 1/2 <= 1 / r). { apply Rmult_le_reg_r with r; [lra|]. replace (1 / r * r) with 1 by (field; lra). lra. }
      rewrite <- E in Hq. revert Hn Hp Hq. generalize (X g r). intros x Hn Hp Hq.
      assert (x * x < 1/4) by nra. replace (x ^ 3) with (x * x * x) in Hq by ring. nra. }
    unfold ok_rho. assert (1/4 <= X g r * X g r) by (revert XB; generalize (X g r); intros; nra). assert (1/4 <= r * r) by nra. change (Cv0 g) with 1. repeat split; lra. }
  refine (conj OK (conj eq_refl (conj (K 1 _) (conj (K 2 _) (K (1/2) _))))); lra.
Qed.
Print Assumptions C23_documented_isotherm.
Print Assumptions C23_energy_pressure_consistent.
Print Assumptions C23_first_law.
Print Assumptions C23_round_trip.
Print Assumptions C23_entry_points_agree.
Print Assumptions C23_derivatives.
Print Assumptions C23_bulk_modulus.
Print Assumptions C23_thermal_expansion.
Print Assumptions C23_reference_state.
Print Assumptions C23_FillEos.
Print Assumptions C23_FillEos_refuses.
Print Assumptions C23_FillEos_total.
Print Assumptions C58_vinet_FillEos_frame_refuted.
Print Assumptions C44_vinet_construction.
Print Assumptions C62_vinet_BP0_refuted.
