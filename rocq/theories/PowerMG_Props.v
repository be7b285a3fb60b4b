(** C25 (second part): power-series Mie-Gruneisen EOS *)
From Coq Require Import Reals Bool Lra Lia List Psatz.
From Flocq Require Import Core.
From Coquelicot Require Import Coquelicot.
From Verif Require Import Robust_Model Robust_Proofs Thermo_Spec Thermo_Tools PowerMG_Model.
From Verif Require Vinet_Props.
Local Open Scope R_scope.
Notation psum := Vinet_Props.psum.

Definition admissible (g : powermg) : Prop :=
  tiny <= rho0 g /\ 0 < T0 g /\ 0 < Cv0 g /\ 0 < K g 0%nat /\ Pmin g < 0.
(** ** specification *)
(** P_H in compression: K0 eta (1 + K1 eta + ... + KM eta^M) (models.rst) *)
Definition P_H (g : powermg) (x : R) : R := K g 0%nat * x * (1 + x * psum (fun k => K g (1 + k)%nat) x (M g)).
(** x^k (n-1)!/(n+k)!, the k-th term of the confluent series sum_k x^k/(n (n+1) ... (n+k)) *)
Definition tm (n k : nat) (x : R) : R := x ^ k * INR (fact (n - 1)) / INR (fact (n + k)).
(** its partial sum up to k = N *)
Fixpoint S_ (n N : nat) (x : R) : R := match N with O => tm n 0 x | S m => S_ n m x + tm n (S m) x end.
(** sum_{i=1}^{M} i K_i eta^(i+2) S_{i+2}(G0 eta), with the series for index i cut after N + M - i terms *)
Fixpoint wsum (g : powermg) (N : nat) (x : R) (m : nat) : R :=
  match m with O => 0 | S j => wsum g N x j + INR (S j) * K g (S j) * (x ^ (S j + 2) * S_ (S j + 2) (N + (M g - S j)) (G0 g * x)) end.
(** Hugoniot temperature with the series cut after N terms at the top index *)
Definition T_H (g : powermg) (N : nat) (x : R) : R := T0 g * exp (G0 g * x) + K g 0%nat / (2 * Cv0 g * rho0 g) * wsum g N x (M g).
(** what the truncation leaves out of the first law: the last terms kept *)
Fixpoint lastsum (g : powermg) (N : nat) (x : R) (m : nat) : R :=
  match m with O => 0 | S j => lastsum g N x j + INR (S j) * K g (S j) * (x ^ (S j + 2) * tm (S j + 2) (N + (M g - S j)) (G0 g * x)) end.

(** ** series lemmas *)
Lemma fact_S n : INR (fact (S n)) = INR (S n) * INR (fact n). Proof. rewrite <- mult_INR. reflexivity. Qed.
Lemma fnz n : INR (fact n) <> 0. Proof. apply not_0_INR, fact_neq_0. Qed.
Lemma snz n : INR (S n) <> 0. Proof. apply not_0_INR. lia. Qed.
Lemma tm0 n x : (1 <= n)%nat -> tm n 0 x = 1 / INR n.
Proof.
  intros H. destruct n; [lia|]. unfold tm. replace (S n - 1)%nat with n by lia. replace (S n + 0)%nat with (S n) by lia. rewrite fact_S.
  pose proof (fnz n). pose proof (snz n). cbn [pow]. field. auto.
Qed.
Lemma tmS n k x : tm n (S k) x = tm n k x * x / INR (S (n + k)).
Proof.
  unfold tm. replace (n + S k)%nat with (S (n + k)) by lia. rewrite fact_S. pose proof (fnz (n + k)). pose proof (snz (n + k)). cbn [pow]. field. auto.
Qed.
Lemma tm_shift n k x : (1 <= n)%nat -> tm n (S k) x = x / INR n * tm (S n) k x.
Proof.
  intros H. destruct n; [lia|]. unfold tm. replace (S n + S k)%nat with (S (S n) + k)%nat by lia. replace (S n - 1)%nat with n by lia. replace (S (S n) - 1)%nat with (S n) by lia.
  rewrite (fact_S n). pose proof (fnz n). pose proof (snz n). pose proof (fnz (S (S n) + k)). cbn [pow]. field. auto.
Qed.
Lemma S_rec n N x : (1 <= n)%nat -> S_ n (S N) x = x / INR n * S_ (S n) N x + 1 / INR n.
Proof.
  intros H. induction N as [|N IH].
  - cbn [S_]. rewrite tm0 by exact H. rewrite tm_shift by exact H. ring.
  - change (S_ n (S (S N)) x) with (S_ n (S N) x + tm n (S (S N)) x). rewrite IH. rewrite (tm_shift n (S N)) by exact H. cbn [S_]. ring.
Qed.
(** the loop computes S_ (M+2) N for some N *)
Lemma sn_loop_S n x fuel : forall i, exists N, (i <= N <= i + fuel)%nat /\
  sn_loop (exp x - 1) x fuel (n + i) (tm n i x) (S_ n i x) = S_ n N x /\
  ((N < i + fuel)%nat -> (exp x - 1) * tm n N x <= 1 / 10 ^ 15 * S_ n N x \/ (200 <= n + N)%nat).
Proof.
  induction fuel as [|fuel IH]; intros i.
  - exists i. split; [lia|]. split; [reflexivity|lia].
  - cbn [sn_loop]. cbv zeta. destruct (Rlt_bool_spec (S_ n i x * (1 / 10 ^ 15)) ((exp x - 1) * tm n i x)) as [E|E]; cbn [andb].
    + destruct (Nat.ltb_spec (n + i) 200) as [L|L].
      * rewrite <- tmS. change (S_ n i x + tm n (S i) x) with (S_ n (S i) x). replace (S (n + i)) with (n + S i)%nat by lia.
        destruct (IH (S i)) as (N & H1 & H2 & H3). exists N. split; [lia|]. split; [exact H2|]. intros HN. apply H3. lia.
      * exists i. split; [lia|]. split; [reflexivity|]. intros _. right. lia.
    + exists i. split; [lia|]. split; [reflexivity|]. intros _. left. lra.
Qed.
(** tail bound for x >= 0 *)
Lemma tm_nonneg n k x : 0 <= x -> 0 <= tm n k x.
Proof. intros H. unfold tm, Rdiv. apply Rmult_le_pos; [apply Rmult_le_pos; [apply pow_le, H|apply pos_INR]|]. apply Rlt_le, Rinv_0_lt_compat, lt_0_INR, lt_O_fact. Qed.
Lemma S_pos n N x : 0 <= x -> 0 < S_ n N x.
Proof.
  intros H. induction N as [|N IH]; cbn [S_].
  - unfold tm, Rdiv. rewrite pow_O, Rmult_1_l. apply Rmult_lt_0_compat; [apply lt_0_INR, lt_O_fact|]. apply Rinv_0_lt_compat, lt_0_INR, lt_O_fact.
  - pose proof (tm_nonneg n (S N) x H). lra.
Qed.
(** sum_{j=1}^{m} x^j/j! *)
Fixpoint esum (x : R) (m : nat) : R := match m with O => 0 | S k => esum x k + x ^ S k / INR (fact (S k)) end.
Lemma esum_derive x N : is_derive (fun z => esum z (S N)) x (1 + esum x N).
Proof.
  induction N as [|n IH].
  - cbn. auto_derive; [exact I|]. field.
  - change (fun z => esum z (S (S n))) with (fun z => esum z (S n) + z ^ S (S n) / INR (fact (S (S n)))). change (esum x (S n)) with (esum x n + x ^ S n / INR (fact (S n))).
    apply (is_derive_eq _ _ (1 + esum x n + x ^ S n / INR (fact (S n)))); [|ring].
    apply (is_derive_plus (V := R_NormedModule) (fun z => esum z (S n)) (fun z => z ^ S (S n) / INR (fact (S (S n))))); [exact IH|].
    apply (is_derive_ext (fun z => / INR (fact (S (S n))) * z ^ S (S n))). { intros t. unfold Rdiv. apply Rmult_comm. }
    apply (is_derive_eq _ _ (/ INR (fact (S (S n))) * (INR (S (S n)) * 1 * x ^ S n))).
    + apply is_derive_scal. apply (is_derive_pow (fun z => z) (S (S n)) x 1). apply (is_derive_id (K := R_AbsRing)).
    + rewrite (fact_S (S n)). field. split; [apply fnz|apply snz].
Qed.
Lemma esum_0 N : esum 0 N = 0. Proof. induction N as [|n IH]; [reflexivity|]. cbn [esum]. rewrite IH. rewrite pow_i by lia. unfold Rdiv. ring. Qed.
Lemma esum_exp N : forall x, 0 <= x -> esum x N <= exp x - 1.
Proof.
  induction N as [|n IH]; intros x Hx; [cbn; pose proof (exp_ineq1_le x); lra|].
  destruct (Req_dec x 0) as [->|Hn]; [rewrite esum_0, exp_0; lra|].
  destruct (MVT_gen (fun z => exp z - 1 - esum z (S n)) 0 x (fun z => exp z - (1 + esum z n))) as (c & Hc & E).
  - intros z _. apply (is_derive_minus (V := R_NormedModule) (fun z => exp z - 1) (fun z => esum z (S n))); [auto_derive; [exact I|ring]|apply esum_derive].
  - intros z _. apply continuity_pt_filterlim. refine (derive_cont (fun z => exp z - 1 - esum z (S n)) z (exp z - (1 + esum z n)) _).
    apply (is_derive_minus (V := R_NormedModule) (fun z => exp z - 1) (fun z => esum z (S n))); [auto_derive; [exact I|ring]|apply esum_derive].
  - rewrite Rmin_left, Rmax_right in Hc by lra. specialize (IH c ltac:(lra)). rewrite esum_0, exp_0 in E.
    assert (0 <= (exp c - (1 + esum c n)) * (x - 0)) by (apply Rmult_le_pos; lra). lra.
Qed.
Lemma tm_tail n N j x : 0 <= x -> tm n (N + j) x <= tm n N x * (x ^ j / INR (fact j)).
Proof.
  intros Hx. induction j as [|j IH].
  - rewrite Nat.add_0_r. cbn. lra.
  - replace (N + S j)%nat with (S (N + j)) by lia. rewrite tmS. rewrite fact_S.
    replace (tm n N x * (x ^ S j / (INR (S j) * INR (fact j)))) with (tm n N x * (x ^ j / INR (fact j)) * (x / INR (S j))).
    2: { cbn [pow]. field. split; [apply fnz|apply snz]. }
    replace (tm n (N + j) x * x / INR (S (n + (N + j)))) with (tm n (N + j) x * (x / INR (S (n + (N + j))))) by (unfold Rdiv; ring).
    apply Rmult_le_compat; [apply tm_nonneg, Hx| |exact IH|].
    + unfold Rdiv. apply Rmult_le_pos; [exact Hx|]. apply Rlt_le, Rinv_0_lt_compat, lt_0_INR. lia.
    + unfold Rdiv. apply Rmult_le_compat_l; [exact Hx|]. apply Rinv_le_contravar; [apply lt_0_INR; lia|]. apply le_INR. lia.
Qed.
Lemma S_tail n N j x : 0 <= x -> S_ n N x <= S_ n (N + j) x <= S_ n N x + tm n N x * (exp x - 1).
Proof.
  intros Hx. assert (H : S_ n N x <= S_ n (N + j) x <= S_ n N x + tm n N x * esum x j).
  { induction j as [|j IH]; [rewrite Nat.add_0_r; cbn; lra|]. replace (N + S j)%nat with (S (N + j)) by lia. cbn [S_ esum]. replace (S (N + j)) with (N + S j)%nat by lia.
    pose proof (tm_tail n N (S j) x Hx). pose proof (tm_nonneg n (N + S j) x Hx). lra. }
  pose proof (esum_exp j x Hx). pose proof (tm_nonneg n N x Hx).
  assert (tm n N x * esum x j <= tm n N x * (exp x - 1)) by (apply Rmult_le_compat_l; assumption). lra.
Qed.
(** derivative of eta^n S_n(G eta) *)
Lemma Y_derive n N G x : (1 <= n)%nat -> is_derive (fun z => z ^ n * S_ n N (G * z)) x (x ^ (n - 1) + G * (x ^ n * S_ n N (G * x)) - G * (x ^ n * tm n N (G * x))).
Proof.
  intros H. induction N as [|N IH].
  - cbn [S_]. apply (is_derive_ext (fun z => / INR n * z ^ n)). { intros t. rewrite tm0 by exact H. unfold Rdiv. rewrite Rmult_1_l. apply Rmult_comm. }
    destruct n as [|n]; [lia|]. replace (S n - 1)%nat with n by lia.
    apply (is_derive_eq _ _ (/ INR (S n) * (INR (S n) * 1 * x ^ n))); [|field; apply snz].
    apply is_derive_scal. apply (is_derive_pow (fun z => z) (S n) x 1). apply (is_derive_id (K := R_AbsRing)).
  - cbn [S_]. apply (is_derive_ext (fun z => z ^ n * S_ n N (G * z) + z ^ n * tm n (S N) (G * z))). { intros t. symmetry. apply Rmult_plus_distr_l. }
    assert (DT : is_derive (fun z => z ^ n * tm n (S N) (G * z)) x (G * (x ^ n * tm n N (G * x)))).
    { set (c := G ^ S N * INR (fact (n - 1)) / INR (fact (n + S N))). apply (is_derive_ext (fun z => c * z ^ (n + S N))).
      { intros t. match goal with |- @eq _ ?a ?b => change (@eq R a b) end. unfold tm, c. rewrite Rpow_mult_distr, pow_add. field. apply fnz. }
      replace (n + S N)%nat with (S (n + N)) in * by lia.
      apply (is_derive_eq _ _ (c * (INR (S (n + N)) * 1 * x ^ (n + N)))).
      - apply is_derive_scal. apply (is_derive_pow (fun z => z) (S (n + N)) x 1). apply (is_derive_id (K := R_AbsRing)).
      - unfold c, tm. replace (n + S N)%nat with (S (n + N)) by lia. rewrite fact_S, pow_add, Rpow_mult_distr. cbn [pow]. field. split; [apply fnz|apply snz]. }
    apply (is_derive_eq _ _ ((x ^ (n - 1) + G * (x ^ n * S_ n N (G * x)) - G * (x ^ n * tm n N (G * x))) + G * (x ^ n * tm n N (G * x)))).
    + exact (is_derive_plus (V := R_NormedModule) _ _ x _ _ IH DT).
    + ring.
Qed.
(** ** model = closed forms *)
Section D.
Variable g : powermg.
Hypothesis Hr0 : tiny <= rho0 g.
Hypothesis HT0 : 0 < T0 g.
Hypothesis HCv : 0 < Cv0 g.
Hypothesis HK : 0 < K g 0%nat.
Notation et r := (1 - rho0 g / r).
Notation P_e := (PressureFromDensityInternalEnergy g).
Notation P_T := (PressureFromDensityTemperature g).
Notation E_T := (InternalEnergyFromDensityTemperature g).
Notation T_e := (TemperatureFromDensityInternalEnergy g).
Notation B_e := (BulkModulusFromDensityInternalEnergy g).
Notation B_T := (BulkModulusFromDensityTemperature g).
Lemma r0pos : 0 < rho0 g. Proof. pose proof tiny_pos. lra. Qed.
Lemma eta_eq r : tiny < r -> eta_ g r = et r.
Proof. intros H. unfold eta_. rewrite ratio_pos by lra. reflexivity. Qed.
Lemma PH_eq r : tiny < r -> HugPressureFromDensity g r = P_H g (et r).
Proof.
  intros H. unfold HugPressureFromDensity, P_H. cbv zeta. rewrite eta_eq by exact H. rewrite Vinet_Props.horner. ring.
Qed.
Lemma comp_sum_eq x : comp_sum g x = x * psum (fun k => INR (S k) * K g (S k)) x (M g).
Proof.
  unfold comp_sum. 
  assert (E : forall c lo s, downto c lo (fun ind sum => sum * x + INR ind * K g ind * x) s = downto c lo (fun ind z => INR ind * K g ind * x + x * z) s).
  { induction c as [|c IH]; intros lo s; [reflexivity|]. cbn [Vinet_Model.downto]. rewrite IH. f_equal. ring. }
  rewrite E. rewrite (Vinet_Props.horner (fun ind => INR ind * K g ind * x)). rewrite Rmult_0_r, Rplus_0_r.
  generalize (M g) as m. induction m as [|m IH]; [cbn; ring|]. cbn [Vinet_Props.psum]. rewrite IH. replace (1 + m)%nat with (S m) by lia. ring.
Qed.
(** value of the pair loop: starting at S_{m+3} with N terms, sum = acc *)
Fixpoint tsum (N : nat) (x : R) (m : nat) : R :=
  match m with O => 0 | S i => tsum N x i + INR (S i) * K g (S i) * (x ^ i * S_ (S i + 2) (N + (M g - S i)) (G0 g * x)) end.
Lemma temp_loop x N m : forall acc, (m <= M g)%nat -> (1 <= N + (M g - m))%nat ->
  snd (downto m 1 (fun ind '(gamma2, sum) => let gamma2 := G0 g * x / INR (ind + 2) * gamma2 + 1 / INR (ind + 2) in (gamma2, x * sum + INR ind * K g ind * gamma2))
    (S_ (m + 3) (N + (M g - m) - 1) (G0 g * x), acc)) = x ^ m * acc + tsum N x m.
Proof.
  induction m as [|m IH]; intros acc Hm HN; [cbn; ring|].
  cbn [Vinet_Model.downto tsum]. cbv zeta.
  assert (E : G0 g * x / INR (1 + m + 2) * S_ (S m + 3) (N + (M g - S m) - 1) (G0 g * x) + 1 / INR (1 + m + 2) = S_ (m + 3) (N + (M g - m) - 1) (G0 g * x)).
  { replace (1 + m + 2)%nat with (m + 3)%nat by lia. replace (N + (M g - m) - 1)%nat with (S (N + (M g - S m) - 1)) by lia.
    rewrite (S_rec (m + 3)) by lia. replace (S (m + 3)) with (S m + 3)%nat by lia. reflexivity. }
  rewrite E. rewrite IH by lia. replace (S m + 2)%nat with (m + 3)%nat by lia. replace (N + (M g - m) - 1)%nat with (N + (M g - S m))%nat by lia.
  change (1 + m)%nat with (S m). cbn [pow]. ring.
Qed.
Lemma tsum_wsum N x m : x * x * x * tsum N x m = wsum g N x m.
Proof.
  induction m as [|m IH]; [cbn; ring|]. cbn [tsum wsum]. rewrite <- IH. replace (x ^ (S m + 2)) with (x * x * x * x ^ m) by (rewrite pow_add; cbn [pow]; ring). ring.
Qed.
Lemma HT_eq r : tiny < r -> (M g <= 40)%nat -> exists N, (N <= 200)%nat /\ SN2Mp2 g (G0 g * et r) = S_ (M g + 2) N (G0 g * et r) /\ HugTemperatureFromDensity g r = T_H g N (et r) /\
  ((exp (G0 g * et r) - 1) * tm (M g + 2) N (G0 g * et r) <= 1 / 10 ^ 15 * S_ (M g + 2) N (G0 g * et r) \/ (200 <= M g + 2 + N)%nat).
Proof.
  intros H HM. unfold HugTemperatureFromDensity, SN2Mp2. cbv zeta. rewrite eta_eq by exact H. set (x := et r).
  assert (Ea : 1 / INR (M g + 2) = tm (M g + 2) 0 (G0 g * x)) by (rewrite tm0 by lia; reflexivity).
  destruct (sn_loop_S (M g + 2) (G0 g * x) 200 0) as (N & HN & EN & HC). rewrite Nat.add_0_r in EN. change (S_ (M g + 2) 0 (G0 g * x)) with (tm (M g + 2) 0 (G0 g * x)) in EN.
  rewrite Ea, EN. exists N. split; [lia|]. split; [reflexivity|]. split.
  2: { destruct (Nat.eq_dec N 200) as [->|]; [right; lia|]. apply HC. lia. }
  clear EN Ea. destruct (Nat.eq_dec (M g) 0) as [E0|E0].
  - unfold T_H. rewrite E0. cbn [Vinet_Model.downto wsum Nat.sub]. change (INR 0) with 0. rewrite (Rmult_comm x (G0 g)). ring.
  - destruct (M g) as [|m] eqn:EM; [lia|]. replace (S m - 1)%nat with m by lia.
    assert (L := temp_loop x N m (INR (S m) * K g (S m) * S_ (S m + 2) N (G0 g * x)) ltac:(lia) ltac:(lia)). rewrite EM in L.
    replace (N + (S m - m) - 1)%nat with N in L by lia. replace (m + 3)%nat with (S m + 2)%nat in L by lia.
    match goal with |- (let '(_, _) := ?p in _) = _ => destruct p as [g2 su] eqn:ED end.
    cbn [snd] in L. rewrite L. unfold T_H. rewrite EM.
    rewrite <- (tsum_wsum N x (S m)). cbn [tsum]. rewrite EM. replace (N + (S m - S m))%nat with N by lia. pose proof r0pos. rewrite (Rmult_comm x (G0 g)). field. lra.
Qed.
(** ** derivatives *)
Definition dP_H (x : R) : R := K g 0%nat * (1 + psum (fun k => INR (S (S k)) * K g (S k)) x (M g) * x).
Lemma PHq (q : R -> R) x dq k : is_derive q x dq -> is_derive (fun z => k * z * (1 + z * q z)) x (k * (1 + x * q x) + k * x * (q x + x * dq)).
Proof.
  intros D. pose proof (is_derive_unique _ _ _ D) as U. change (fun z => q z) with q in U. auto_derive; [eexists; exact D|]. change (fun z => q z) with q. rewrite U. ring.
Qed.
Lemma PH_derive x : is_derive (P_H g) x (dP_H x).
Proof.
  set (q := fun z => psum (fun k => K g (1 + k)%nat) z (M g)).
  pose proof (Vinet_Props.psum_derive (fun k => K g (1 + k)%nat) x (M g)) as D. fold q in D.
  apply (is_derive_eq _ _ (K g 0%nat * (1 + x * q x) + K g 0%nat * x * (q x + x * psum (fun k => INR (S k) * K g (1 + S k)%nat) x (M g - 1)))).
  - exact (PHq q x _ (K g 0%nat) D).
  - unfold dP_H, q. clear D q. assert (E : forall m, x * (psum (fun k => K g (1 + k)%nat) x m) + x * (psum (fun k => K g (1 + k)%nat) x m + x * psum (fun k => INR (S k) * K g (1 + S k)%nat) x (m - 1)) =
      psum (fun k => INR (S (S k)) * K g (S k)) x m * x).
    { induction m as [|m IH]; [cbn; ring|]. cbn [Vinet_Props.psum]. replace (S m - 1)%nat with m by lia. destruct m as [|m].
      - cbn [Vinet_Props.psum]. change (INR 2) with 2. cbn [pow Nat.add]. ring.
      - replace (S m - 1)%nat with m in IH by lia.
        match type of IH with ?l = ?rh => transitivity (l + (2 * x * (K g (S (S m)) * x ^ S m) + x * x * (INR (S m) * K g (1 + S m)%nat * x ^ m))) end; [cbn [Vinet_Props.psum Nat.add]; ring|].
        rewrite IH. rewrite (S_INR (S (S m))), (S_INR (S m)). cbn [pow Nat.add]. ring. }
    specialize (E (M g)). rewrite <- E. ring.
Qed.
(** eta P_H' - P_H = K0 sum i K_i eta^{i+1} *)
Lemma PH_euler x : x * dP_H x - P_H g x = K g 0%nat * (x * x * psum (fun k => INR (S k) * K g (S k)) x (M g)).
Proof.
  unfold dP_H, P_H. assert (E : forall m, psum (fun k => INR (S (S k)) * K g (S k)) x m = psum (fun k => K g (1 + k)%nat) x m + psum (fun k => INR (S k) * K g (S k)) x m).
  { induction m as [|m IH]; [cbn; ring|]. cbn [Vinet_Props.psum]. rewrite IH. change (1 + m)%nat with (S m). rewrite (S_INR (S m)). ring. }
  rewrite E. ring.
Qed.
Lemma wsum_derive N x m : is_derive (fun z => wsum g N z m) x (x * x * psum (fun k => INR (S k) * K g (S k)) x m + G0 g * wsum g N x m - G0 g * lastsum g N x m).
Proof.
  induction m as [|m IH].
  - cbn [wsum lastsum Vinet_Props.psum]. apply (is_derive_eq _ _ 0); [apply (is_derive_const (K := R_AbsRing) (V := R_NormedModule))|ring].
  - cbn [wsum lastsum Vinet_Props.psum].
    pose proof (Y_derive (S m + 2) (N + (M g - S m)) (G0 g) x ltac:(lia)) as DY.
    pose proof (is_derive_scal _ x (INR (S m) * K g (S m)) _ DY) as DY2.
    eapply is_derive_eq; [exact (is_derive_plus (V := R_NormedModule) _ _ x _ _ IH DY2)|].
    match goal with |- @eq _ ?a ?b => change (@eq R a b) end. unfold plus; cbn -[INR S_ tm pow Vinet_Props.psum wsum lastsum Nat.add].
    replace (S m + 2 - 1)%nat with (S (S m)) by lia. replace (x ^ S (S m)) with (x * x * x ^ m) by (cbn [pow]; ring). ring.
Qed.
Lemma aff2 (f : R -> R) x d a G c : is_derive f x d -> is_derive (fun z => a * exp (G * z) + c * f z) x (a * G * exp (G * x) + c * d).
Proof.
  intros D. pose proof (is_derive_unique _ _ _ D) as U. change (fun z => f z) with f in U. auto_derive; [eexists; exact D|]. change (fun z => f z) with f. rewrite U. ring.
Qed.
Lemma TH_derive N x : is_derive (T_H g N) x (G0 g * T_H g N x + (x * dP_H x - P_H g x) / (2 * rho0 g * Cv0 g) - K g 0%nat / (2 * Cv0 g * rho0 g) * (G0 g * lastsum g N x (M g))).
Proof.
  pose proof r0pos. apply (is_derive_eq _ _ _ _ (aff2 _ x _ (T0 g) (G0 g) (K g 0%nat / (2 * Cv0 g * rho0 g)) (wsum_derive N x (M g)))).
  rewrite PH_euler. unfold T_H. field. lra.
Qed.
Lemma et_derive r : 0 < r -> is_derive (fun z => et z) r (rho0 g / r ^ 2).
Proof. intros H. auto_derive; [lra|]. field. lra. Qed.
(** the three branches *)
Definition comp (r : R) : Prop := tiny < r /\ tiny < et r.
Definition lin (r : R) : Prop := tiny < r /\ Pmin g / K g 0%nat < et r < 0.
Definition cut (r : R) : Prop := tiny < r /\ et r < Pmin g / K g 0%nat.
Hypothesis HP : Pmin g < 0.
Lemma pk : Pmin g / K g 0%nat < 0.
Proof. apply Rmult_lt_reg_r with (K g 0%nat); [exact HK|]. replace (Pmin g / K g 0%nat * K g 0%nat) with (Pmin g) by (field; lra). lra. Qed.
Lemma et_cont r : tiny < r -> continuous (fun z => et z) r.
Proof. intros H. pose proof tiny_pos. refine (derive_cont (fun z => et z) r _ (et_derive r _)). lra. Qed.
Lemma comp_loc r : comp r -> locally r (fun z => comp z).
Proof. intros (H1 & H2). apply loc_and; [apply loc_gt, H1|]. apply (loc_gt_f (fun z => et z)); [apply et_cont, H1|exact H2]. Qed.
Lemma lin_loc r : lin r -> locally r (fun z => lin z).
Proof.
  intros (H1 & H2 & H3). apply loc_and; [apply loc_gt, H1|]. apply loc_and; [apply (loc_gt_f (fun z => et z))|apply (loc_lt_f (fun z => et z))]; try assumption; apply et_cont, H1.
Qed.
Lemma cut_loc r : cut r -> locally r (fun z => cut z).
Proof. intros (H1 & H2). apply loc_and; [apply loc_gt, H1|]. apply (loc_lt_f (fun z => et z)); [apply et_cont, H1|exact H2]. Qed.
Lemma AP_comp r : comp r -> AllHugPressureFromDensity g r = P_H g (et r).
Proof. intros (H1 & H2). pose proof tiny_pos. unfold AllHugPressureFromDensity. cbv zeta. rewrite eta_eq by exact H1. rewrite Rle_bool_false by lra. apply PH_eq, H1. Qed.
Lemma AP_lin r : lin r -> AllHugPressureFromDensity g r = K g 0%nat * et r.
Proof. intros (H1 & H2 & H3). unfold AllHugPressureFromDensity. cbv zeta. rewrite eta_eq by exact H1. rewrite Rle_bool_true by lra. rewrite Rlt_bool_false by lra. reflexivity. Qed.
Lemma AP_cut r : cut r -> AllHugPressureFromDensity g r = Pmin g.
Proof. intros (H1 & H2). pose proof pk. unfold AllHugPressureFromDensity. cbv zeta. rewrite eta_eq by exact H1. rewrite Rle_bool_true by lra. rewrite Rlt_bool_true by lra. reflexivity. Qed.
Lemma AE_eq r : tiny < r -> AllHugInternalEnergyFromDensity g r = E0 g + et r / (2 * rho0 g) * AllHugPressureFromDensity g r.
Proof. intros H. pose proof tiny_pos. unfold AllHugInternalEnergyFromDensity. cbv zeta. rewrite eta_eq by exact H. rewrite ratio_pos by lra. reflexivity. Qed.
Lemma AT_exp r : tiny < r -> et r <= 0 -> AllHugTemperatureFromDensity g r = T0 g * exp (G0 g * et r).
Proof. intros H H2. unfold AllHugTemperatureFromDensity. cbv zeta. rewrite eta_eq by exact H. rewrite Rle_bool_true by exact H2. rewrite (Rmult_comm (et r)). reflexivity. Qed.
Lemma AT_comp r : comp r -> AllHugTemperatureFromDensity g r = HugTemperatureFromDensity g r.
Proof. intros (H1 & H2). pose proof tiny_pos. unfold AllHugTemperatureFromDensity. cbv zeta. rewrite eta_eq by exact H1. rewrite Rle_bool_false by lra. reflexivity. Qed.
(** derivative and bulk modulus for a Hugoniot pressure p(eta) *)
Lemma Pgen (p : R -> R) dp x c e : is_derive p x dp ->
  is_derive (fun z => p z + rho0 g * G0 g * (e - (c + z / (2 * rho0 g) * p z))) x (dp - G0 g / 2 * (p x + x * dp)).
Proof.
  intros D. pose proof r0pos. pose proof (is_derive_unique _ _ _ D) as U. change (fun z => p z) with p in U.
  auto_derive; [refine (conj _ (conj _ I)); eexists; exact D|]. change (fun z => p z) with p. rewrite U. field. lra.
Qed.
Lemma dP_de r e : is_derive (fun z => P_e r z) e (rho0 g * G0 g).
Proof. unfold PressureFromDensityInternalEnergy. auto_derive; [exact I|ring]. Qed.
Lemma bm_gen (p : R -> R) dp (Q : R -> Prop) r e : tiny < r -> locally r Q -> (forall z, Q z -> tiny < z /\ AllHugPressureFromDensity g z = p (et z)) -> is_derive p (et r) dp ->
  is_bulk_modulus P_e r e (rho0 g / r * (dp * (1 - G0 g * et r / 2) + G0 g * p (et r) / 2 + G0 g * G0 g * rho0 g * (e - AllHugInternalEnergyFromDensity g r))).
Proof.
  intros H HQ HE D. pose proof tiny_pos. pose proof r0pos.
  assert (Qr : Q r) by (apply locally_singleton, HQ). destruct (HE r Qr) as (_ & Er).
  eexists _, _. refine (conj _ (conj (dP_de r e) _)).
  - apply (derive_loc _ (fun z => (fun y => p y + rho0 g * G0 g * (e - (E0 g + y / (2 * rho0 g) * p y))) (et z))).
    + apply (loc_imp _ Q); [|exact HQ]. intros z Hz. destruct (HE z Hz) as (Hz1 & Hz2). unfold PressureFromDensityInternalEnergy. rewrite AE_eq by exact Hz1. rewrite Hz2. reflexivity.
    + apply (is_derive_comp (fun y => p y + rho0 g * G0 g * (e - (E0 g + y / (2 * rho0 g) * p y))) (fun z => et z) r); [apply Pgen; exact D|apply et_derive; lra].
  - unfold PressureFromDensityInternalEnergy. rewrite AE_eq by exact H. rewrite Er. unfold scal; cbn; unfold mult; cbn. field. lra.
Qed.
Lemma bm_comp r e : comp r -> is_bulk_modulus P_e r e (rho0 g / r * (dP_H (et r) * (1 - G0 g * et r / 2) + G0 g * P_H g (et r) / 2 + G0 g * G0 g * rho0 g * (e - AllHugInternalEnergyFromDensity g r))).
Proof. intros H. apply (bm_gen (P_H g) _ comp); [apply H|apply comp_loc, H| |apply PH_derive]. intros z Hz. split; [apply Hz|apply AP_comp, Hz]. Qed.
Lemma bm_lin r e : lin r -> is_bulk_modulus P_e r e (rho0 g / r * (K g 0%nat + G0 g * G0 g * rho0 g * (e - AllHugInternalEnergyFromDensity g r))).
Proof.
  intros H. assert (B := bm_gen (fun x => K g 0%nat * x) (K g 0%nat) lin r e (proj1 H) (lin_loc r H)).
  replace (K g 0%nat + G0 g * G0 g * rho0 g * (e - AllHugInternalEnergyFromDensity g r)) with
    (K g 0%nat * (1 - G0 g * et r / 2) + G0 g * (K g 0%nat * et r) / 2 + G0 g * G0 g * rho0 g * (e - AllHugInternalEnergyFromDensity g r)) by (generalize (et r); intros; field).
  apply B. { intros z Hz. split; [apply Hz|apply AP_lin, Hz]. } auto_derive; [exact I|ring].
Qed.
Lemma bm_cut r e : cut r -> is_bulk_modulus P_e r e (rho0 g / r * (G0 g * Pmin g / 2 + G0 g * G0 g * rho0 g * (e - AllHugInternalEnergyFromDensity g r))).
Proof.
  intros H. assert (B := bm_gen (fun x => Pmin g) 0 cut r e (proj1 H) (cut_loc r H)).
  replace (G0 g * Pmin g / 2 + G0 g * G0 g * rho0 g * (e - AllHugInternalEnergyFromDensity g r)) with
    (0 * (1 - G0 g * et r / 2) + G0 g * Pmin g / 2 + G0 g * G0 g * rho0 g * (e - AllHugInternalEnergyFromDensity g r)) by (generalize (et r); intros; field).
  apply B. { intros z Hz. split; [apply Hz|apply AP_cut, Hz]. } auto_derive; [exact I|ring].
Qed.
Lemma bm_unique r e B1 B2 : is_bulk_modulus P_e r e B1 -> is_bulk_modulus P_e r e B2 -> B1 = B2.
Proof.
  intros (a & b & D1 & D2 & ->) (a' & b' & D1' & D2' & ->). rewrite <- (is_derive_unique _ _ _ D1), <- (is_derive_unique _ _ _ D2), <- (is_derive_unique _ _ _ D1'), <- (is_derive_unique _ _ _ D2'). reflexivity.
Qed.
Lemma Be_comp r e : comp r -> B_e r e = rho0 g / r * (dP_H (et r) * (1 - G0 g * et r / 2) + G0 g * P_H g (et r) / 2 + G0 g * G0 g * rho0 g * (e - AllHugInternalEnergyFromDensity g r)).
Proof.
  intros (H1 & H2). pose proof tiny_pos. unfold BulkModulusFromDensityInternalEnergy, compBulkModulusFromDensityInternalEnergy. cbv zeta. rewrite eta_eq by exact H1. rewrite Rle_bool_false by lra.
  rewrite PH_eq by exact H1. rewrite comp_sum_eq. rewrite (ratio_pos (rho0 g) r) by lra. rewrite (ratio_pos _ (et r)) by lra. f_equal.
  pose proof (PH_euler (et r)) as EU. set (x := et r) in *. set (q := psum _ x (M g)) in *.
  assert (Eq : K g 0%nat * (x * q) = dP_H x - P_H g x / x). { apply Rmult_eq_reg_l with x; [|lra]. replace (x * (K g 0%nat * (x * q))) with (K g 0%nat * (x * x * q)) by ring. rewrite <- EU. field. lra. }
  replace ((1 - G0 g * x / 2) * K g 0%nat * (x * q)) with ((1 - G0 g * x / 2) * (K g 0%nat * (x * q))) by ring. rewrite Eq. field. lra.
Qed.
Lemma BT_comp r T : comp r -> B_T r T = B_e r (E_T r T).
Proof.
  intros H. assert (H' := H). destruct H' as (H1 & H2). pose proof tiny_pos. unfold BulkModulusFromDensityInternalEnergy, BulkModulusFromDensityTemperature, compBulkModulusFromDensityInternalEnergy, compBulkModulusFromDensityTemperature. cbv zeta.
  rewrite eta_eq by exact H1. rewrite Rle_bool_false by lra. unfold InternalEnergyFromDensityTemperature. rewrite AT_comp by exact H. f_equal. ring.
Qed.
Lemma round_T r T : 0 <= T -> T_e r (E_T r T) = T.
Proof.
  intros H. unfold TemperatureFromDensityInternalEnergy, InternalEnergyFromDensityTemperature. cbv zeta.
  match goal with |- context [Rlt_bool ?v 0] => replace v with T by (field; lra) end. rewrite Rlt_bool_false by lra. reflexivity.
Qed.
Lemma round_e r e : E_T r 0 <= e -> E_T r (T_e r e) = e /\ 0 <= T_e r e.
Proof.
  intros H. unfold TemperatureFromDensityInternalEnergy, InternalEnergyFromDensityTemperature in *. cbv zeta.
  assert (0 <= (e - AllHugInternalEnergyFromDensity g r) / Cv0 g + AllHugTemperatureFromDensity g r).
  { apply Rmult_le_reg_l with (Cv0 g); [exact HCv|]. rewrite Rmult_0_r.
    replace (Cv0 g * ((e - AllHugInternalEnergyFromDensity g r) / Cv0 g + AllHugTemperatureFromDensity g r)) with (e - AllHugInternalEnergyFromDensity g r + Cv0 g * AllHugTemperatureFromDensity g r) by (field; lra). lra. }
  rewrite Rlt_bool_false by assumption. split; [field; lra|assumption].
Qed.
Lemma P_T_eq r T : P_T r T = P_e r (E_T r T).
Proof. unfold PressureFromDensityTemperature, PressureFromDensityInternalEnergy, InternalEnergyFromDensityTemperature. ring. Qed.
Lemma dS_dT r T : 0 < T -> is_derive (fun t => EntropyFromDensityTemperature g r t) T (Cv0 g / T).
Proof. intros H. unfold EntropyFromDensityTemperature. auto_derive; [apply Rdiv_lt_0_compat; lra|]. field. lra. Qed.
Lemma dS_dr r T : tiny < r -> is_derive (fun z => EntropyFromDensityTemperature g z T) r (- (G0 g * Cv0 g * (rho0 g / r ^ 2))).
Proof.
  intros H. pose proof tiny_pos. apply (derive_loc _ (fun z => S0 g - G0 g * Cv0 g * et z + Cv0 g * ln (T / T0 g))).
  - apply (loc_imp _ (fun z => tiny < z)); [|apply loc_gt, H]. intros z Hz. unfold EntropyFromDensityTemperature. rewrite eta_eq by exact Hz. reflexivity.
  - auto_derive; [lra|]. field. lra.
Qed.
Lemma dE_exp (p : R -> R) dp (Q : R -> Prop) r T : tiny < r -> locally r Q -> (forall z, Q z -> tiny < z /\ et z <= 0 /\ AllHugPressureFromDensity g z = p (et z)) -> is_derive p (et r) dp ->
  is_derive (fun z => E_T z T) r (rho0 g / r ^ 2 * ((p (et r) + et r * dp) / (2 * rho0 g) - Cv0 g * G0 g * (T0 g * exp (G0 g * et r)))).
Proof.
  intros H HQ HE D. pose proof tiny_pos. pose proof r0pos.
  apply (derive_loc _ (fun z => (fun y => E0 g + y / (2 * rho0 g) * p y + Cv0 g * (T - T0 g * exp (G0 g * y))) (et z))).
  - apply (loc_imp _ Q); [|exact HQ]. intros z Hz. destruct (HE z Hz) as (Hz1 & Hz2 & Hz3). unfold InternalEnergyFromDensityTemperature. rewrite AE_eq, AT_exp by assumption. rewrite Hz3. reflexivity.
  - apply (is_derive_comp (fun y => E0 g + y / (2 * rho0 g) * p y + Cv0 g * (T - T0 g * exp (G0 g * y))) (fun z => et z) r); [|apply et_derive; lra].
    pose proof (is_derive_unique _ _ _ D) as U. change (fun z => p z) with p in U. set (x := et r) in *. clearbody x.
    auto_derive; [eexists; exact D|]. change (fun z => p z) with p. rewrite U. field. lra.
Qed.
End D.
Lemma Egen (p t : R -> R) (x dp dt e0 r0 cv T : R) : 0 < r0 -> is_derive p x dp -> is_derive t x dt ->
  is_derive (fun y => e0 + y / (2 * r0) * p y + cv * (T - t y)) x ((p x + x * dp) / (2 * r0) - cv * dt).
Proof.
  intros Hr D1 D2. pose proof (is_derive_unique _ _ _ D1) as U1. pose proof (is_derive_unique _ _ _ D2) as U2.
  change (fun z => p z) with p in U1. change (fun z => t z) with t in U2.
  auto_derive; [refine (conj _ (conj _ I)); eexists; eassumption|]. change (fun z => p z) with p. change (fun z => t z) with t. rewrite U1, U2. field. lra.
Qed.
Ltac adm H := destruct H as (?Hr0 & ?HT0 & ?HCv & ?HK & ?HP).

(** ** theorems *)
(** the constructor keeps the largest nonzero coefficient index, so no coefficient is lost, and replaces a non-negative Pmin *)
Theorem C25_powermg_constructor : forall r0 t0 g0 cv0 e0 s0 pmin k A Z g, make r0 t0 g0 cv0 e0 s0 pmin k A Z = Some g ->
  rho0 g = r0 /\ T0 g = t0 /\ G0 g = g0 /\ Cv0 g = cv0 /\ E0 g = e0 /\ S0 g = s0 /\ (forall i, K g i = k i) /\
  (M g <= 40)%nat /\ (forall i, (M g < i <= 40)%nat -> K g i = 0) /\
  Pmin g = (if Rle_bool 0 pmin then - (1000) * k 0%nat else pmin) /\ (0 < k 0%nat -> Pmin g < 0).
Proof.
  intros r0 t0 g0 cv0 e0 s0 pmin k A Z g H. unfold make in H. destruct (CheckParams _) eqn:EC; [|discriminate].
  assert (HM : (InitM k <= 40)%nat /\ forall i, (InitM k < i <= 40)%nat -> k i = 0).
  { unfold InitM. assert (G : forall n, (n <= 41)%nat -> let m := fold_left (fun m ind => if Req_bool (k ind) 0 then m else ind) (seq 0 n) 0%nat in (m <= 40)%nat /\ forall i, (m < i < n)%nat -> k i = 0).
    { induction n as [|n IH]; intros Hn; cbv zeta; [split; [cbn; lia|intros; lia]|]. rewrite seq_S, fold_left_app. cbn [fold_left Nat.add]. destruct (IH ltac:(lia)) as (I1 & I2).
      destruct (Req_bool_spec (k n) 0) as [E|E]; [|split; [lia|intros; lia]]. split; [exact I1|]. intros i Hi. destruct (Nat.eq_dec i n) as [->|]; [exact E|]. apply I2. lia. }
    destruct (G 41%nat ltac:(lia)) as (G1 & G2). split; [exact G1|]. intros i Hi. apply G2. lia. }
  destruct HM as (HM1 & HM2). destruct (Rle_bool_spec 0 pmin) as [E|E]; injection H as <-; cbn [rho0 T0 G0 Cv0 E0 S0 K M Pmin]; repeat split; auto; intros; lra.
Qed.
(** the documented Hugoniot (and isentrope) in each regime *)
Theorem C25_powermg_reference_curve : forall g rho, admissible g -> tiny < rho -> let eta := 1 - rho0 g / rho in
  (0 < eta -> AllHugPressureFromDensity g rho = P_H g eta /\ AllHugInternalEnergyFromDensity g rho = P_H g eta * eta / (2 * rho0 g) + E0 g) /\
  (Pmin g / K g 0%nat <= eta <= 0 -> AllHugPressureFromDensity g rho = K g 0%nat * eta /\
     AllHugInternalEnergyFromDensity g rho = K g 0%nat * eta ^ 2 / (2 * rho0 g) + E0 g /\ AllHugTemperatureFromDensity g rho = T0 g * exp (G0 g * eta)) /\
  (eta < Pmin g / K g 0%nat -> AllHugPressureFromDensity g rho = Pmin g /\ AllHugTemperatureFromDensity g rho = T0 g * exp (G0 g * eta)).
Proof.
  intros g rho HA H eta. adm HA. pose proof (pk g HK HP). pose proof tiny_pos. assert (0 < rho0 g) by lra. refine (conj _ (conj _ _)).
  - intros He. assert (EP : AllHugPressureFromDensity g rho = P_H g eta).
    { unfold AllHugPressureFromDensity. cbv zeta. rewrite eta_eq by exact H. fold eta. rewrite Rle_bool_false by exact He. apply PH_eq, H. }
    split; [exact EP|]. rewrite AE_eq; auto. rewrite EP. fold eta. clearbody eta. field. lra.
  - intros He. assert (EP : AllHugPressureFromDensity g rho = K g 0%nat * eta).
    { unfold AllHugPressureFromDensity. cbv zeta. rewrite eta_eq by exact H. fold eta. rewrite Rle_bool_true by lra. rewrite Rlt_bool_false by lra. reflexivity. }
    refine (conj EP (conj _ _)); [rewrite AE_eq; auto; rewrite EP; fold eta; clearbody eta; field; lra|apply AT_exp; auto; fold eta; lra].
  - intros He. split; [apply AP_cut; auto; split; assumption|apply AT_exp; auto; fold eta; lra].
Qed.
(** Refuted: below the cut-off the documented energy is K0 eta_min^2/(2 rho0) + E0 + Pmin/rho0 (eta - eta_min); the code is off by Pmin (eta - eta_min)/(2 rho0) *)
Theorem C59_powermg_energy_below_Pmin_refuted : forall g rho, admissible g -> tiny < rho -> let eta := 1 - rho0 g / rho in let etamin := Pmin g / K g 0%nat in
  eta < etamin ->
  let documented := K g 0%nat * etamin ^ 2 / (2 * rho0 g) + E0 g + Pmin g / rho0 g * (eta - etamin) in
  documented - AllHugInternalEnergyFromDensity g rho = Pmin g * (eta - etamin) / (2 * rho0 g) /\ AllHugInternalEnergyFromDensity g rho < documented.
Proof.
  intros g rho HA H eta etamin He. cbv zeta. adm HA. pose proof tiny_pos. assert (Hr : 0 < rho0 g) by lra.
  assert (E : K g 0%nat * etamin ^ 2 / (2 * rho0 g) + E0 g + Pmin g / rho0 g * (eta - etamin) - AllHugInternalEnergyFromDensity g rho = Pmin g * (eta - etamin) / (2 * rho0 g)).
  { rewrite AE_eq; auto. rewrite AP_cut; auto; [|split; assumption]. fold eta. 
    replace (K g 0%nat * etamin ^ 2) with (Pmin g * etamin) by (unfold etamin; field; lra). field. lra. }
  split; [exact E|]. assert (0 < Pmin g * (eta - etamin) / (2 * rho0 g)). { apply Rdiv_lt_0_compat; [|lra]. replace (Pmin g * (eta - etamin)) with ((- Pmin g) * (etamin - eta)) by ring. apply Rmult_lt_0_compat; lra. } lra.
Qed.
Theorem C25_powermg_consistency : forall g, admissible g ->
  (forall rho T, 0 <= T -> TemperatureFromDensityInternalEnergy g rho (InternalEnergyFromDensityTemperature g rho T) = T) /\
  (forall rho e, InternalEnergyFromDensityTemperature g rho 0 <= e ->
     InternalEnergyFromDensityTemperature g rho (TemperatureFromDensityInternalEnergy g rho e) = e /\ 0 <= TemperatureFromDensityInternalEnergy g rho e) /\
  (forall rho T, PressureFromDensityTemperature g rho T = PressureFromDensityInternalEnergy g rho (InternalEnergyFromDensityTemperature g rho T)).
Proof.
  intros g HA. adm HA. refine (conj _ (conj _ _)); [intros; apply round_T; auto|intros; apply round_e; auto|intros; apply P_T_eq].
Qed.
Theorem C25_powermg_derivatives : forall g rho e T, admissible g -> tiny < rho ->
  is_gruneisen (PressureFromDensityInternalEnergy g) rho e (GruneisenParamFromDensityInternalEnergy g rho e) /\
  GruneisenParamFromDensityTemperature g rho T = GruneisenParamFromDensityInternalEnergy g rho e /\
  is_specific_heat (InternalEnergyFromDensityTemperature g) rho T (SpecificHeatFromDensityTemperature g rho T) /\
  (tiny < 1 - rho0 g / rho ->
    is_bulk_modulus (PressureFromDensityInternalEnergy g) rho e (BulkModulusFromDensityInternalEnergy g rho e) /\
    BulkModulusFromDensityTemperature g rho T = BulkModulusFromDensityInternalEnergy g rho (InternalEnergyFromDensityTemperature g rho T)) /\
  (Pmin g / K g 0%nat < 1 - rho0 g / rho < 0 ->
    is_bulk_modulus (PressureFromDensityInternalEnergy g) rho (InternalEnergyFromDensityTemperature g rho T) (BulkModulusFromDensityTemperature g rho T)).
Proof.
  intros g rho e T HA Hr. adm HA. pose proof tiny_pos. refine (conj _ (conj _ (conj _ (conj _ _)))).
  - unfold is_gruneisen, GruneisenParamFromDensityInternalEnergy. rewrite ratio_pos by lra.
    replace (rho * (G0 g * rho0 g / rho)) with (rho0 g * G0 g) by (field; lra). apply dP_de.
  - reflexivity.
  - unfold is_specific_heat, SpecificHeatFromDensityTemperature, InternalEnergyFromDensityTemperature. auto_derive; [exact I|ring].
  - intros Hc. assert (C : comp g rho) by (split; assumption). split; [|apply BT_comp; auto]. rewrite Be_comp; auto. apply bm_comp; auto.
  - intros Hl. assert (L : lin g rho) by (split; assumption).
    assert (E : BulkModulusFromDensityTemperature g rho T = rho0 g / rho * (K g 0%nat + G0 g * G0 g * rho0 g * (InternalEnergyFromDensityTemperature g rho T - AllHugInternalEnergyFromDensity g rho))).
    { unfold BulkModulusFromDensityTemperature. cbv zeta. rewrite eta_eq by exact Hr. rewrite Rle_bool_true by lra. rewrite Rlt_bool_false by lra. rewrite (ratio_pos (rho0 g) rho) by lra.
      unfold InternalEnergyFromDensityTemperature. rewrite AT_exp; [|auto|lra]. f_equal. ring. }
    rewrite E. apply bm_lin; auto.
Qed.
(** Refuted: in linear expansion the bulk modulus from (rho,e) misses a division by rho0, so it is the bulk modulus of the pressure only if rho0 = 1 *)
Theorem C59_powermg_expansion_bulk_modulus_rho_e_refuted : forall g rho e, admissible g -> tiny < rho -> Pmin g / K g 0%nat < 1 - rho0 g / rho < 0 ->
  G0 g <> 0 -> (is_bulk_modulus (PressureFromDensityInternalEnergy g) rho e (BulkModulusFromDensityInternalEnergy g rho e) <-> rho0 g = 1).
Proof.
  intros g rho e HA Hr Hl HG. adm HA. pose proof tiny_pos. assert (L : lin g rho) by (split; assumption). assert (Hp : 0 < rho0 g) by lra.
  assert (B : is_bulk_modulus (PressureFromDensityInternalEnergy g) rho e (rho0 g / rho * (K g 0%nat + G0 g * G0 g * rho0 g * (e - AllHugInternalEnergyFromDensity g rho)))) by (apply bm_lin; auto). set (x := 1 - rho0 g / rho) in *.
  assert (E : BulkModulusFromDensityInternalEnergy g rho e = rho0 g / rho * (K g 0%nat + G0 g * G0 g * rho0 g * (e - E0 g - K g 0%nat * x * x / 2))).
  { unfold BulkModulusFromDensityInternalEnergy. cbv zeta. rewrite eta_eq by exact Hr. fold x. rewrite Rle_bool_true by lra. rewrite Rlt_bool_false by lra. rewrite (ratio_pos (rho0 g) rho) by lra. reflexivity. }
  rewrite AE_eq, AP_lin in B; auto. fold x in B. rewrite E. split.
  - intros B2. pose proof (bm_unique g _ _ _ _ B B2) as U. assert (Hw : rho0 g / rho <> 0). { apply Rgt_not_eq. apply Rdiv_lt_0_compat; lra. }
    apply Rmult_eq_reg_l in U; [|exact Hw]. 
    assert (Z : (G0 g * G0 g * K g 0%nat * (x * x)) * (rho0 g - 1) = 0).
    { replace ((G0 g * G0 g * K g 0%nat * (x * x)) * (rho0 g - 1)) with (2 * ((K g 0%nat + G0 g * G0 g * rho0 g * (e - (E0 g + x / (2 * rho0 g) * (K g 0%nat * x)))) - (K g 0%nat + G0 g * G0 g * rho0 g * (e - E0 g - K g 0%nat * x * x / 2)))) by (field; lra). rewrite U. ring. }
    apply Rmult_integral in Z. destruct Z as [Z|Z]; [|lra]. exfalso. assert (G0 g * G0 g * K g 0%nat * (x * x) <> 0); [|contradiction]. repeat apply Rmult_integral_contrapositive_currified; lra.
  - intros E1. rewrite E1 in *. replace (e - E0 g - K g 0%nat * x * x / 2) with (e - (E0 g + x / (2 * 1) * (K g 0%nat * x))) by field. exact B.
Qed.
(** Refuted: below the cut-off neither bulk modulus is that of the pressure *)
Theorem C59_powermg_cutoff_bulk_modulus_refuted : forall g rho T e, admissible g -> tiny < rho -> 1 - rho0 g / rho < Pmin g / K g 0%nat -> G0 g <> 0 ->
  ~ is_bulk_modulus (PressureFromDensityInternalEnergy g) rho (InternalEnergyFromDensityTemperature g rho T) (BulkModulusFromDensityTemperature g rho T) /\
  (G0 g * (Pmin g / K g 0%nat - (1 - rho0 g / rho)) <> 1 ->
   ~ is_bulk_modulus (PressureFromDensityInternalEnergy g) rho e (BulkModulusFromDensityInternalEnergy g rho e)).
Proof.
  intros g rho T e HA Hr Hl HG. adm HA. pose proof tiny_pos. assert (L : cut g rho) by (split; assumption). assert (Hp : 0 < rho0 g) by lra. pose proof (pk g HK HP) as Hpk.
  set (x := 1 - rho0 g / rho) in *. assert (Hw : rho0 g / rho <> 0) by (apply Rgt_not_eq; apply Rdiv_lt_0_compat; lra). split.
  - intros B2. pose proof (bm_unique g _ _ _ _ ltac:(apply bm_cut; [auto .. | exact L]) B2) as U.
    unfold BulkModulusFromDensityTemperature in U. cbv zeta in U. rewrite eta_eq in U by exact Hr. fold x in U. rewrite Rle_bool_true in U by lra. rewrite Rlt_bool_true in U by lra. rewrite (ratio_pos (rho0 g) rho) in U by lra.
    apply Rmult_eq_reg_l in U; [|exact Hw]. unfold InternalEnergyFromDensityTemperature in U. rewrite AT_exp in U; [|auto|fold x; lra]. fold x in U.
    assert (G0 g * Pmin g = 0) by lra. apply Rmult_integral in H0. destruct H0; [contradiction|lra].
  - intros Hne B2. pose proof (bm_unique g _ _ _ _ ltac:(apply bm_cut; [auto .. | exact L]) B2) as U.
    unfold BulkModulusFromDensityInternalEnergy in U. cbv zeta in U. rewrite eta_eq in U by exact Hr. fold x in U. rewrite Rle_bool_true in U by lra. rewrite Rlt_bool_true in U by lra. rewrite (ratio_pos (rho0 g) rho) in U by lra.
    apply Rmult_eq_reg_l in U; [|exact Hw]. rewrite AE_eq, AP_cut in U; auto. fold x in U.
    assert (Z : (G0 g * Pmin g) * (G0 g * (Pmin g / K g 0%nat - x) - 1) = 0).
    { replace ((G0 g * Pmin g) * (G0 g * (Pmin g / K g 0%nat - x) - 1)) with
       (2 * (G0 g * G0 g * rho0 g * (e - E0 g + Pmin g / rho0 g * (Pmin g / K g 0%nat / 2 - x)) - (G0 g * Pmin g / 2 + G0 g * G0 g * rho0 g * (e - (E0 g + x / (2 * rho0 g) * Pmin g))))) by (field; lra). rewrite U. ring. }
    apply Rmult_integral in Z. destruct Z as [Z|Z]; [|apply Hne; lra]. apply Rmult_integral in Z. destruct Z; [contradiction|lra].
Qed.
(** the first law in linear expansion *)
Theorem C25_powermg_first_law_expansion : forall g rho T, admissible g -> tiny < rho -> Pmin g / K g 0%nat < 1 - rho0 g / rho < 0 -> 0 < T ->
  first_law (EntropyFromDensityTemperature g) (InternalEnergyFromDensityTemperature g) (PressureFromDensityTemperature g) rho T.
Proof.
  intros g rho T HA Hr Hl HT. adm HA. pose proof tiny_pos. assert (L : lin g rho) by (split; assumption). assert (Hp : 0 < rho0 g) by lra.
  set (x := 1 - rho0 g / rho) in *.
  assert (DE : is_derive (fun z => InternalEnergyFromDensityTemperature g z T) rho (rho0 g / rho ^ 2 * ((K g 0%nat * x + x * K g 0%nat) / (2 * rho0 g) - Cv0 g * G0 g * (T0 g * exp (G0 g * x))))).
  { apply (dE_exp g Hr0 (fun y => K g 0%nat * y) (K g 0%nat) (lin g) rho T Hr); [apply lin_loc; auto| |auto_derive; [exact I|ring]].
    intros z Hz. refine (conj (proj1 Hz) (conj _ _)); [destruct Hz as (_ & _ & Hz); lra|apply AP_lin; auto]. }
  exists (Cv0 g), (rho0 g / rho ^ 2 * ((K g 0%nat * x + x * K g 0%nat) / (2 * rho0 g) - Cv0 g * G0 g * (T0 g * exp (G0 g * x)))).
  refine (conj _ (conj DE (conj (dS_dT g HT0 rho T HT) _))).
  - unfold InternalEnergyFromDensityTemperature. auto_derive; [exact I|ring].
  - apply (is_derive_eq _ _ _ _ (dS_dr g rho T Hr)). unfold PressureFromDensityTemperature. rewrite AP_lin, AT_exp; auto; [|fold x; lra]. fold x. field. lra.
Qed.
(** Refuted: below the cut-off the first law fails for every state *)
Theorem C59_powermg_first_law_below_Pmin_refuted : forall g rho T, admissible g -> tiny < rho -> 1 - rho0 g / rho < Pmin g / K g 0%nat -> 0 < T ->
  ~ first_law (EntropyFromDensityTemperature g) (InternalEnergyFromDensityTemperature g) (PressureFromDensityTemperature g) rho T.
Proof.
  intros g rho T HA Hr Hl HT (c & d & _ & D1 & _ & D2). adm HA. pose proof tiny_pos. assert (L : cut g rho) by (split; assumption). assert (Hp : 0 < rho0 g) by lra. pose proof (pk g HK HP) as Hpk.
  set (x := 1 - rho0 g / rho) in *.
  assert (DE : is_derive (fun z => InternalEnergyFromDensityTemperature g z T) rho (rho0 g / rho ^ 2 * ((Pmin g + x * 0) / (2 * rho0 g) - Cv0 g * G0 g * (T0 g * exp (G0 g * x))))).
  { apply (dE_exp g Hr0 (fun y => Pmin g) 0 (cut g) rho T Hr); [apply cut_loc; auto| |auto_derive; [exact I|ring]].
    intros z Hz. refine (conj (proj1 Hz) (conj _ _)); [destruct Hz as (_ & Hz); lra|apply AP_cut; auto]. }
  pose proof (is_derive_unique _ _ _ D1) as U1. rewrite (is_derive_unique _ _ _ DE) in U1.
  pose proof (is_derive_unique _ _ _ D2) as U2. rewrite (is_derive_unique _ _ _ (dS_dr g rho T Hr)) in U2.
  rewrite <- U1 in U2. unfold PressureFromDensityTemperature in U2. rewrite AP_cut, AT_exp in U2; auto; [|fold x; lra]. fold x in U2.
  set (Y := T0 g * exp (G0 g * x)) in *. clearbody Y.
  assert (Z : Pmin g = 0).
  { apply Rmult_eq_compat_r with (r := 2 * T * rho ^ 2) in U2.
    replace (- (G0 g * Cv0 g * (rho0 g / rho ^ 2)) * (2 * T * rho ^ 2)) with (- 2 * T * G0 g * Cv0 g * rho0 g) in U2 by (field; lra).
    replace ((rho0 g / rho ^ 2 * ((Pmin g + x * 0) / (2 * rho0 g) - Cv0 g * G0 g * Y) - (Pmin g + G0 g * rho0 g * Cv0 g * (T - Y)) / (rho * rho)) / T * (2 * T * rho ^ 2))
      with (Pmin g - 2 * rho0 g * Cv0 g * G0 g * Y - 2 * (Pmin g + G0 g * rho0 g * Cv0 g * (T - Y))) in U2 by (field; lra). lra. }
  lra.
Qed.
(** the Hugoniot temperature in compression: the series with N <= 200 terms; on exit by convergence (G0 >= 0) no further terms change the
    top coefficient by more than 1e-15 of it; and the temperature satisfies the first law up to the last terms kept *)
Theorem C25_powermg_series_accuracy : forall g rho, admissible g -> (M g <= 40)%nat -> tiny < rho -> tiny < 1 - rho0 g / rho -> 0 <= G0 g ->
  exists N, (N <= 200)%nat /\ AllHugTemperatureFromDensity g rho = T_H g N (1 - rho0 g / rho) /\
  ((forall j, 0 <= S_ (M g + 2) (N + j) (G0 g * (1 - rho0 g / rho)) - S_ (M g + 2) N (G0 g * (1 - rho0 g / rho)) <= 1 / 10 ^ 15 * S_ (M g + 2) N (G0 g * (1 - rho0 g / rho))) \/
   (200 <= M g + 2 + N)%nat).
Proof.
  intros g rho HA HM Hr He HG. adm HA. pose proof tiny_pos. destruct (HT_eq g Hr0 HCv rho Hr HM) as (N & HN & _ & EN & HC). exists N. split; [exact HN|].
  split; [rewrite AT_comp; auto; split; assumption|]. destruct HC as [HC|HC]; [left|right; exact HC]. intros j.
  assert (Hx : 0 <= G0 g * (1 - rho0 g / rho)) by (apply Rmult_le_pos; lra). destruct (S_tail (M g + 2) N j _ Hx). lra.
Qed.
Theorem C25_powermg_first_law_compression : forall g rho T, admissible g -> (M g <= 40)%nat -> tiny < rho -> tiny < 1 - rho0 g / rho -> 0 < T ->
  exists N, (N <= 200)%nat /\ AllHugTemperatureFromDensity g rho = T_H g N (1 - rho0 g / rho) /\
  let E r t := AllHugInternalEnergyFromDensity g r + Cv0 g * (t - T_H g N (1 - rho0 g / r)) in
  exists dEdr defect,
    E rho T = InternalEnergyFromDensityTemperature g rho T /\
    is_derive (fun t => EntropyFromDensityTemperature g rho t) T (Cv0 g / T) /\
    is_derive (fun r => E r T) rho dEdr /\
    is_derive (fun r => EntropyFromDensityTemperature g r T) rho ((dEdr - PressureFromDensityTemperature g rho T / (rho * rho) - defect) / T) /\
    defect = K g 0%nat * G0 g / (2 * rho ^ 2) * lastsum g N (1 - rho0 g / rho) (M g).
Proof.
  intros g rho T HA HM Hr He HT. adm HA. pose proof tiny_pos. destruct (HT_eq g Hr0 HCv rho Hr HM) as (N & HN & _ & EN & HC). exists N. split; [exact HN|].
  assert (C : comp g rho) by (split; assumption). assert (Hp : 0 < rho0 g) by lra.
  assert (EA : AllHugTemperatureFromDensity g rho = T_H g N (1 - rho0 g / rho)) by (rewrite AT_comp; auto). split; [exact EA|]. cbv zeta.
  set (x := 1 - rho0 g / rho) in *.
  assert (DE : is_derive (fun r => (fun y => E0 g + y / (2 * rho0 g) * P_H g y + Cv0 g * (T - T_H g N y)) (1 - rho0 g / r)) rho
    (rho0 g / rho ^ 2 * ((P_H g x + x * dP_H g x) / (2 * rho0 g) - Cv0 g * (G0 g * T_H g N x + (x * dP_H g x - P_H g x) / (2 * rho0 g * Cv0 g) - K g 0%nat / (2 * Cv0 g * rho0 g) * (G0 g * lastsum g N x (M g)))))).
  { apply (is_derive_comp (fun y => E0 g + y / (2 * rho0 g) * P_H g y + Cv0 g * (T - T_H g N y)) (fun z => 1 - rho0 g / z) rho); [|apply et_derive; lra].
    fold x. apply Egen; [exact Hp|apply PH_derive|apply TH_derive; auto]. }
  eexists _, _. refine (conj _ (conj (dS_dT g HT0 rho T HT) (conj _ (conj _ eq_refl)))).
  - unfold InternalEnergyFromDensityTemperature. rewrite EA. reflexivity.
  - apply (derive_loc _ (fun r => (fun y => E0 g + y / (2 * rho0 g) * P_H g y + Cv0 g * (T - T_H g N y)) (1 - rho0 g / r))); [|exact DE].
    apply (loc_imp _ (comp g)); [|apply comp_loc; auto]. intros z Hz. rewrite AE_eq, AP_comp; auto. apply Hz.
  - apply (is_derive_eq _ _ _ _ (dS_dr g rho T Hr)). unfold PressureFromDensityTemperature. rewrite AP_comp, EA; auto. fold x. field. lra.
Qed.
(** Refuted for negative Gruneisen parameters (which CheckParams allows): the series loop never runs, whatever the size of the dropped terms *)
Theorem C59_powermg_negative_gruneisen_refuted : forall g x, x < 0 -> SN2Mp2 g x = 1 / INR (M g + 2).
Proof.
  intros g x Hx. unfold SN2Mp2. cbv zeta. assert (0 < 1 / INR (M g + 2)). { apply Rdiv_lt_0_compat; [lra|]. apply lt_0_INR. lia. }
  assert (exp x < 1) by (rewrite <- exp_0; apply exp_increasing; exact Hx). set (fu := 199%nat). cbn [sn_loop].
  rewrite Rlt_bool_false; [reflexivity|]. assert (0 < (1 - exp x) * (1 / INR (M g + 2))) by (apply Rmult_lt_0_compat; lra). lra.
Qed.
Theorem C25_powermg_entropy_rho_e : forall g rho e,
  0 <= EntropyFromDensityTemperature g rho (TemperatureFromDensityInternalEnergy g rho e) ->
  EntropyFromDensityInternalEnergy g rho e = EntropyFromDensityTemperature g rho (TemperatureFromDensityInternalEnergy g rho e).
Proof. intros g rho e H. unfold EntropyFromDensityInternalEnergy. cbv zeta. fold (EntropyFromDensityTemperature g rho (TemperatureFromDensityInternalEnergy g rho e)). rewrite Rlt_bool_false by exact H. reflexivity. Qed.
Theorem C25_powermg_reference_state : forall g, admissible g -> tiny < rho0 g ->
  ValuesAtReferenceState g = (rho0 g :: T0 g :: InternalEnergyFromDensityTemperature g (rho0 g) (T0 g) :: 0 :: SpecificHeatFromDensityTemperature g (rho0 g) (T0 g) ::
    BulkModulusFromDensityInternalEnergy g (rho0 g) (E0 g) :: rho0 g * GruneisenParamFromDensityTemperature g (rho0 g) (T0 g) :: ratio (- (1)) (T0 g * G0 g * rho0 g) :: nil)%list /\
  BulkModulusFromDensityTemperature g (rho0 g) (T0 g) = K g 0%nat /\ EntropyFromDensityTemperature g (rho0 g) (T0 g) = S0 g.
Proof.
  intros g HA Hrr. adm HA. pose proof tiny_pos as Ht. pose proof (pk g HK HP) as Hpk.
  assert (Ee : eta_ g (rho0 g) = 0) by (rewrite eta_eq by exact Hrr; field; lra).
  assert (ETH : AllHugTemperatureFromDensity g (rho0 g) = T0 g). { unfold AllHugTemperatureFromDensity. cbv zeta. rewrite Ee. rewrite Rle_bool_true by lra. rewrite Rmult_0_l, exp_0. ring. }
  assert (EPH : AllHugPressureFromDensity g (rho0 g) = 0). { unfold AllHugPressureFromDensity. cbv zeta. rewrite Ee. rewrite Rle_bool_true by lra. rewrite Rlt_bool_false by lra. ring. }
  assert (EEH : AllHugInternalEnergyFromDensity g (rho0 g) = E0 g) by (unfold AllHugInternalEnergyFromDensity; cbv zeta; rewrite EPH; ring).
  refine (conj _ (conj _ _)).
  - unfold ValuesAtReferenceState, InternalEnergyFromDensityTemperature, PressureFromDensityTemperature, BulkModulusFromDensityInternalEnergy, GruneisenParamFromDensityTemperature, SpecificHeatFromDensityTemperature. cbv zeta.
    rewrite Ee, ETH, EPH, EEH. rewrite Rle_bool_true by lra. rewrite Rlt_bool_false by lra. rewrite !(ratio_pos _ (rho0 g)) by lra. repeat (f_equal; try (field; lra)).
  - unfold BulkModulusFromDensityTemperature. cbv zeta. rewrite Ee. rewrite Rle_bool_true by lra. rewrite Rlt_bool_false by lra. rewrite (ratio_pos _ (rho0 g)) by lra. rewrite Rmult_0_r, exp_0. field. lra.
  - unfold EntropyFromDensityTemperature. rewrite Ee. replace (T0 g / T0 g) with 1 by (field; lra). rewrite ln_1. ring.
Qed.
(** FillEos *)
Theorem C25_powermg_FillEos : forall g m o st, admissible g -> mode_of o m -> (m = InRhoSie /\ f_temp o = true) \/ (m = InRhoTemp /\ 0 <= s_temp st) ->
  exists st', FillEos g o st = Some st' /\
  fill_ok (TemperatureFromDensityInternalEnergy g) (PressureFromDensityInternalEnergy g) (SpecificHeatFromDensityInternalEnergy g) (BulkModulusFromDensityInternalEnergy g) m o st st'.
Proof.
  intros g m [fr ft fs fp fc fb] [r t e p c b] HA Hm H. adm HA. Opaque TemperatureFromDensityInternalEnergy PressureFromDensityInternalEnergy SpecificHeatFromDensityInternalEnergy BulkModulusFromDensityInternalEnergy InternalEnergyFromDensityTemperature.
  destruct H as [(-> & Hf)|(-> & Hf)]; cbn in Hm, Hf.
  - destruct Hm as (-> & ->). subst ft. eexists. split; [reflexivity|]. unfold fill_ok, fill_frame, fill_values, cond_upd. destruct fp, fc, fb; cbn; repeat split; auto; discriminate.
  - destruct Hm as (-> & -> & -> & ->). eexists. split; [reflexivity|]. unfold fill_ok, fill_frame, fill_values, cond_upd.
    destruct fc, fb; cbn; repeat split; auto; try discriminate; apply round_T; auto.
Qed.
(** Refuted: with (rho, e) as input and the temperature not requested, the input energy is overwritten from whatever the temperature holds *)
Theorem C58_powermg_FillEos_overwrites_energy_refuted : forall g o st, f_rho o = false -> f_temp o = false -> f_sie o = false ->
  exists st', FillEos g o st = Some st' /\ s_sie st' = InternalEnergyFromDensityTemperature g (s_rho st) (s_temp st).
Proof.
  intros g [fr ft fs fp fc fb] [r t e p c b]. cbn. intros -> -> ->. eexists. split; [reflexivity|]. unfold cond_upd. destruct fp, fc, fb; reflexivity.
Qed.
Theorem C44_powermg_CheckParams : forall g, CheckParams g = true <->
  0 <= rho0 g /\ 0 <= T0 g /\ 0 <= Cv0 g /\ 0 <= K g 0%nat /\ 0 < Abar g /\ 0 < Zbar g.
Proof.
  intros g. unfold CheckParams. rewrite !andb_true_iff, !negb_true_iff.
  split.
  - intros ((((A & B) & C) & D) & G & H).
    destruct (Rlt_bool_spec (rho0 g) 0), (Rlt_bool_spec (T0 g) 0), (Rlt_bool_spec (Cv0 g) 0), (Rlt_bool_spec (K g 0%nat) 0), (Rlt_bool_spec 0 (Abar g)), (Rlt_bool_spec 0 (Zbar g)); try discriminate. auto 10.
  - intros (A & B & C & D & G & H). rewrite !Rlt_bool_false by assumption. rewrite !Rlt_bool_true by assumption. auto 10.
Qed.
(** Refuted: K0 = 0 and Cv0 = 0 are accepted although Pmin/K0 and 1/Cv0 are evaluated; with K0 = 0 and Pmin not set the cut-off pressure becomes 0 *)
Theorem C62_powermg_zero_divisors_refuted : exists g, make 1 300 1 0 0 0 0 (fun _ => 0) 1 1 = Some g /\ K g 0%nat = 0 /\ Cv0 g = 0 /\ Pmin g = 0.
Proof.
  unfold make. replace (CheckParams _) with true. 2: { symmetry. apply C44_powermg_CheckParams. cbn [rho0 T0 Cv0 K Abar Zbar Nat.eqb]. lra. }
  eexists. split; [reflexivity|]. rewrite Rle_bool_true by lra. cbn [K Cv0 Pmin]. repeat split; lra.
Qed.
Transparent TemperatureFromDensityInternalEnergy PressureFromDensityInternalEnergy SpecificHeatFromDensityInternalEnergy BulkModulusFromDensityInternalEnergy InternalEnergyFromDensityTemperature.
(** the hypotheses are met: in compression, in linear expansion and below the cut-off *)
Example C25_powermg_instance : exists g, make 2 300 2 1 0 0 (- (1)) (fun i => if Nat.eqb i 0 then 4 else if Nat.eqb i 1 then 3 else 0) 1 1 = Some g /\ admissible g /\ M g = 1%nat /\ G0 g <> 0 /\
  tiny < 1 - rho0 g / 3 /\ (Pmin g / K g 0%nat < 1 - rho0 g / (9 / 5) < 0) /\ (1 - rho0 g / 1 < Pmin g / K g 0%nat /\ G0 g * (Pmin g / K g 0%nat - (1 - rho0 g / 1)) <> 1) /\ tiny < 1 /\ tiny < rho0 g.
Proof.
  assert (HT : tiny < 1/1000000). { unfold tiny. eapply Rlt_le_trans; [apply (bpow_lt radix2 (-960) (-20)); lia|]. cbn. lra. }
  unfold make. replace (CheckParams _) with true. 2: { symmetry. apply C44_powermg_CheckParams. cbn [rho0 T0 Cv0 K Abar Zbar Nat.eqb]. lra. }
  eexists. split; [reflexivity|]. rewrite Rle_bool_false by lra. unfold admissible. cbn [rho0 T0 G0 Cv0 K M Pmin Nat.eqb].
  assert (EM : InitM (fun i => if Nat.eqb i 0 then 4 else if Nat.eqb i 1 then 3 else 0) = 1%nat).
  { unfold InitM. change (seq 0 41) with (0%nat :: 1%nat :: seq 2 39). cbn [fold_left Nat.eqb]. rewrite (Req_bool_false 3 0) by lra.
    set (l := seq 2 39). assert (HL : forall i, In i l -> (2 <= i)%nat) by (intros i Hi; apply in_seq in Hi; lia). clearbody l.
    induction l as [|a l IH]; [reflexivity|]. cbn [fold_left]. assert (2 <= a)%nat by (apply HL; left; reflexivity).
    destruct (Nat.eqb_spec a 0); [lia|]. destruct (Nat.eqb_spec a 1); [lia|]. rewrite Req_bool_true by reflexivity. apply IH. intros i Hi. apply HL. right. exact Hi. }
  rewrite EM. repeat split; try lra.
Qed.
Print Assumptions C25_powermg_constructor.
Print Assumptions C25_powermg_reference_curve.
Print Assumptions C59_powermg_energy_below_Pmin_refuted.
Print Assumptions C25_powermg_consistency.
Print Assumptions C25_powermg_derivatives.
Print Assumptions C59_powermg_expansion_bulk_modulus_rho_e_refuted.
Print Assumptions C59_powermg_cutoff_bulk_modulus_refuted.
Print Assumptions C25_powermg_first_law_expansion.
Print Assumptions C59_powermg_first_law_below_Pmin_refuted.
Print Assumptions C25_powermg_series_accuracy.
Print Assumptions C25_powermg_first_law_compression.
Print Assumptions C59_powermg_negative_gruneisen_refuted.
Print Assumptions C25_powermg_entropy_rho_e.
Print Assumptions C25_powermg_reference_state.
Print Assumptions C25_powermg_FillEos.
Print Assumptions C58_powermg_FillEos_overwrites_energy_refuted.
Print Assumptions C44_powermg_CheckParams.
Print Assumptions C62_powermg_zero_divisors_refuted.
