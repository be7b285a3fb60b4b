(** Property theorems C72: the starting temperature for PTE (ApproxTemperatureFromRhoMatU). *)
From Coq Require Import Reals Ranalysis5 Lra Lia Bool List.
From Coquelicot Require Import Coquelicot.
From Flocq Require Import Core.
From Verif Require Import Robust_Model Robust_Proofs FastLogs_Model FastLogs_Props Spiner_Spec Thermo_Tools ApproxT_Model.
Import ListNotations.
Local Open Scope R_scope.

(** Specification: the energy per volume of the mixture at a common temperature *)
Fixpoint mixture_energy (mats : list mat) (T : R) : R :=
  match mats with [] => 0 | m :: r => m_rho m * m_vfrac m * m_sie m (m_rho m) T + mixture_energy r T end.
(** [T] is within a factor [2^w] of a temperature at which the mixture has energy [u], measured on the log scale [lg] *)
Definition near_root (lg : R -> R) (mats : list mat) (u T w : R) : Prop :=
  exists Tstar, / 10 ^ 9 <= Tstar <= 10 ^ 9 /\ mixture_energy mats Tstar = u /\ Rabs (lg T - lg Tstar) <= w.

Lemma ufunc_sum mats T : ufunc mats T = mixture_energy mats T.
Proof.
  unfold ufunc. cut (forall a, fold_left (fun usum m => usum + m_rho m * m_vfrac m * m_sie m (m_rho m) T) mats a = a + mixture_energy mats T).
  { intros H. rewrite H. ring. }
  induction mats as [|m r IH]; intros a; cbn [fold_left mixture_energy]; [ring|]. rewrite IH. ring.
Qed.

Lemma ratio_unit a b : 0 <= a <= b -> 0 <= ratio a b <= 1.
Proof.
  intros H. unfold ratio. destruct (Rle_bool_spec (bpow radix2 (-960)) (Rabs b)) as [H1|H1].
  - assert (0 < Rabs b) by (apply Rlt_le_trans with (2 := H1); apply bpow_gt_0).
    assert (0 < b) by (destruct (Rle_lt_or_eq_dec 0 b ltac:(lra)) as [E|E]; [exact E|]; rewrite <- E, Rabs_R0 in H0; lra).
    split; [apply Rmult_le_pos; [lra|apply Rlt_le, Rinv_0_lt_compat; lra]|].
    apply Rmult_le_reg_r with b; [lra|]. unfold Rdiv. rewrite Rmult_assoc, Rinv_l by lra. lra.
  - unfold ratio_exact. assert (Hs := ratio_denominator_sign b). assert (Hb := ratio_denominator_bound b).
    assert (Hd : ratio_denominator b = b + SMALL).
    { unfold ratio_denominator, sgn. rewrite Rle_bool_true by lra. ring. }
    assert (0 < SMALL) by (unfold SMALL; assert (Hp := bpow_gt_0 radix2 (-1022)); lra).
    rewrite Hd. split; [apply Rmult_le_pos; [lra|apply Rlt_le, Rinv_0_lt_compat; lra]|].
    apply Rmult_le_reg_r with (b + SMALL); [lra|]. unfold Rdiv. rewrite Rmult_assoc, Rinv_l by lra. lra.
Qed.

Section S.
Variables (lg pow2 : R -> R) (err : R).
Hypothesis LL : log_like lg pow2 err.
Variable mats : list mat.
Let U := mixture_energy mats.
Let lo := lg (/ 10 ^ 9).
Let hi := lg (10 ^ 9).
Definition good (u : R) (b : bracket) : Prop :=
  lo <= lTlo b /\ lTlo b <= lThi b <= hi /\ ulo b = U (pow2 (lTlo b)) /\ uhi b = U (pow2 (lThi b)) /\ ulo b <= u <= uhi b.

Lemma pos_min : 0 < / 10 ^ 9. Proof. apply Rinv_0_lt_compat, pow_lt. lra. Qed.
Lemma lo_hi : lo < hi.
Proof. apply (ll_lg_increasing _ _ _ LL); [exact pos_min|]. lra. Qed.
Lemma bisect_good u b : good u b -> good u (bisect pow2 mats u b) /\
  lThi (bisect pow2 mats u b) - lTlo (bisect pow2 mats u b) = (lThi b - lTlo b) / 2.
Proof.
  intros (H1 & H2 & H3 & H4 & H5). unfold bisect. cbv zeta. rewrite ufunc_sum.
  destruct (Rlt_bool_spec (mixture_energy mats (pow2 (1 / 2 * (lTlo b + lThi b)))) u) as [H|H];
    unfold good; cbn [lTlo lThi ulo uhi]; fold U in H |- *; repeat split; try assumption; try lra; reflexivity.
Qed.
Lemma loop_good n u b : good u b -> good u (loop pow2 mats n u b) /\
  (lThi (loop pow2 mats n u b) - lTlo (loop pow2 mats n u b) <= Rmax (1 / 100) ((lThi b - lTlo b) / 2 ^ n)).
Proof.
  revert b. induction n as [|n IH]; intros b Hb; cbn [loop].
  - split; [exact Hb|]. rewrite pow_O. eapply Rle_trans; [|apply Rmax_r]. lra.
  - destruct (Rlt_bool_spec (1 / 100) (lThi b - lTlo b)) as [H|H].
    + destruct (bisect_good u b Hb) as [Hg Hw]. destruct (IH _ Hg) as [Hg' Hw']. split; [exact Hg'|].
      rewrite Hw in Hw'. eapply Rle_trans; [exact Hw'|]. apply Rle_max_compat_l. right.
      cbn [pow]. field. apply pow_nonzero. lra.
    + split; [exact Hb|]. eapply Rle_trans; [exact H|apply Rmax_l].
Qed.
Lemma start_good u g : U (/ 10 ^ 9) <= u <= U (10 ^ 9) -> good u (start lg mats u g) /\
  lThi (start lg mats u g) - lTlo (start lg mats u g) <= hi - lo.
Proof.
  intros Hu. assert (Hlh := lo_hi). assert (Pm := pos_min).
  assert (Em : pow2 lo = / 10 ^ 9) by (apply (ll_inv_l _ _ _ LL); exact Pm).
  assert (EM : pow2 hi = 10 ^ 9) by (apply (ll_inv_l _ _ _ LL); lra).
  assert (G0 : good u (mkB lo hi (U (/ 10 ^ 9)) (U (10 ^ 9)))).
  { unfold good; cbn [lTlo lThi ulo uhi]. rewrite Em, EM. repeat split; lra. }
  unfold start. cbv zeta. cbn [lTlo lThi ulo uhi]. rewrite !ufunc_sum. unfold minimum_temperature, maximum_temperature.
  fold U lo hi.
  destruct (Rlt_bool_spec (/ 10 ^ 9) g) as [H1|H1]; cbn [andb]; [|split; [exact G0|cbn; lra]].
  destruct (Rlt_bool_spec g (10 ^ 9)) as [H2|H2]; cbn [andb]; [|split; [exact G0|cbn; lra]].
  assert (lo < lg g) by (apply (ll_lg_increasing _ _ _ LL); lra).
  assert (lg g < hi) by (apply (ll_lg_increasing _ _ _ LL); lra).
  assert (Eg : pow2 (lg g) = g) by (apply (ll_inv_l _ _ _ LL); lra).
  destruct (Rlt_bool_spec (U g) u) as [H3|H3]; unfold good; cbn [lTlo lThi ulo uhi]; rewrite ?Eg, ?Em, ?EM; repeat split; lra.
Qed.

(** The result of a search inside the range lies in a bracket of the target energy *)
Lemma in_bracket u g : U (/ 10 ^ 9) <= u <= U (10 ^ 9) ->
  exists b, good u b /\ lThi b - lTlo b <= Rmax (1 / 100) ((hi - lo) / 1024) /\
    lTlo b <= lg (ApproxTemperatureFromRhoMatU lg pow2 mats u g) <= lThi b.
Proof.
  intros Hu. exists (loop pow2 mats max_iter u (start lg mats u g)).
  destruct (start_good u g Hu) as [Gs Ws]. destruct (loop_good max_iter u _ Gs) as [Gl Wl].
  split; [exact Gl|]. split.
  { eapply Rle_trans; [exact Wl|]. apply Rle_max_compat_l. unfold max_iter. replace (2 ^ 10) with 1024 by ring. lra. }
  unfold ApproxTemperatureFromRhoMatU. rewrite !ufunc_sum. unfold minimum_temperature, maximum_temperature. fold U.
  rewrite !Rlt_bool_false by lra. cbv zeta iota. rewrite (ll_inv_r _ _ _ LL).
  destruct Gl as (_ & G2 & _ & _ & G5).
  set (b := loop pow2 mats max_iter u (start lg mats u g)) in *.
  destruct (ratio_unit (u - ulo b) (uhi b - ulo b)) as [A1 A2]; [lra|]. set (al := ratio _ _) in *.
  split; nra.
Qed.
Lemma bracket_root u b : (forall T, / 10 ^ 9 <= T <= 10 ^ 9 -> continuity_pt U T) -> good u b ->
  exists T, / 10 ^ 9 <= T <= 10 ^ 9 /\ lTlo b <= lg T <= lThi b /\ U T = u.
Proof.
  intros HC (H1 & H2 & H3 & H4 & H5).
  assert (mono : forall y z, y <= z -> pow2 y <= pow2 z).
  { intros y z [H|H]; [left; apply (ll_pow_increasing _ _ _ LL); exact H|right; rewrite H; reflexivity]. }
  assert (Pm := pos_min).
  assert (Em : pow2 lo = / 10 ^ 9) by (apply (ll_inv_l _ _ _ LL); exact Pm).
  assert (EM : pow2 hi = 10 ^ 9) by (apply (ll_inv_l _ _ _ LL); lra).
  set (a := pow2 (lTlo b)). set (c := pow2 (lThi b)).
  assert (Ha : / 10 ^ 9 <= a) by (rewrite <- Em; apply mono; lra).
  assert (Hc : c <= 10 ^ 9) by (rewrite <- EM; apply mono; lra).
  assert (Hac : a <= c) by (apply mono; lra).
  assert (lgm : forall x, a <= x <= c -> lTlo b <= lg x <= lThi b).
  { intros x Hx. assert (La : lg a = lTlo b) by apply (ll_inv_r _ _ _ LL). assert (Lc : lg c = lThi b) by apply (ll_inv_r _ _ _ LL).
    rewrite <- La, <- Lc. split.
    - destruct (Req_dec a x) as [E|E]; [rewrite E; lra|]. left. apply (ll_lg_increasing _ _ _ LL); lra.
    - destruct (Req_dec x c) as [E|E]; [rewrite E; lra|]. left. apply (ll_lg_increasing _ _ _ LL); lra. }
  destruct (Rle_lt_or_eq_dec (U a) u) as [La|La]; [unfold U, a in *; lra| |exists a; repeat split; try lra; apply lgm; lra].
  destruct (Rle_lt_or_eq_dec u (U c)) as [Lc|Lc]; [unfold U, c in *; lra| |exists c; repeat split; try lra; apply lgm; lra].
  assert (Hlt : a < c) by (destruct (Req_dec a c) as [E|E]; [rewrite E in La; lra|lra]).
  destruct (IVT_interv (fun x => U x - u) a c) as [x [Hx Ex]]; try lra.
  - intros x Hx. apply continuity_pt_minus; [apply HC; lra|]. apply continuity_pt_const. intros y z. reflexivity.
  - exists x. repeat split; try lra; apply lgm; lra.
Qed.
End S.

(** For every list of materials, every target energy and every guess the answer is in [1e-9, 1e9]; it is the end of the range when the
    energy is out of reach. *)
Theorem C72_range : forall lg pow2 err, log_like lg pow2 err -> forall mats u g,
  / 10 ^ 9 <= ApproxTemperatureFromRhoMatU lg pow2 mats u g <= 10 ^ 9 /\
  (u < mixture_energy mats (/ 10 ^ 9) -> ApproxTemperatureFromRhoMatU lg pow2 mats u g = / 10 ^ 9) /\
  (mixture_energy mats (/ 10 ^ 9) <= u -> mixture_energy mats (10 ^ 9) < u ->
     ApproxTemperatureFromRhoMatU lg pow2 mats u g = 10 ^ 9).
Proof.
  intros lg pow2 err LL mats u g. assert (Pm := pos_min). split; [|split].
  - destruct (Rlt_or_le u (mixture_energy mats (/ 10 ^ 9))) as [H|H].
    { unfold ApproxTemperatureFromRhoMatU. rewrite ufunc_sum, Rlt_bool_true by exact H. unfold minimum_temperature. lra. }
    destruct (Rlt_or_le (mixture_energy mats (10 ^ 9)) u) as [H1|H1].
    { unfold ApproxTemperatureFromRhoMatU. rewrite !ufunc_sum. rewrite Rlt_bool_false by exact H.
      rewrite Rlt_bool_true by exact H1. unfold maximum_temperature. lra. }
    destruct (in_bracket lg pow2 err LL mats u g (conj H H1)) as (b & (G1 & G2 & _) & _ & B).
    assert (Hp : 0 < ApproxTemperatureFromRhoMatU lg pow2 mats u g).
    { unfold ApproxTemperatureFromRhoMatU. rewrite !ufunc_sum, !Rlt_bool_false by assumption. apply (ll_pos _ _ _ LL). }
    set (T := ApproxTemperatureFromRhoMatU _ _ _ _ _) in *. split; apply Rnot_lt_le; intros H2.
    + apply (ll_lg_increasing _ _ _ LL) in H2; [|exact Hp]. lra.
    + apply (ll_lg_increasing _ _ _ LL) in H2; [|lra]. lra.
  - intros H. unfold ApproxTemperatureFromRhoMatU. rewrite ufunc_sum, Rlt_bool_true by exact H. reflexivity.
  - intros H H1. unfold ApproxTemperatureFromRhoMatU. rewrite !ufunc_sum. rewrite Rlt_bool_false by exact H.
    rewrite Rlt_bool_true by exact H1. reflexivity.
Qed.

(** When the energy is in reach and the mixture's energy is continuous in temperature, the answer is near a temperature with exactly that
    energy: within 0.01, or 1/1024 of the whole range, on the log scale. *)
Theorem C72_accuracy : forall lg pow2 err, log_like lg pow2 err -> forall mats u g,
  continuous_on (mixture_energy mats) (/ 10 ^ 9) (10 ^ 9) ->
  mixture_energy mats (/ 10 ^ 9) <= u <= mixture_energy mats (10 ^ 9) ->
  near_root lg mats u (ApproxTemperatureFromRhoMatU lg pow2 mats u g) (Rmax (1 / 100) ((lg (10 ^ 9) - lg (/ 10 ^ 9)) / 1024)).
Proof.
  intros lg pow2 err LL mats u g HC Hu.
  destruct (in_bracket lg pow2 err LL mats u g Hu) as (b & G & W & B).
  destruct (bracket_root lg pow2 err LL mats u b HC G) as (T & R1 & R2 & R3).
  exists T. split; [exact R1|]. split; [exact R3|]. eapply Rle_trans; [|exact W]. apply Rabs_le. lra.
Qed.

(** The range spans less than 61 powers of two in either fast logarithm and in the true one, so the answer is within 0.06 *)
Theorem C72_accuracy_number : forall lg pow2 err, log_like lg pow2 err -> err <= 1 / 4 -> forall mats u g,
  continuous_on (mixture_energy mats) (/ 10 ^ 9) (10 ^ 9) ->
  mixture_energy mats (/ 10 ^ 9) <= u <= mixture_energy mats (10 ^ 9) ->
  near_root lg mats u (ApproxTemperatureFromRhoMatU lg pow2 mats u g) (6 / 100).
Proof.
  intros lg pow2 err LL He mats u g HC Hu.
  destruct (C72_accuracy lg pow2 err LL mats u g HC Hu) as (T & H1 & H2 & H3). exists T. split; [exact H1|]. split; [exact H2|].
  eapply Rle_trans; [exact H3|]. apply Rmax_lub; [lra|].
  assert (Hm := ll_lg_increasing _ _ _ LL).
  assert (E1 := ll_exact _ _ _ LL 30). assert (E2 := ll_exact _ _ _ LL (-30)).
  assert (lg (10 ^ 9) <= 30).
  { rewrite <- E1. left. apply Hm; [lra|]. replace (powerRZ 2 30) with (2 ^ 30) by (rewrite (pow_powerRZ 2 30); reflexivity). lra. }
  assert (-30 <= lg (/ 10 ^ 9)).
  { rewrite <- E2. left. apply Hm.
    - apply powerRZ_lt. lra.
    - replace (powerRZ 2 (-30)) with (/ 2 ^ 30) by (rewrite (pow_powerRZ 2 30); reflexivity). apply Rinv_lt_contravar; lra. }
  lra.
Qed.

(** A mixture whose energy increases with temperature has one equilibrium temperature: the answer is near that one. *)
Theorem C72_unique : forall lg pow2 err, log_like lg pow2 err -> err <= 1 / 4 -> forall mats u g Tstar,
  continuous_on (mixture_energy mats) (/ 10 ^ 9) (10 ^ 9) ->
  (forall T T', / 10 ^ 9 <= T -> T < T' -> T' <= 10 ^ 9 -> mixture_energy mats T < mixture_energy mats T') ->
  / 10 ^ 9 <= Tstar <= 10 ^ 9 -> mixture_energy mats Tstar = u ->
  Rabs (lg (ApproxTemperatureFromRhoMatU lg pow2 mats u g) - lg Tstar) <= 6 / 100.
Proof.
  intros lg pow2 err LL He mats u g Ts HC Hinc HT Hu. assert (Pm := pos_min).
  assert (M : forall T T', / 10 ^ 9 <= T -> T <= T' -> T' <= 10 ^ 9 -> mixture_energy mats T <= mixture_energy mats T').
  { intros T T' A B C. destruct (Req_dec T T') as [E|E]; [rewrite E; lra|]. left. apply Hinc; lra. }
  destruct (C72_accuracy_number lg pow2 err LL He mats u g HC) as (T & H1 & H2 & H3).
  { rewrite <- Hu. split; apply M; lra. }
  replace Ts with T; [exact H3|]. destruct (Rtotal_order T Ts) as [H|[H|H]]; [|exact H|].
  - assert (A := Hinc T Ts ltac:(lra) H ltac:(lra)). lra.
  - assert (A := Hinc Ts T ltac:(lra) H ltac:(lra)). lra.
Qed.

(** Without a guess ten halvings never reach the coded tolerance of 0.01: the loop always ends on its iteration limit. *)
Theorem C72_ends_on_iteration_limit : forall lg pow2 err, log_like lg pow2 err -> forall mats u n, (n <= 10)%nat ->
  let b := loop pow2 mats n u (start lg mats u 0) in lThi b - lTlo b = (lg (10 ^ 9) - lg (/ 10 ^ 9)) / 2 ^ n /\ 1 / 100 < lThi b - lTlo b.
Proof.
  intros lg pow2 err LL mats u n Hn. cbv zeta.
  assert (Wide : 50 <= lg (10 ^ 9) - lg (/ 10 ^ 9)).
  { assert (Hm := ll_lg_increasing _ _ _ LL).
    assert (E1 := ll_exact _ _ _ LL 29). assert (E2 := ll_exact _ _ _ LL (-29)).
    assert (29 <= lg (10 ^ 9)).
    { rewrite <- E1. left. apply Hm; [apply powerRZ_lt; lra|]. replace (powerRZ 2 29) with (2 ^ 29) by (rewrite (pow_powerRZ 2 29); reflexivity). lra. }
    assert (lg (/ 10 ^ 9) <= -29).
    { rewrite <- E2. left. apply Hm; [exact pos_min|].
      replace (powerRZ 2 (-29)) with (/ 2 ^ 29) by (rewrite (pow_powerRZ 2 29); reflexivity). apply Rinv_lt_contravar; lra. }
    lra. }
  assert (Gen : forall n b, 1 / 100 * 2 ^ n < lThi b - lTlo b -> lThi (loop pow2 mats n u b) - lTlo (loop pow2 mats n u b) = (lThi b - lTlo b) / 2 ^ n).
  { clear n Hn. induction n as [|n IH]; intros b Hb; cbn [loop]; [cbn; field|].
    assert (P := pow_lt 2 n ltac:(lra)). assert (P1 := pow_R1_Rle 2 n ltac:(lra)). cbn [pow] in Hb.
    rewrite Rlt_bool_true by nra.
    assert (W : lThi (bisect pow2 mats u b) - lTlo (bisect pow2 mats u b) = (lThi b - lTlo b) / 2).
    { unfold bisect. cbv zeta. destruct Rlt_bool; cbn [lThi lTlo]; lra. }
    rewrite IH by (rewrite W; lra). rewrite W. cbn [pow]. field. lra. }
  assert (S0 : lThi (start lg mats u 0) - lTlo (start lg mats u 0) = lg (10 ^ 9) - lg (/ 10 ^ 9)).
  { unfold start. cbv zeta. replace (Rlt_bool minimum_temperature 0) with false by (symmetry; apply Rlt_bool_false; left; exact pos_min). reflexivity. }
  assert (P := pow_lt 2 n ltac:(lra)).
  assert (P2 : 2 ^ n <= 1024) by (replace 1024 with (2 ^ 10) by ring; apply Rle_pow; [lra|exact Hn]).
  rewrite Gen by (rewrite S0; lra). rewrite S0. split; [reflexivity|].
  apply Rmult_lt_reg_r with (2 ^ n); [exact P|]. set (W := lg (10 ^ 9) - lg (/ 10 ^ 9)) in *.
  replace (W / 2 ^ n * 2 ^ n) with W by (field; lra). lra.
Qed.

(** The last step interpolates: if the energy of the mixture is linear in lg T (with a slope that is not vanishing) then, without a guess, the
    answer has exactly the requested energy. *)
Theorem C72_interpolation_exact : forall lg pow2 err, log_like lg pow2 err -> forall mats a b u, bpow radix2 (-900) <= b ->
  (forall T, / 10 ^ 9 <= T <= 10 ^ 9 -> mixture_energy mats T = a + b * lg T) ->
  mixture_energy mats (/ 10 ^ 9) <= u <= mixture_energy mats (10 ^ 9) ->
  mixture_energy mats (ApproxTemperatureFromRhoMatU lg pow2 mats u 0) = u.
Proof.
  intros lg pow2 err LL mats a b u Hb HU Hu. assert (Pm := pos_min).
  assert (P9 : 0 < bpow radix2 (-900)) by apply bpow_gt_0.
  destruct (start_good lg pow2 err LL mats u 0 Hu) as [Gs _]. destruct (loop_good lg pow2 mats max_iter u _ Gs) as [(G1 & G2 & G3 & G4 & G5) _].
  destruct (C72_ends_on_iteration_limit lg pow2 err LL mats u max_iter (le_n 10)) as [_ W].
  unfold ApproxTemperatureFromRhoMatU. rewrite !ufunc_sum. unfold minimum_temperature, maximum_temperature.
  rewrite !Rlt_bool_false by lra. cbv zeta iota.
  set (B := loop pow2 mats max_iter u (start lg mats u 0)) in *. clearbody B.
  assert (Em : pow2 (lg (/ 10 ^ 9)) = / 10 ^ 9) by (apply (ll_inv_l _ _ _ LL); exact Pm).
  assert (EM : pow2 (lg (10 ^ 9)) = 10 ^ 9) by (apply (ll_inv_l _ _ _ LL); lra).
  assert (mono : forall y z, y <= z -> pow2 y <= pow2 z).
  { intros y z [H|H]; [left; apply (ll_pow_increasing _ _ _ LL); exact H|right; rewrite H; reflexivity]. }
  assert (V : forall y, lg (/ 10 ^ 9) <= y <= lg (10 ^ 9) -> mixture_energy mats (pow2 y) = a + b * y).
  { intros y Hy. rewrite HU; [rewrite (ll_inv_r _ _ _ LL); reflexivity|]. split; [rewrite <- Em|rewrite <- EM]; apply mono; lra. }
  rewrite V in G3, G4 by lra. rewrite G3, G4. rewrite G3, G4 in G5.
  assert (D : a + b * lThi B - (a + b * lTlo B) = b * (lThi B - lTlo B)) by ring. rewrite D.
  assert (DB : bpow radix2 (-960) <= b * (lThi B - lTlo B)).
  { apply Rle_trans with (bpow radix2 (-900) * / 1024).
    - replace (/ 1024) with (bpow radix2 (-10)) by (simpl; lra). rewrite <- bpow_plus. apply bpow_le. lia.
    - apply Rmult_le_compat; lra. }
  unfold ratio. rewrite (Rabs_pos_eq (b * (lThi B - lTlo B))) by (pose proof (bpow_gt_0 radix2 (-960)); lra). rewrite Rle_bool_true by exact DB.
  assert (P96 := bpow_gt_0 radix2 (-960)).
  set (al := (u - (a + b * lTlo B)) / (b * (lThi B - lTlo B))).
  assert (A0 : 0 <= al <= 1).
  { unfold al. split; [apply Rmult_le_pos; [lra|left; apply Rinv_0_lt_compat; lra]|]. apply Rmult_le_reg_r with (b * (lThi B - lTlo B)); [lra|]. unfold Rdiv. rewrite Rmult_assoc, Rinv_l by lra. lra. }
  rewrite V by nra. unfold al. field. nra.
Qed.
(** met by a material whose energy is 3 + 2 lg T *)
Example C72_interpolation_case : forall u, 3 + 2 * lg_o1_portable (/ 10 ^ 9) <= u <= 3 + 2 * lg_o1_portable (10 ^ 9) ->
  let mats := [mkMat 1 1 (fun _ T => 3 + 2 * lg_o1_portable T)] in
  mixture_energy mats (ApproxTemperatureFromRhoMatU lg_o1_portable pow2_o1_portable mats u 0) = u.
Proof.
  intros u Hu mats. eapply (C72_interpolation_exact _ _ _ C05_portable_order1 mats 3 2).
  - change 2 with (bpow radix2 1). apply bpow_le. lia.
  - intros T _. unfold mats. cbn [mixture_energy m_rho m_vfrac m_sie]. ring.
  - unfold mats. cbn [mixture_energy m_rho m_vfrac m_sie]. lra.
Qed.

(** Hypotheses are met: both fast logarithms, and a mixture of two ideal gases *)
Definition gas (rho vf cv : R) : mat := mkMat rho vf (fun _ T => cv * T).
Example C72_gases : forall Tstar g, / 10 ^ 9 <= Tstar <= 10 ^ 9 ->
  Rabs (lg_o1_portable (ApproxTemperatureFromRhoMatU lg_o1_portable pow2_o1_portable [gas 1 (1/4) 2; gas 3 (3/4) 5]
     (mixture_energy [gas 1 (1/4) 2; gas 3 (3/4) 5] Tstar) g) - lg_o1_portable Tstar) <= 6 / 100.
Proof.
  intros Ts g HT. apply (C72_unique _ _ _ C05_portable_order1); try lra; cbn [mixture_energy gas m_rho m_vfrac m_sie].
  - intros z Hz. apply derivable_continuous_pt. reg.
  - intros. lra.
Qed.
Print Assumptions C72_range.
Print Assumptions C72_accuracy.
Print Assumptions C72_accuracy_number.
Print Assumptions C72_unique.
Print Assumptions C72_ends_on_iteration_limit.
Print Assumptions C72_interpolation_exact.
