(** Lemmas about the Coulomb corrections of Helm_Model. *)
From Coq Require Import ZArith Reals Bool List Lra Lia.
From Flocq Require Import Core.
From Coquelicot Require Import Coquelicot.
From Verif Require Import Arith Robust_Model Thermo_Spec Thermo_Tools Helm_Model Helm_Proofs Helm_Parts.
Local Open Scope R_scope.

Definition drop_coul (o : options) : options := mkO (RAD o) (GAS o) false (IONIZED o) (DEGENERATE o) (NEWTON o).
Lemma drop_no o : no_coul (drop_coul o).
Proof. unfold no_coul, drop_coul. cbn. apply andb_false_r. Qed.
Definition coul_at (rho T A Z : R) : vec5 * vec5 * vec5 :=
  let '(xni, dxnidd, dxnida) := GetMassFractions rho (ytot_of A) in coulomb rho T (ytot_of A) A Z xni dxnidd dxnida.
Lemma parts_coul tb o rho T A Z b : GAS o = true -> DEGENERATE o = true -> COUL o = true ->
  parts tb o rho T A Z b = mkHout (add5 (hp (parts tb (drop_coul o) rho T A Z b)) (fst (fst (coul_at rho T A Z))))
    (add5 (he (parts tb (drop_coul o) rho T A Z b)) (snd (fst (coul_at rho T A Z))))
    (add5 (hs (parts tb (drop_coul o) rho T A Z b)) (snd (coul_at rho T A Z)))
    (heta (parts tb (drop_coul o) rho T A Z b)) (hne (parts tb (drop_coul o) rho T A Z b)).
Proof.
  intros H1 H2 H3. unfold parts. cbn [drop_coul RAD GAS COUL IONIZED DEGENERATE NEWTON]. rewrite H1, H2, H3. cbn [andb].
  replace (ions_part (drop_coul o) rho T A Z) with (ions_part o rho T A Z) by reflexivity.
  unfold coul_at. destruct (if RAD o then rad rho T else zeros) as [[p1 p2] p3]. destruct (ions_part o rho T A Z) as [[q1 q2] q3].
  destruct (GetMassFractions rho (ytot_of A)) as [[x1 x2] x3]. destruct (coulomb rho T (ytot_of A) A Z x1 x2 x3) as [[c1 c2] c3].
  cbn [hp he hs heta hne fst snd zeros]. rewrite !add5_0. reflexivity.
Qed.

(** the Coulomb coupling parameter of the ions: Z^2 e^2 / (a k T) with ion-sphere radius a, 1/a = (4/3 pi n)^(1/3) *)
Definition coupling (rho T A Z : R) : R := (ELECTRON_CHARGE_ESU * Z) ^ 2 * Rpower (4 / 3 * PI * (NA * rho / A)) (1 / 3) / (KB * T).
Lemma KB_pos : 0 < KB. Proof. unfold KB. apply Rdiv_lt_0_compat; [lra|apply pow_lt; lra]. Qed.
Lemma NA_pos : 0 < NA. Proof. unfold NA. apply Rmult_lt_0_compat; [lra|apply pow_lt; lra]. Qed.
Lemma NA_big : 10 ^ 15 <= NA. Proof. unfold NA. assert (0 < 10 ^ 15) by (apply pow_lt; lra). nra. Qed.
Lemma ESU_pos : 0 < ELECTRON_CHARGE_ESU. Proof. unfold ELECTRON_CHARGE_ESU. apply Rdiv_lt_0_compat; [lra|apply pow_lt; lra]. Qed.
Lemma KBNA_pos : 0 < KBNA. Proof. unfold KBNA. pose proof KB_pos. pose proof NA_pos. apply Rmult_lt_0_compat; assumption. Qed.
Lemma cbrt_ge s : tiny < s -> tiny < Rpower s (1 / 3).
Proof.
  intros H. pose proof tiny_pos. pose proof tiny_lt_1. destruct (Rle_lt_dec 1 s) as [L|L].
  - apply Rlt_le_trans with 1; [assumption|]. unfold Rpower.
    assert (0 <= ln s). { destruct L as [L|<-]; [|rewrite ln_1; lra]. left. rewrite <- ln_1. apply ln_increasing; lra. }
    assert (E0 : exp 0 <= exp (1 / 3 * ln s)). { destruct (Req_dec (ln s) 0) as [->|N]; [rewrite Rmult_0_r; lra|]. left. apply exp_increasing. lra. }
    rewrite exp_0 in E0. exact E0.
  - apply Rlt_le_trans with s; [assumption|]. rewrite <- (exp_ln s) at 1 by lra. unfold Rpower. left. apply exp_increasing.
    assert (ln s < 0) by (rewrite <- ln_1; apply ln_increasing; lra). lra.
Qed.
Lemma sphere_pos rho A : tiny < rho / A -> tiny < 4 / 3 * PI * (NA * rho / A).
Proof.
  intros H. pose proof tiny_pos. pose proof NA_big as NB. pose proof PI_RGT_0. pose proof PI2_3_2 as P32. assert (3 <= PI) by (unfold PI2 in P32; lra).
  replace (NA * rho / A) with (NA * (rho / A)) by (unfold Rdiv; ring).
  assert (N1 : 1 <= NA) by lra. clear NB P32. set (q := rho / A) in *. clearbody q. generalize dependent NA. intros n N1.
  assert (q <= n * q) by nra. set (w := n * q) in *. clearbody w. nra.
Qed.
Definition hcoul (G : R) : R := ca1 * G + cb1 * sqrt (sqrt G) + cc1 / sqrt (sqrt G) + cd1.
Lemma root_ge G : tiny < G -> tiny < sqrt (sqrt G).
Proof.
  intros H. pose proof tiny_pos. pose proof tiny_lt_1.
  assert (S : forall u, tiny < u -> tiny < sqrt u).
  { intros u Hu. apply Rsqr_incrst_0; [|lra|apply sqrt_pos]. rewrite Rsqr_sqrt by lra. unfold Rsqr. nra. }
  apply S, S, H.
Qed.
Section Point.
Variables (rho A Z : R).
Hypothesis HR : tiny < rho.
Hypothesis HA : tiny < A.
Hypothesis HRA : tiny < rho / A.
Lemma plasma_eq T : tiny < T ->
  let '(xni, dxnidd, dxnida) := GetMassFractions rho (ytot_of A) in
  VAL (plasma T Z xni dxnidd dxnida) = coupling rho T A Z /\ DDT (plasma T Z xni dxnidd dxnida) = - (coupling rho T A Z / T).
Proof.
  intros HT. pose proof tiny_pos. pose proof KB_pos. unfold GetMassFractions, plasma. cbv zeta. cbn [VAL DDT].
  rewrite !(ytot_eq A HA).
  assert (E : (ELECTRON_CHARGE_ESU * Z) ^ 2 / (KB * T * ratio 1 (cbrt (4 / 3 * PI * (NA * / A * rho)))) = coupling rho T A Z).
  { replace (NA * / A * rho) with (NA * rho / A) by (unfold Rdiv; ring). assert (C := cbrt_ge _ (sphere_pos _ _ HRA)).
    unfold cbrt. rewrite ratio_pos by lra. unfold coupling. set (c := Rpower _ _) in *. clearbody c.
    set (k := KB) in *. clearbody k. field. split; [lra|split; lra]. }
  rewrite E. split; [reflexivity|]. rewrite ratio_pos by lra. reflexivity.
Qed.
(** energy before damping, and the temperature derivative the code computes for it *)
Lemma coul_e_raw T : tiny < T -> tiny < coupling rho T A Z ->
  let '(xni, dxnidd, dxnida) := GetMassFractions rho (ytot_of A) in
  let e := snd (fst (coul_raw rho T (ytot_of A) A Z xni dxnidd dxnida)) in
  VAL e = KBNA / A * T * hcoul (coupling rho T A Z) /\
  DDT e = KBNA / A * (hcoul (coupling rho T A Z)
          - coupling rho T A Z * (ca1 + 25 / 100 / coupling rho T A Z * (cb1 * sqrt (sqrt (coupling rho T A Z)) - cc1 / sqrt (sqrt (coupling rho T A Z))))).
Proof.
  intros HT HG. assert (P := plasma_eq T HT). destruct (GetMassFractions rho (ytot_of A)) as [[xni dxnidd] dxnida]. destruct P as (P1 & P2).
  pose proof tiny_pos. unfold coul_raw. cbv zeta. rewrite P1, P2. rewrite (Rle_bool_true 0 (coupling rho T A Z)) by lra. cbn [fst snd VAL DDT].
  assert (X := root_ge _ HG). rewrite !(ytot_eq A HA). rewrite !ratio_pos by lra. unfold hcoul.
  set (G := coupling rho T A Z) in *. set (x := sqrt (sqrt G)) in *. clearbody x. clearbody G.
  unfold Rdiv. split; [ring|]. field. split; [lra|split; [lra|split; lra]].
Qed.
End Point.
Lemma hcoul_derive G : 0 < G -> is_derive hcoul G (ca1 + 25 / 100 / G * (cb1 * sqrt (sqrt G) - cc1 / sqrt (sqrt G))).
Proof.
  intros H. assert (S1 : 0 < sqrt G) by (apply sqrt_lt_R0; exact H). assert (S2 : 0 < sqrt (sqrt G)) by (apply sqrt_lt_R0; exact S1).
  unfold hcoul. auto_derive.
  - repeat split; try assumption; lra.
  - assert (E1 : sqrt (sqrt G) * sqrt (sqrt G) = sqrt G) by (apply sqrt_sqrt; lra).
    assert (E2 : sqrt G * sqrt G = G) by (apply sqrt_sqrt; lra).
    set (x := sqrt (sqrt G)) in *. set (y := sqrt G) in *. clearbody x. clearbody y. subst y. rewrite <- E2. field. lra.
Qed.

(** ** damping *)
Lemma even_pow u : 0 <= u ^ 24.
Proof. replace (u ^ 24) with ((u ^ 12) * (u ^ 12)) by ring. apply Rle_0_sqr. Qed.
Lemma butter_g f c : tiny <= c -> fst (butterworth f c) = / (1 + (f / c) ^ 24).
Proof.
  intros H. unfold butterworth. cbv zeta. cbn [fst]. rewrite (ratio_pos f c) by exact H. pose proof tiny_lt_1. pose proof (even_pow (f / c)).
  set (w := (f / c) ^ 24) in *. clearbody w. rewrite ratio_pos by lra. unfold Rdiv. ring.
Qed.
Lemma butter_range f c : tiny <= c -> 0 < fst (butterworth f c) <= 1.
Proof.
  intros H. rewrite butter_g by exact H. pose proof (even_pow (f / c)). set (w := (f / c) ^ 24) in *. clearbody w. split; [apply Rinv_0_lt_compat; lra|].
  rewrite <- Rinv_1. apply Rinv_le_contravar; lra.
Qed.
Definition gain (rho T : R) : R := fst (fst (damping rho T)).
Lemma gain_eq rho T : gain rho T = 1 - fst (butterworth (log10 rho + 1) 6) * fst (butterworth (log10 T - 45 / 10) 3).
Proof.
  unfold gain, damping. destruct (butterworth (log10 T - 45 / 10) 3) as [a b]. destruct (butterworth (log10 rho + 1) 6) as [c d]. reflexivity.
Qed.
Lemma gain_hot rho T : 10 ^ 8 <= T -> 1 / 2 <= gain rho T.
Proof.
  intros H. pose proof tiny_lt_1. rewrite gain_eq. destruct (butter_range (log10 rho + 1) 6 ltac:(lra)) as (A1 & A2).
  rewrite (butter_g (log10 T - 45 / 10) 3) by lra.
  assert (L : 8 <= log10 T). { rewrite <- (log10_pow10 8). apply log10_le; [apply pow10_pos|]. replace 8 with (INR 8) by (simpl; ring). rewrite pow10_nat. exact H. }
  assert (U : 1 <= ((log10 T - 45 / 10) / 3) ^ 24) by (apply pow_R1_Rle; lra).
  set (w := ((log10 T - 45 / 10) / 3) ^ 24) in *. clearbody w. set (c := fst (butterworth (log10 rho + 1) 6)) in *. clearbody c.
  assert (I : / (1 + w) <= / 2) by (apply Rinv_le_contravar; lra).
  assert (0 < / (1 + w)) by (apply Rinv_0_lt_compat; lra). nra.
Qed.
Lemma hcoul_weak G : 0 < G -> G <= / 10 ^ 4 -> 1 <= hcoul G.
Proof.
  intros H1 H2. unfold hcoul. assert (S1 : 0 < sqrt G) by (apply sqrt_lt_R0; exact H1). assert (S2 : 0 < sqrt (sqrt G)) by (apply sqrt_lt_R0; exact S1).
  assert (B1 : sqrt G <= / 100). { apply Rsqr_incr_0; [|lra|lra]. rewrite Rsqr_sqrt by lra. unfold Rsqr. lra. }
  assert (B2 : sqrt (sqrt G) <= / 10). { apply Rsqr_incr_0; [|lra|lra]. rewrite Rsqr_sqrt by lra. unfold Rsqr. lra. }
  assert (B3 : 10 <= / sqrt (sqrt G)). { rewrite <- (Rinv_inv 10). apply Rinv_le_contravar; lra. }
  set (x := sqrt (sqrt G)) in *. clearbody x. unfold ca1, cb1, cc1, cd1. unfold Rdiv at 4. nra.
Qed.
Definition coul_e (rho T A Z : R) : vec5 := snd (fst (coul_at rho T A Z)).
Lemma coul_e_VAL rho T A Z : tiny < A -> tiny < rho / A -> tiny < T -> tiny < coupling rho T A Z ->
  VAL (coul_e rho T A Z) = KBNA / A * T * hcoul (coupling rho T A Z) * gain rho T.
Proof.
  intros HA HRA HT HG. unfold coul_e, coul_at, coulomb.
  assert (K := coul_e_raw rho A Z HA HRA T HT HG). destruct (GetMassFractions rho (ytot_of A)) as [[x1 x2] x3].
  destruct (coul_raw rho T (ytot_of A) A Z x1 x2 x3) as [[p e] s]. cbn [fst snd] in K. cbv zeta in K. destruct K as (K1 & K2).
  cbv zeta. cbn [fst snd]. unfold damp, gain. destruct (damping rho T) as [[g a] b]. cbn [fst snd VAL]. rewrite K1. reflexivity.
Qed.
(** the temperature at which the derivative of the true gain vanishes *)
Definition T0 : R := pow10 (45 / 10).
Lemma gain_T0 rho : is_derive (fun T => gain rho T) T0 0.
Proof.
  pose proof ln10pos. assert (P : 0 < T0) by apply pow10_pos. pose proof tiny_lt_1.
  assert (L : ln T0 / ln 10 = 45 / 10) by (apply (log10_pow10 (45 / 10))).
  apply (is_derive_ext (V := R_NormedModule) (fun T => 1 - fst (butterworth (log10 rho + 1) 6) * / (1 + ((ln T / ln 10 - 45 / 10) / 3) ^ 24))).
  - intros t. rewrite gain_eq, (butter_g (log10 t - 45 / 10) 3) by lra. reflexivity.
  - generalize (fst (butterworth (log10 rho + 1) 6)). intros c.
    set (g := fun T => (ln T / ln 10 - 45 / 10) / 3). assert (G0 : g T0 = 0) by (unfold g; rewrite L; lra).
    assert (P24 : is_derive (fun u => u ^ 24) 0 0).
    { auto_derive; [exact I|]. simpl; ring. }
    assert (Pc : is_derive (fun v => 1 - c * / (1 + v)) (0 ^ 24) c).
    { rewrite pow_i by lia. auto_derive; [lra|]. field. }
    assert (DG : is_derive g T0 (/ T0 / ln 10 / 3)). { unfold g. auto_derive; [exact P|]. field. split; lra. }
    eapply der_eq.
    + apply (comp_derive (fun u => 1 - c * / (1 + u ^ 24)) g); [|exact DG]. rewrite G0.
      apply (comp_derive (fun v => 1 - c * / (1 + v)) (fun u => u ^ 24)); [exact Pc|exact P24].
    + ring.
Qed.
(** the derivative the code computes for the damped energy at T0 *)
Lemma coul_e_T0 rho A Z : tiny < A -> tiny < rho / A -> coupling rho T0 A Z = 1 -> 1 <= Rabs (log10 rho + 1) ->
  exists d, is_derive (fun T => VAL (coul_e rho T A Z)) T0 d /\ DDT (coul_e rho T0 A Z) <> d.
Proof.
  intros HA HRA HG HL. pose proof tiny_pos as P0. pose proof tiny_lt_1 as P1. pose proof ln10pos as P10. pose proof KB_pos as PK. pose proof KBNA_pos as PKN.
  assert (PT : tiny < T0). { apply Rlt_trans with 1; [exact P1|]. unfold T0. rewrite <- (exp_0). unfold pow10. apply exp_increasing. nra. }
  set (C := (ELECTRON_CHARGE_ESU * Z) ^ 2 * Rpower (4 / 3 * PI * (NA * rho / A)) (1 / 3) / KB).
  assert (HC : forall T, 0 < T -> coupling rho T A Z = C / T). { intros T HT. unfold coupling, C. field. split; lra. }
  assert (C0 : C = T0). { rewrite HC in HG by lra. apply (Rmult_eq_reg_r (/ T0)); [|apply Rinv_neq_0_compat; lra]. rewrite Rinv_r by lra. exact HG. }
  assert (CG : continuous (fun T => coupling rho T A Z) T0).
  { apply (cont_loc _ (fun T => C / T)); [generalize (loc_gt 0 T0 ltac:(lra)); apply loc_imp; intros y Hy; symmetry; apply HC, Hy|].
    eapply derive_cont. apply der_inv. lra. }
  assert (LC : locally T0 (fun T => tiny < coupling rho T A Z)) by (apply loc_gt_f; [exact CG|rewrite HG; exact P1]).
  set (H0 := ca1 + 25 / 100 / 1 * (cb1 * sqrt (sqrt 1) - cc1 / sqrt (sqrt 1))).
  exists (KBNA / A * (hcoul 1 - H0) * gain rho T0).
  assert (HD : is_derive (fun T => KBNA / A * T * hcoul (C / T)) T0 (KBNA / A * (hcoul 1 - H0))).
  { eapply der_eq.
    - apply (der_mult (fun T => KBNA / A * T) (fun T => hcoul (C / T))); [apply (der_mult (fun _ => KBNA / A) (fun T => T)); [apply der_const|apply der_id]|].
      apply (comp_derive hcoul (fun T => C / T)); [|apply der_inv; lra]. replace (C / T0) with 1 by (rewrite C0; field; lra). apply hcoul_derive. lra.
    - fold H0. replace (C / T0) with 1 by (rewrite C0; field; lra). rewrite C0. field. split; lra. }
  split.
  - apply (derive_loc _ (fun T => KBNA / A * T * hcoul (C / T) * gain rho T)).
    + generalize (loc_and _ _ _ LC (loc_gt tiny T0 PT)). apply loc_imp. intros T (A1 & A2). rewrite coul_e_VAL by assumption. rewrite HC by lra. reflexivity.
    + eapply der_eq; [apply (der_mult (fun T => KBNA / A * T * hcoul (C / T)) (fun T => gain rho T)); [exact HD|apply gain_T0]|]. ring.
  - unfold coul_e, coul_at, coulomb.
    assert (K := coul_e_raw rho A Z HA HRA T0 PT ltac:(rewrite HG; exact P1)). destruct (GetMassFractions rho (ytot_of A)) as [[x1 x2] x3].
    destruct (coul_raw rho T0 (ytot_of A) A Z x1 x2 x3) as [[p e] s]. cbn [fst snd] in K. cbv zeta in K. destruct K as (K1 & K2).
    rewrite HG in K1, K2. fold H0 in K2.
    cbv zeta. cbn [fst snd].
    assert (GE := gain_eq rho T0).
    (* the gain and the derivative of the density filter *)
    set (f := log10 rho + 1) in *.
    assert (W : 0 < (f / 6) ^ 24).
    { assert (f <> 0) by (intros F; rewrite F, Rabs_R0 in HL; lra). replace ((f / 6) ^ 24) with (Rsqr ((f / 6) ^ 12)) by (unfold Rsqr; ring).
      apply Rsqr_pos_lt. apply pow_nonzero. lra. }
    assert (W2 : / 6 ^ 24 <= (f / 6) ^ 24).
    { assert (E6 : / 6 ^ 24 = Rsqr ((/ 6) ^ 12)) by (unfold Rsqr; rewrite <- pow_inv; ring). rewrite E6.
      replace ((f / 6) ^ 24) with (Rsqr ((Rabs (f / 6)) ^ 12)).
      - apply Rsqr_incr_1; [|apply pow_le; lra|apply pow_le, Rabs_pos]. apply pow_incr. split; [lra|].
        unfold Rdiv. rewrite Rabs_mult. rewrite (Rabs_pos_eq (/ 6)) by lra. lra.
      - rewrite RPow_abs. unfold Rsqr. rewrite <- Rabs_mult. rewrite Rabs_pos_eq; [ring|apply Rle_0_sqr]. }
    unfold damp. unfold gain in *. unfold damping in *. fold f in GE |- *.
    assert (B1 := butter_g f 6 ltac:(lra)). assert (B2 := butter_g (log10 T0 - 45 / 10) 3 ltac:(lra)).
    assert (L0 : log10 T0 - 45 / 10 = 0) by (unfold T0; rewrite log10_pow10; ring).
    assert (DF : snd (butterworth f 6) <> 0).
    { unfold butterworth in *. cbv zeta in *. cbn [fst snd] in *. rewrite B1. rewrite ratio_pos by (assert (0 < 6 ^ 24 - 1) by lra; lra).
      assert (f <> 0) by (intros F; rewrite F, Rabs_R0 in HL; lra).
      apply Rmult_integral_contrapositive_currified; [|apply pow_nonzero; assumption].
      set (w := (f / 6) ^ 24) in *. clearbody w. apply Rmult_integral_contrapositive_currified; [|apply Rinv_neq_0_compat; lra].
      assert (0 < / (1 + w)) by (apply Rinv_0_lt_compat; lra). assert (0 < (/ (1 + w)) ^ 2) by (apply pow_lt; assumption). lra. }
    rewrite L0 in *. 
    destruct (butterworth 0 3) as [gr dr]. destruct (butterworth f 6) as [gt dt]. cbn [fst snd DDT VAL] in *.
    assert (G1 : / (1 + (0 / 3) ^ 24) = 1). { unfold Rdiv. rewrite Rmult_0_l, pow_i by lia. rewrite Rplus_0_r. apply Rinv_1. }
    rewrite G1 in B2. rewrite B2.
    assert (W3 : / 2 ^ 72 <= / 6 ^ 24) by (apply Rinv_le_contravar; [apply pow_lt; lra|lra]).
    set (w := (f / 6) ^ 24) in *. clearbody w.
    assert (GW : 1 - gt * 1 = w / (1 + w)) by (rewrite B1; field; lra).
    assert (TG : tiny <= 1 - gt * 1).
    { rewrite GW. apply Rle_trans with (bpow radix2 (-73)); [unfold tiny; apply bpow_le; lia|].
      assert (B0 : bpow radix2 (-72) = / 2 ^ 72) by (simpl; reflexivity || (simpl; f_equal; lra)).
      assert (B01 : bpow radix2 (-72) = 2 * bpow radix2 (-73)) by (change 2 with (bpow radix2 1) at 1; rewrite <- bpow_plus; reflexivity).
      assert (B02 : bpow radix2 (-73) < bpow radix2 (-1)) by (apply bpow_lt; lia). change (bpow radix2 (-1)) with (/ 2) in B02.
      rewrite <- B0 in W3. set (b := bpow radix2 (-73)) in *. clearbody b. apply Rmult_le_reg_r with (1 + w); [lra|].
      unfold Rdiv. rewrite Rmult_assoc, Rinv_l by lra. nra. }
    rewrite (ratio_pos _ (1 - gt * 1)) by exact TG. rewrite K1, K2.
    assert (TL : tiny < T0 * ln 10).
    { assert (1 < ln 10). { rewrite <- (ln_exp 1). apply ln_increasing; [apply exp_pos|]. pose proof exp_le_3. lra. } nra. }
    rewrite (ratio_pos _ (T0 * ln 10)) by lra.
    assert (H1 : hcoul 1 = - (570411 / 1000000)). { unfold hcoul, ca1, cb1, cc1, cd1. rewrite !sqrt_1. field. }
    rewrite H1. unfold H0. generalize (ca1 + 25 / 100 / 1 * (cb1 * sqrt (sqrt 1) - cc1 / sqrt (sqrt 1))). intros h.
    set (G := 1 - gt * 1) in *. clearbody G. set (k := KBNA) in *. clearbody k. set (l := ln 10) in *. clearbody l. set (t := T0) in *. clearbody t.
    intros Q.
    assert (Z0 : k / A * (570411 / 1000000) * dt / l = 0).
    { transitivity (G * (k / A * (- (570411 / 1000000) - 1 * h)) + k / A * t * - (570411 / 1000000) * G * - (1 * dt / (t * l)) / G - k / A * (- (570411 / 1000000) - h) * G).
      - field. repeat split; lra.
      - rewrite Q. ring. }
    apply DF. assert (k / A * (570411 / 1000000) / l <> 0).
    { assert (0 < k / A * (570411 / 1000000) / l) by (apply Rdiv_lt_0_compat; [|lra]; apply Rmult_lt_0_compat; [apply Rdiv_lt_0_compat|]; lra). lra. }
    apply (Rmult_eq_reg_l (k / A * (570411 / 1000000) / l)); [|assumption]. rewrite Rmult_0_r, <- Z0. unfold Rdiv. ring.
Qed.

(** ** continuity of the energy with Coulomb corrections *)
Lemma gain_cont rho T : 0 < T -> continuous (fun t => gain rho t) T.
Proof.
  intros HT. pose proof ln10pos. pose proof tiny_lt_1.
  apply (continuous_ext (fun t => 1 - fst (butterworth (log10 rho + 1) 6) * / (1 + ((ln t / ln 10 - 45 / 10) / 3) ^ 24))).
  - intros t. rewrite gain_eq, (butter_g (log10 t - 45 / 10) 3) by lra. reflexivity.
  - generalize (fst (butterworth (log10 rho + 1) 6)). intros c. assert (K := even_pow ((ln T / ln 10 - 45 / 10) / 3)).
    apply (continuous_comp (fun t => (ln t / ln 10 - 45 / 10) / 3) (fun u => 1 - c * / (1 + u ^ 24))).
    + eapply derive_cont. auto_derive; [exact HT|reflexivity].
    + set (u := (ln T / ln 10 - 45 / 10) / 3) in *. clearbody u.
      apply (continuous_comp (fun u => u ^ 24) (fun v => 1 - c * / (1 + v))).
      * eapply derive_cont. auto_derive; [exact I|reflexivity].
      * set (v := u ^ 24) in *. clearbody v. eapply derive_cont. auto_derive; [lra|reflexivity].
Qed.
Lemma coupling_mono rho T T' A Z : 0 < T -> T <= T' -> 0 < coupling rho T' A Z -> coupling rho T' A Z <= coupling rho T A Z.
Proof.
  intros HT HL HP. pose proof KB_pos. unfold coupling in *. set (c := (ELECTRON_CHARGE_ESU * Z) ^ 2 * Rpower (4 / 3 * PI * (NA * rho / A)) (1 / 3)) in *.
  assert (C0 : 0 <= c). { unfold c. apply Rmult_le_pos; [apply pow2_ge_0|]. left. apply exp_pos. }
  clearbody c. unfold Rdiv. apply Rmult_le_compat_l; [exact C0|]. apply Rinv_le_contravar; [apply Rmult_lt_0_compat; lra|].
  apply Rmult_le_compat_l; lra.
Qed.
Lemma coul_cont rho A Z T : tiny < A -> tiny < rho / A -> tiny < T -> tiny < coupling rho T A Z -> continuous (fun t => VAL (coul_e rho t A Z)) T.
Proof.
  intros HA HRA HT HG. pose proof tiny_pos. pose proof KB_pos.
  set (C := (ELECTRON_CHARGE_ESU * Z) ^ 2 * Rpower (4 / 3 * PI * (NA * rho / A)) (1 / 3) / KB).
  assert (HC : forall t, 0 < t -> coupling rho t A Z = C / t). { intros t Ht. unfold coupling, C. field. split; lra. }
  assert (D1 : continuous (fun t => C / t) T) by (eapply derive_cont; apply der_inv; lra).
  assert (CG : continuous (fun t => coupling rho t A Z) T).
  { apply (cont_loc _ (fun t => C / t)); [generalize (loc_gt 0 T ltac:(lra)); apply loc_imp; intros y Hy; symmetry; apply HC, Hy|exact D1]. }
  assert (LC : locally T (fun t => tiny < coupling rho t A Z)) by (apply loc_gt_f; [exact CG|exact HG]).
  apply (cont_loc _ (fun t => KBNA / A * t * hcoul (C / t) * gain rho t)).
  - generalize (loc_and _ _ _ LC (loc_gt tiny T HT)). apply loc_imp. intros t (A1 & A2). rewrite coul_e_VAL by assumption. rewrite HC by lra. reflexivity.
  - apply (continuous_mult (K := R_AbsRing) (fun t => KBNA / A * t * hcoul (C / t)) (fun t => gain rho t)); [|apply gain_cont; lra].
    apply (continuous_mult (K := R_AbsRing) (fun t => KBNA / A * t) (fun t => hcoul (C / t))).
    + apply (continuous_mult (K := R_AbsRing) (fun _ => KBNA / A) (fun t => t)); [apply continuous_const|apply continuous_id].
    + apply (continuous_comp (fun t => C / t) hcoul); [exact D1|]. eapply derive_cont. apply hcoul_derive. rewrite <- HC by lra. lra.
Qed.
(** the energy is continuous in temperature on the whole range of the table, with or without Coulomb corrections *)
Lemma energy_cont_all tb o rho A Z : tiny < rho -> small_A A Z -> (GAS o && DEGENERATE o = true -> closed rho A Z) ->
  (GAS o && DEGENERATE o && COUL o = true -> tiny < rho / A /\ tiny < coupling rho TMax A Z) ->
  forall T, TMin <= T <= TMax -> continuous (fun t => VAL (e_only tb o rho A Z t)) T.
Proof.
  intros Hr HA HC HG T HT. destruct (GAS o && DEGENERATE o && COUL o) eqn:E.
  - destruct (HG eq_refl) as (G1 & G2). apply andb_prop in E. destruct E as (E & E3). apply andb_prop in E. destruct E as (E1 & E2).
    apply (continuous_ext (fun t => VAL (e_only tb (drop_coul o) rho A Z t) + VAL (coul_e rho t A Z))).
    { intros t. unfold e_only. rewrite (parts_coul tb o) by assumption. reflexivity. }
    pose proof TMin_tiny. pose proof tiny_pos.
    apply (continuous_plus (V := R_NormedModule) (fun t => VAL (e_only tb (drop_coul o) rho A Z t)) (fun t => VAL (coul_e rho t A Z))).
    + apply energy_cont; [apply drop_no|exact Hr|exact HA|exact HC|lra].
    + apply coul_cont; [apply HA|exact G1|lra|]. apply Rlt_le_trans with (1 := G2). apply coupling_mono; lra.
  - apply energy_cont; [exact E|exact Hr|exact HA|exact HC|lra].
Qed.
(** what the root finders see is the energy and its slope *)
Lemma only_e_any tb o rho T A Z : VAL (e_only tb o rho A Z T) = VAL (he (parts tb o rho T A Z false)) /\
  DDT (e_only tb o rho A Z T) = DDT (he (parts tb o rho T A Z false)).
Proof.
  unfold e_only, parts. destruct (if RAD o then rad rho T else zeros) as [[r1 r2] r3]. destruct (if GAS o then ions_part o rho T A Z else zeros) as [[i1 i2] i3].
  destruct (GetMassFractions rho (ytot_of A)) as [[x1 x2] x3]. destruct (coulomb rho T (ytot_of A) A Z x1 x2 x3) as [[c1 c2] c3].
  assert (K : VAL (eele (electrons tb rho (log10 T) (ye_of A Z) (ytot_of A) (De_of rho A Z) (lDe_of rho A Z) true)) =
              VAL (eele (electrons tb rho (log10 T) (ye_of A Z) (ytot_of A) (De_of rho A Z) (lDe_of rho A Z) false)) /\
              DDT (eele (electrons tb rho (log10 T) (ye_of A Z) (ytot_of A) (De_of rho A Z) (lDe_of rho A Z) true)) =
              DDT (eele (electrons tb rho (log10 T) (ye_of A Z) (ytot_of A) (De_of rho A Z) (lDe_of rho A Z) false))).
  { unfold electrons. cbv zeta. cbn [eele VAL DDT]. split; ring. }
  destruct K as (K1 & K2). destruct (GAS o && DEGENERATE o); cbn [andb]; [|split; reflexivity].
  destruct (COUL o); unfold zeros; cbn [he add5 VAL DDT]; rewrite ?K1, ?K2; split; reflexivity.
Qed.
