(** C71: what a user would also expect of the Helmholtz EOS and is false of the code. *)
From Coq Require Import ZArith Reals Bool List Lra Lia.
From Flocq Require Import Core.
From Coquelicot Require Import Coquelicot.
From Verif Require Import Arith Robust_Model RootFinding_Model RootFinding_Proofs Thermo_Spec Thermo_Tools Spiner_Spec.
From Verif Require Import Helm_Spec Helm_Model Helm_Proofs Helm_Parts Helm_Coul Helm_Props.
Local Open Scope R_scope.

(** With a lambda that has the log-temperature slot, the temperature query ignores the energy: it returns 10^slot. *)
Theorem C71_cached_temperature_refuted :
  (forall tb o junk u rho e A Z v, TemperatureFromDensityInternalEnergy tb o junk u rho e (mkL A Z (Some v)) = Some (pow10 v)) /\
  ~ (forall tb o junk u rho T e A Z v, small_A A Z -> tiny < rho -> tiny < rho / A -> 10 ^ 3 <= T <= 10 ^ 13 ->
       InternalEnergyFromDensityTemperature tb o junk u rho T (mkL A Z (Some v)) = Some e ->
       TemperatureFromDensityInternalEnergy tb o junk u rho e (mkL A Z (Some v)) = Some T).
Proof.
  split; [intros; reflexivity|]. intros H. pose proof tiny_lt_1. pose proof tiny_pos.
  set (tb := mkTable (fun _ _ _ _ => 0) (fun _ _ _ _ => 0) (fun _ _ _ _ => 0) (fun _ _ _ _ => 0)). set (o := mkO false true false false false false).
  set (s := mkS 0 0 0 0 0 0).
  assert (K := H tb o 0 s 1 (10 ^ 4) (VAL (he (parts tb o 1 (10 ^ 4) 1 1 false))) 1 1 3).
  specialize (K small_hydrogen ltac:(lra) ltac:(lra) ltac:(lra) eq_refl).
  change (Some (pow10 3) = Some (10 ^ 4)) in K. injection K as K. change (pow10 3) with (pow10 lTMin) in K. rewrite TMin_pow in K. unfold TMin in K. lra.
Qed.

Lemma lnT_eq t : log10 t / log10 (exp 1) = ln t.
Proof. unfold log10. rewrite ln_exp. pose proof ln10pos. field. lra. Qed.
Lemma LSWOT_bad : LSWOT15 <> 15 / 10.
Proof. unfold LSWOT15. lra. Qed.
(** With the gas enabled the entropy query never obeys the first law: its ion part grows with temperature 31 times too fast (the Sackur-Tetrode
    constant multiplies ln T instead of being added to 1.5 ln T). *)
Theorem C71_entropy_first_law_refuted :
  forall tb o junk u l (E P : R -> R -> R),
    (forall r t, InternalEnergyFromDensityTemperature tb o junk u r t l = Some (E r t)) ->
    (forall r t, PressureFromDensityTemperature tb o junk u r t l = Some (P r t)) ->
    forall rho T, GAS o = true -> no_coul o -> good o rho T (l_abar l) (l_zbar l) ->
    ~ first_law (fun r t => EntropyFromDensityTemperature tb o r t l) E P rho T.
Proof.
  intros tb o junk u l E P HE HP rho T HG NC G (dEdT & dEdr & F1 & _ & F3 & _).
  assert (D1 := dET tb o junk u l E HE rho T NC G). set (A := l_abar l) in *. set (Z := l_zbar l) in *.
  assert (ED : dEdT = DDT (he (parts tb o rho T A Z false))).
  { apply is_derive_unique in F1. apply is_derive_unique in D1. rewrite <- F1, <- D1. reflexivity. }
  assert (PT : tiny < T) by apply G. assert (Pr : tiny < rho) by apply G. pose proof tiny_pos as P0.
  assert (SA := proj1 (proj2 (proj2 G))). assert (YP : 0 < Ypart o A Z).
  { destruct SA as (S1 & S2 & S3). unfold Ypart. destruct (_ || _); [apply Rinv_0_lt_compat; lra|apply Rdiv_lt_0_compat; lra]. }
  assert (DS : is_derive (fun t => EntropyFromDensityTemperature tb o rho t l) T
    (DDT (snd (Rpart o rho T)) + KBNA * Ypart o A Z * LSWOT15 / T + DDT (sele (Epart o tb false rho T A Z)))).
  { unfold EntropyFromDensityTemperature. fold A Z. eapply derive_loc.
    { generalize (good_T _ _ _ _ _ G). apply loc_imp. intros t Ht. rewrite parts_eq by assumption. reflexivity. }
    cbn [hs add5 VAL].
    apply (der_plus (fun t => VAL (snd (Rpart o rho t)) + VAL (snd (Ipart o rho t A Z))) (fun t => VAL (sele (Epart o tb false rho t A Z)))).
    - apply (der_plus (fun t => VAL (snd (Rpart o rho t))) (fun t => VAL (snd (Ipart o rho t A Z)))).
      + unfold Rpart. destruct (RAD o); cbn [radF zeros snd VAL DDT zero5]; [|apply der_const].
        apply (is_derive_ext (V := R_NormedModule) (fun t => 4 * PREFACTOR / rho * t ^ 3)); [intros t; unfold Rdiv; eqR; ring|].
        eapply der_eq; [apply der_T3|]. generalize (T ^ 2). intros. field. lra.
      + unfold Ipart. rewrite HG. cbn [ionF snd VAL].
        set (c := if (IONIZED o && DEGENERATE o) || negb (IONIZED o) then ywot_of rho A
                  else ratio (ln (ratio A (Z + 1) * ratio A (Z + 1) * sqrt (ratio A (Z + 1)))) (rho * NA)).
        apply (is_derive_ext (V := R_NormedModule) (fun t => KBNA * Ypart o A Z * (25 / 10 + (c + LSWOT15 * ln t)))).
        * intros t. unfold ypart. fold c. rewrite lnT_eq. reflexivity.
        * generalize (KBNA * Ypart o A Z) LSWOT15. clearbody c. intros k w. auto_derive; [lra|]. field. lra.
    - unfold Epart. assert (HI := proj2 (proj2 (proj2 G))). destruct (GAS o && DEGENERATE o); [|apply der_const].
      apply (elec_partials_s tb rho T A Z (HI eq_refl)). }
  apply is_derive_unique in DS. apply is_derive_unique in F3.
  assert (Q : dEdT / T = DDT (snd (Rpart o rho T)) + KBNA * Ypart o A Z * LSWOT15 / T + DDT (sele (Epart o tb false rho T A Z))) by (rewrite <- DS, <- F3; reflexivity).
  rewrite ED, parts_eq in Q by assumption. cbn [he add5 DDT] in Q.
  assert (Q1 : DDT (snd (fst (Rpart o rho T))) = T * DDT (snd (Rpart o rho T))).
  { unfold Rpart. destruct (RAD o); cbn [radF zeros fst snd DDT zero5]; [field; lra|ring]. }
  assert (Q2 : DDT (snd (fst (Ipart o rho T A Z))) = 15 / 10 * KBNA * Ypart o A Z) by (unfold Ipart; rewrite HG; reflexivity).
  assert (Q3 : DDT (eele (Epart o tb false rho T A Z)) = T * DDT (sele (Epart o tb false rho T A Z))).
  { unfold Epart. assert (HI := proj2 (proj2 (proj2 G))). destruct (GAS o && DEGENERATE o); [|cbn; ring].
    symmetry. apply (elec_entropy tb rho T A Z (HI eq_refl)). }
  rewrite Q1, Q2, Q3 in Q. pose proof KBNA_pos as KP.
  assert (Q4 : KBNA * Ypart o A Z * (15 / 10) = KBNA * Ypart o A Z * LSWOT15).
  { set (x := DDT (snd (Rpart o rho T))) in *. set (y := DDT (sele (Epart o tb false rho T A Z))) in *. set (w := LSWOT15) in *. clearbody x y w.
    apply (f_equal (fun z => z * T)) in Q. unfold Rdiv in Q at 1. rewrite Rmult_assoc, Rinv_l in Q by lra.
    replace ((x + KBNA * Ypart o A Z * w / T + y) * T) with (T * x + KBNA * Ypart o A Z * w + T * y) in Q by (field; lra). lra. }
  apply Rmult_eq_reg_l in Q4; [exact (LSWOT_bad (eq_sym Q4))|]. apply Rgt_not_eq, Rmult_lt_0_compat; assumption.
Qed.
Example C71_entropy_nonvacuous : GAS gas_rad = true /\ no_coul gas_rad /\ good gas_rad 1 (10 ^ 6) 4 2.
Proof. pose proof tiny_lt_1. split; [reflexivity|]. split; [reflexivity|]. refine (conj _ (conj _ (conj (conj _ (conj _ _)) _))); try lra. cbn. discriminate. Qed.

(** An ionised, non-degenerate gas with fewer than one nucleon mass per particle (hydrogen): entropy rises when the gas is compressed at
    constant temperature (the logarithm is taken before dividing by the density). *)
Theorem C71_entropy_compression_refuted :
  forall tb o l rho rho' T, GAS o = true -> RAD o = false -> IONIZED o = true -> DEGENERATE o = false ->
    small_A (l_abar l) (l_zbar l) -> l_abar l / (l_zbar l + 1) < 1 -> tiny < rho -> rho < rho' -> tiny < T ->
    EntropyFromDensityTemperature tb o rho T l < EntropyFromDensityTemperature tb o rho' T l.
Proof.
  intros tb o l rho rho' T HG HR HI HD SA HL Hr Hrr HT. set (A := l_abar l) in *. set (Z := l_zbar l) in *. pose proof tiny_pos as P0. pose proof tiny_lt_1 as P1.
  assert (NC : no_coul o) by (unfold no_coul; rewrite HD, andb_false_r; reflexivity).
  set (c := ln (ratio A (Z + 1) * ratio A (Z + 1) * sqrt (ratio A (Z + 1)))).
  assert (HC : c < 0).
  { destruct SA as (S1 & S2 & S3). unfold c. rewrite ratio_pos by lra. set (a := A / (Z + 1)) in *. clearbody a.
    assert (Q : 0 < sqrt a) by (apply sqrt_lt_R0; lra). assert (Q2 : sqrt a < 1). { rewrite <- sqrt_1. apply sqrt_lt_1; lra. }
    rewrite <- ln_1. apply ln_increasing; [apply Rmult_lt_0_compat; nra|]. assert (a * a < 1) by nra. assert (0 < a * a) by nra. nra. }
  assert (V : forall r, tiny < r -> EntropyFromDensityTemperature tb o r T l = KBNA * Ypart o A Z * (25 / 10 + (c / (r * NA) + LSWOT15 * (log10 T / log10 (exp 1))))).
  { intros r Hr'. unfold EntropyFromDensityTemperature. fold A Z. rewrite parts_eq0 by assumption. unfold Rpart, Ipart, Epart. rewrite HR, HG, HD.
    cbn [andb hs add5 VAL zeros snd fst zero5 sele ionF]. unfold ypart. rewrite HI, HD. cbn [andb orb negb]. fold c.
    rewrite (ratio_pos c). - ring. - pose proof NA_big. assert (1 <= NA) by lra. set (n := NA) in *. clearbody n. nra. }
  rewrite !V by lra. clear V. assert (YP : 0 < KBNA * Ypart o A Z).
  { apply Rmult_lt_0_compat; [exact KBNA_pos|]. destruct SA as (S1 & S2 & S3). unfold Ypart. destruct (_ || _); [apply Rinv_0_lt_compat; lra|apply Rdiv_lt_0_compat; lra]. }
  apply Rmult_lt_compat_l; [exact YP|]. apply Rplus_lt_compat_l, Rplus_lt_compat_r. pose proof NA_pos as PN.
  assert (I : / (rho' * NA) < / (rho * NA)). { apply Rinv_lt_contravar; [|apply Rmult_lt_compat_r; lra]. apply Rmult_lt_0_compat; apply Rmult_lt_0_compat; lra. }
  unfold Rdiv. nra.
Qed.
Example C71_entropy_compression_nonvacuous : small_A 1 1 /\ 1 / (1 + 1) < 1.
Proof. split; [exact small_hydrogen|lra]. Qed.

(** Coulomb corrections do not vanish in a hot thin gas: at coupling below 1e-4 (and above 1e8 K) they add at least half of k T per ion,
    where the physical correction tends to zero. The strong-coupling fit is used at every coupling (the test is [plasg >= 0], not [>= 1]). *)
Theorem C71_coulomb_weak_coupling_refuted :
  forall tb o junk u l rho T e e0, GAS o = true -> DEGENERATE o = true -> COUL o = true ->
    tiny < l_abar l -> tiny < rho / l_abar l -> 10 ^ 8 <= T -> tiny < coupling rho T (l_abar l) (l_zbar l) <= / 10 ^ 4 ->
    InternalEnergyFromDensityTemperature tb o junk u rho T l = Some e ->
    InternalEnergyFromDensityTemperature tb (drop_coul o) junk u rho T l = Some e0 ->
    e0 + 1 / 2 * (KBNA * T / l_abar l) <= e.
Proof.
  intros tb o junk u l rho T e e0 HG HD HCo HA HRA HT (C1 & C2) H H0. pose proof tiny_lt_1 as P1. pose proof tiny_pos as P0.
  assert (K : VAL (he (parts tb o rho T (l_abar l) (l_zbar l) false)) = e).
  { unfold InternalEnergyFromDensityTemperature, got, FillEos, ask in H. cbn in H. injection H as H. exact H. }
  assert (K0 : VAL (he (parts tb (drop_coul o) rho T (l_abar l) (l_zbar l) false)) = e0).
  { unfold InternalEnergyFromDensityTemperature, got, FillEos, ask in H0. cbn in H0. injection H0 as H0. exact H0. }
  rewrite (parts_coul tb o) in K by assumption. cbn [he add5 VAL] in K. rewrite K0 in K.
  change (snd (fst (coul_at rho T (l_abar l) (l_zbar l)))) with (coul_e rho T (l_abar l) (l_zbar l)) in K.
  rewrite coul_e_VAL in K; [|exact HA|exact HRA|lra|exact C1].
  assert (G1 := hcoul_weak _ (Rlt_trans _ _ _ P0 C1) C2). assert (G2 := gain_hot rho T HT).
  assert (P2 : 0 < KBNA / l_abar l * T). { apply Rmult_lt_0_compat; [apply Rdiv_lt_0_compat; [exact KBNA_pos|lra]|lra]. }
  rewrite <- K. replace (KBNA * T / l_abar l) with (KBNA / l_abar l * T) by (unfold Rdiv; ring).
  set (k := KBNA / l_abar l * T) in *. clearbody k. set (h := hcoul _) in *. clearbody h. set (g := gain rho T) in *. clearbody g. clear K.
  assert (k <= k * h) by nra. assert (1 / 2 * k <= k * h * g) by nra. lra.
Qed.
Lemma cube_root q : 0 < q -> Rpower (q ^ 3) (1 / 3) = q.
Proof. intros H. rewrite <- Rpower_pow by exact H. rewrite Rpower_mult. replace (INR 3 * (1 / 3)) with 1 by (simpl; field). apply Rpower_1, H. Qed.
Lemma Rpower_le_l x y a : 0 < x -> x <= y -> 0 <= a -> Rpower x a <= Rpower y a.
Proof. intros. apply Rle_Rpower_l; [assumption|split; assumption]. Qed.
Lemma PI_bounds : 3 < PI <= 4.
Proof. pose proof PI2_3_2 as P. pose proof PI_4. unfold PI2 in P. split; lra. Qed.
Example C71_coulomb_weak_coupling_nonvacuous : tiny < 1 / 1 /\ 10 ^ 8 <= 10 ^ 10 /\ tiny < coupling 1 (10 ^ 10) 1 1 <= / 10 ^ 4.
Proof.
  pose proof tiny_lt_1. split; [lra|]. split; [lra|]. destruct PI_bounds as (B1 & B2). unfold coupling.
  set (c := Rpower _ _).
  assert (C : 1 <= c <= 2 * 10 ^ 8).
  { unfold c. rewrite <- (cube_root 1) at 1 by lra. rewrite <- (cube_root (2 * 10 ^ 8)) by lra. unfold NA.
    split; apply Rpower_le_l; try lra; try nra. }
  clearbody c. unfold ELECTRON_CHARGE_ESU, KB. split.
  - apply Rlt_le_trans with (/ 10 ^ 40).
    + unfold tiny. apply Rlt_le_trans with (bpow radix2 (-200)); [apply bpow_lt; lia|]. change (bpow radix2 (-200)) with (/ IZR (Z.pow_pos 2 200)).
      replace (IZR (Z.pow_pos 2 200)) with (2 ^ 200) by (simpl Z.pow_pos; lra). apply Rinv_le_contravar; [apply pow_lt; lra|]. lra.
    + apply le_div; [lra|]. nra.
  - apply div_le; [lra|]. nra.
Qed.

(** With Coulomb corrections the specific heat is not the temperature derivative of the energy: there is a density of hydrogen at 10^4.5 K where
    they differ, whatever the table (the damping derivatives of density and temperature are exchanged). *)
Theorem C71_coulomb_specific_heat_refuted :
  exists rho, rhoMin < rho < rhoMax /\
  forall tb o junk u (E : R -> R -> R) c, let l := mkL 1 1 None in
    GAS o = true -> DEGENERATE o = true -> COUL o = true ->
    (forall r t, InternalEnergyFromDensityTemperature tb o junk u r t l = Some (E r t)) ->
    SpecificHeatFromDensityTemperature tb o junk u rho (pow10 (45 / 10)) l = Some c ->
    ~ is_specific_heat E rho (pow10 (45 / 10)) c.
Proof.
  fold T0. destruct PI_bounds as (B1 & B2). pose proof tiny_lt_1 as P1. pose proof tiny_pos as P0. pose proof KB_pos as PK. pose proof ESU_pos as PE. pose proof NA_pos as PN.
  assert (T2 : T0 * T0 = 10 ^ 9). { rewrite <- pow10_nat. unfold T0, pow10. rewrite <- exp_plus. f_equal. simpl. field. }
  assert (TP : 0 < T0) by apply pow10_pos.
  assert (TB : 3 * 10 ^ 4 <= T0 <= 32 * 10 ^ 3) by (split; nra).
  set (q := KB * T0 / ELECTRON_CHARGE_ESU ^ 2).
  assert (QB : 10 ^ 7 <= q <= 2 * 10 ^ 7).
  { unfold q, KB, ELECTRON_CHARGE_ESU. clear T2. split.
    - apply le_div; lra.
    - apply div_le; lra. }
  set (rho := q ^ 3 * 3 / (4 * PI * NA)).
  assert (Q3 : 10 ^ 21 <= q ^ 3 <= 8 * 10 ^ 21).
  { split. - replace (10 ^ 21) with ((10 ^ 7) ^ 3) by ring. apply pow_incr. lra. - replace (8 * 10 ^ 21) with ((2 * 10 ^ 7) ^ 3) by ring. apply pow_incr. lra. }
  assert (ND : 0 < 4 * PI * NA) by (apply Rmult_lt_0_compat; lra).
  assert (RB : / 10 ^ 5 <= rho <= / 10 ^ 2).
  { unfold rho. set (w := q ^ 3) in *. clearbody w. clear T2 TB QB. split; [apply le_div|apply div_le]; try exact ND; unfold NA; nra. }
  assert (CP : coupling rho T0 1 1 = 1).
  { unfold coupling. replace (4 / 3 * PI * (NA * rho / 1)) with (q ^ 3) by (unfold rho; field; split; lra). rewrite cube_root by lra. unfold q. field. split; lra. }
  assert (L10 : 1 <= Rabs (log10 rho + 1)).
  { assert (log10 rho <= -2).
    { rewrite <- (log10_pow10 (-2)). apply log10_le; [lra|]. replace (-2) with (- INR 2) by (simpl; ring). rewrite pow10_neg, pow10_nat. apply RB. }
    rewrite Rabs_left1 by lra. lra. }
  assert (RT : tiny < rho). { apply Rlt_le_trans with (/ 10 ^ 5); [|apply RB]. unfold tiny. apply Rlt_le_trans with (bpow radix2 (-20)); [apply bpow_lt; lia|].
    change (bpow radix2 (-20)) with (/ IZR (Z.pow_pos 2 20)). simpl Z.pow_pos. lra. }
  clearbody rho. exists rho. assert (RR : rhoMin < rho < rhoMax) by (unfold rhoMin, rhoMax; lra). split; [exact RR|].
  intros tb o junk u E c l HG HD HCo HE HC D. unfold is_specific_heat in D.
  destruct (coul_e_T0 rho 1 1 ltac:(lra) ltac:(lra) CP L10) as (d & D1 & D2).
  assert (SA := small_hydrogen).
  assert (GD : good (drop_coul o) rho T0 1 1).
  { refine (conj RT (conj _ (conj SA (fun _ => _)))); [lra|]. refine (conj RR (conj _ (conj _ (conj _ _)))); try lra. unfold TMin. lra. }
  assert (D0 := tot_eT tb (drop_coul o) rho T0 1 1 (drop_no o) GD).
  assert (EV : forall t, E rho t = VAL (he (parts tb (drop_coul o) rho t 1 1 false)) + VAL (coul_e rho t 1 1)).
  { intros t. assert (K := HE rho t). unfold InternalEnergyFromDensityTemperature, got, FillEos, ask in K. cbn in K. injection K as K. rewrite <- K.
    change (l_abar l) with 1. change (l_zbar l) with 1. rewrite (parts_coul tb o) by assumption. reflexivity. }
  assert (CV : c = DDT (he (parts tb (drop_coul o) rho T0 1 1 false)) + DDT (coul_e rho T0 1 1)).
  { unfold SpecificHeatFromDensityTemperature, got, FillEos, ask in HC. cbn in HC. injection HC as K. rewrite <- K.
    change (l_abar l) with 1. change (l_zbar l) with 1. rewrite (parts_coul tb o) by assumption. reflexivity. }
  assert (DE : is_derive (fun t => E rho t) T0 (DDT (he (parts tb (drop_coul o) rho T0 1 1 false)) + d)).
  { eapply (is_derive_ext (V := R_NormedModule)); [intros t; symmetry; apply EV|].
    apply (der_plus (fun t => VAL (he (parts tb (drop_coul o) rho t 1 1 false))) (fun t => VAL (coul_e rho t 1 1))); assumption. }
  apply is_derive_unique in D. apply is_derive_unique in DE. apply D2.
  assert (c = DDT (he (parts tb (drop_coul o) rho T0 1 1 false)) + d) by (rewrite <- D, <- DE; reflexivity). lra.
Qed.
Print Assumptions C71_cached_temperature_refuted.
Print Assumptions C71_entropy_first_law_refuted.
Print Assumptions C71_entropy_compression_refuted.
Print Assumptions C71_coulomb_weak_coupling_refuted.
Print Assumptions C71_coulomb_specific_heat_refuted.
