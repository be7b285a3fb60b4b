(** C69, C71: the Coulomb corrections of the Helmholtz EOS. *)
From Coq Require Import ZArith Reals Bool List Lra Lia.
From Flocq Require Import Core.
From Coquelicot Require Import Coquelicot.
From Verif Require Import Arith Robust_Model Thermo_Spec Thermo_Tools Helm_Spec Helm_Model Helm_Proofs Helm_Parts Helm_Coul Helm_Props.
Local Open Scope R_scope.

(** pressure, energy and entropy corrections before damping, as functions of density, temperature, mean atomic mass and number *)
Definition raw (rho T A Z : R) : vec5 * vec5 * vec5 :=
  let '(xni, dxnidd, dxnida) := GetMassFractions rho (ytot_of A) in coul_raw rho T (ytot_of A) A Z xni dxnidd dxnida.
Definition raw_p rho T A Z := fst (fst (raw rho T A Z)).
Definition raw_e rho T A Z := snd (fst (raw rho T A Z)).
Definition raw_s rho T A Z := snd (raw rho T A Z).
(** arguments far from the smallest and largest numbers *)
Definition moderate (rho T A Z : R) : Prop :=
  tiny < rho /\ tiny < T /\ tiny < A /\ tiny < Z /\ tiny < rho / A /\ rho / A < 10 ^ 30 /\ tiny < coupling rho T A Z.

(** ** Closed forms *)
Lemma NA_up : NA <= 10 ^ 24. Proof. unfold NA. lra. Qed.
Lemma big_tiny : tiny < / 10 ^ 60.
Proof.
  unfold tiny. apply Rlt_le_trans with (bpow radix2 (-240)); [apply bpow_lt; lia|].
  change (bpow radix2 (-240)) with (/ IZR (Z.pow_pos 2 240)). apply Rinv_le; [apply pow_lt; lra|]. rewrite pow_IZR. apply IZR_le. vm_compute. discriminate.
Qed.
Lemma lami_ok s : tiny < s -> s <= 10 ^ 60 -> tiny < 1 / Rpower s (1 / 3).
Proof.
  intros H1 H2. pose proof tiny_pos. assert (C := cbrt_ge s H1). pose proof big_tiny. assert (U : Rpower s (1 / 3) <= 10 ^ 60).
  { destruct (Rle_lt_dec 1 s) as [L|L].
    - apply Rle_trans with s; [|exact H2]. rewrite <- (Rpower_1 s) at 2 by lra. apply Rle_Rpower; lra.
    - apply Rle_trans with 1; [|apply pow_R1_Rle; lra]. unfold Rpower. assert (ln s < 0) by (rewrite <- ln_1; apply ln_increasing; lra). apply Rle_trans with (exp 0); [left; apply exp_increasing; lra|rewrite exp_0; lra]. }
  apply Rlt_le_trans with (/ 10 ^ 60); [assumption|]. unfold Rdiv. rewrite Rmult_1_l. apply Rinv_le; [lra|exact U].
Qed.
Definition pl (rho T A Z : R) : vec5 := let '(xni, dxnidd, dxnida) := GetMassFractions rho (ytot_of A) in plasma T Z xni dxnidd dxnida.
Definition hd (G : R) : R := ca1 + 25 / 100 / G * (cb1 * sqrt (sqrt G) - cc1 / sqrt (sqrt G)).
Section Point.
Variables (rho T A Z : R).
Hypothesis M : moderate rho T A Z.
Let G := coupling rho T A Z.
Lemma pl_eq : pl rho T A Z = mk5 G (G / (3 * rho)) (- (G / T)) (- (G / (3 * A))) (2 * (G / Z)).
Proof.
  destruct M as (M1 & M2 & M3 & M4 & M5 & M6 & M7). pose proof tiny_pos. pose proof KB_pos. pose proof NA_pos as NP. pose proof PI_RGT_0 as PP.
  assert (PE := plasma_eq rho A Z M3 M5 T M2). unfold pl. unfold GetMassFractions in *. cbv zeta in PE. destruct PE as [E1 E2]. fold G in E1, E2.
  unfold plasma in *. cbv zeta in *. cbn [VAL DDT] in *. rewrite !E1. rewrite E1 in E2. rewrite E2. clear E2.
  rewrite !(ytot_eq A M3). rewrite (ratio_pos _ Z) by lra.
  set (s := 4 / 3 * PI * (NA * / A * rho)).
  assert (S1 : tiny < s) by (unfold s; replace (NA * / A * rho) with (NA * rho / A) by (unfold Rdiv; ring); apply sphere_pos; exact M5).
  assert (S2 : s <= 10 ^ 60).
  { unfold s. replace (4 / 3 * PI * (NA * / A * rho)) with (4 / 3 * PI * (NA * (rho / A))) by (field; lra). pose proof PI_4. pose proof NA_up.
    assert (NA * (rho / A) <= 10 ^ 24 * 10 ^ 30) by (apply Rmult_le_compat; lra).
    assert (0 < NA * (rho / A)) by (apply Rmult_lt_0_compat; lra). nra. }
  assert (L := lami_ok s S1 S2). assert (C := cbrt_ge s S1).
  unfold cbrt. rewrite (ratio_pos 1 (Rpower s (1 / 3))) by lra. rewrite (ratio_pos G) by lra. rewrite (ratio_pos 1 s) by lra.
  assert (SR : s = 4 / 3 * PI * NA * / A * rho) by (unfold s; ring). set (c := Rpower s (1 / 3)) in *. clearbody c. clear L S2.
  f_equal.
  - rewrite SR. field. repeat split; lra.
  - rewrite SR. field. repeat split; lra.
Qed.
Lemma raw_eq : raw_e rho T A Z = mk5 (KBNA / A * T * hcoul G) (KBNA / A * T * hd G * (G / (3 * rho))) (KBNA / A * (hcoul G - G * hd G))
                                  (KBNA / A * T * hd G * (- (G / (3 * A))) - KBNA / A * T * hcoul G / A) (KBNA / A * T * hd G * (2 * (G / Z))) /\
  raw_p rho T A Z = mk5 (1 / 3 * rho * VAL (raw_e rho T A Z)) (1 / 3 * VAL (raw_e rho T A Z) + 1 / 3 * rho * DDR (raw_e rho T A Z)) (1 / 3 * rho * DDT (raw_e rho T A Z))
                        (1 / 3 * rho * DDA (raw_e rho T A Z)) (1 / 3 * rho * DDZ (raw_e rho T A Z)) /\
  VAL (raw_s rho T A Z) = - (KBNA / A) * (3 * cb1 * sqrt (sqrt G) - 5 * (cc1 / sqrt (sqrt G)) + cd1 * (ln G - 1) - ce1) /\
  DDT (raw_s rho T A Z) = - (KBNA / A) * G * (75 / 100 * cb1 * sqrt (sqrt G) + 125 / 100 * (cc1 / sqrt (sqrt G)) + cd1) * - (G / T).
Proof.
  assert (Q := pl_eq). destruct M as (M1 & M2 & M3 & M4 & M5 & M6 & M7). fold G in M7. pose proof tiny_pos. assert (X := root_ge _ M7).
  unfold raw_e, raw_p, raw_s, raw, pl in *. destruct (GetMassFractions rho (ytot_of A)) as [[x1 x2] x3]. unfold coul_raw. cbv zeta. rewrite Q. cbn [VAL DDR DDT DDA DDZ].
  rewrite (Rle_bool_true 0 G) by lra. cbn [fst snd VAL DDR DDT DDA DDZ]. rewrite !(ytot_eq A M3). rewrite (ratio_pos 1 A) by lra.
  rewrite (ratio_pos cc1) by lra. rewrite (ratio_pos _ G) by lra. rewrite (ratio_pos _ T) by lra. fold (hd G).
  unfold hcoul. set (x := sqrt (sqrt G)) in *.
  split; [|split; [reflexivity|split]].
  - f_equal; fold (hd G); try (field; repeat split; lra).
    set (h := hd G). clearbody h x G. field. repeat split; lra.
  - unfold Rdiv. ring.
Qed.
End Point.

(** ** Derivatives of the coupling *)
Lemma cube_der k x : 0 < k * x -> is_derive (fun r => Rpower (k * r) (1 / 3)) x (Rpower (k * x) (1 / 3) / (3 * x)).
Proof.
  intros H. unfold Rpower. assert (x <> 0) by (intros Z; rewrite Z, Rmult_0_r in H; lra). assert (k <> 0) by (intros Z; rewrite Z, Rmult_0_l in H; lra).
  auto_derive; [lra|]. set (e := exp _). clearbody e. field. split; assumption.
Qed.
Lemma coupling_rho rho T A Z : 0 < rho / A -> A <> 0 -> 0 < T -> is_derive (fun r => coupling r T A Z) rho (coupling rho T A Z / (3 * rho)).
Proof.
  intros H HA HT. pose proof NA_pos. pose proof PI_RGT_0. pose proof KB_pos. set (k := 4 / 3 * PI * (NA / A)).
  assert (KP : 0 < k * rho). { unfold k. replace (4 / 3 * PI * (NA / A) * rho) with (4 / 3 * PI * (NA * (rho / A))) by (field; exact HA). set (q := rho / A) in *. clearbody q. apply Rmult_lt_0_compat; [lra|]. apply Rmult_lt_0_compat; assumption. }
  assert (R0 : rho <> 0) by (intros W; rewrite W, Rmult_0_r in KP; lra).
  set (c := (ELECTRON_CHARGE_ESU * Z) ^ 2 / (KB * T)).
  apply (derive_loc _ (fun r => c * Rpower (k * r) (1 / 3))).
  - apply filter_forall. intros r. unfold coupling, c, k. replace (4 / 3 * PI * (NA * r / A)) with (4 / 3 * PI * (NA / A) * r) by (field; exact HA).
    set (w := Rpower _ _). clearbody w. field. split; lra.
  - eapply der_eq; [apply (der_mult (fun _ => c) (fun r => Rpower (k * r) (1 / 3))); [apply der_const|apply cube_der; exact KP]|].
    unfold coupling. replace (4 / 3 * PI * (NA * rho / A)) with (k * rho) by (unfold k; field; exact HA). set (w := Rpower _ _). clearbody w. unfold c. field. repeat split; lra.
Qed.
Lemma coupling_A rho T A Z : 0 < rho / A -> A <> 0 -> 0 < T -> is_derive (fun a => coupling rho T a Z) A (- (coupling rho T A Z / (3 * A))).
Proof.
  intros H HA HT. assert (KP := KB_pos). assert (R0 : rho <> 0) by (intros W; rewrite W in H; unfold Rdiv in H; rewrite Rmult_0_l in H; lra).
  apply (derive_loc _ (fun a => coupling (rho / a) T 1 Z)).
  - assert (LN : locally A (fun a => a <> 0)). { destruct (Rdichotomy _ _ HA) as [L|L]; [generalize (loc_lt 0 A L)|generalize (loc_gt 0 A L)]; apply loc_imp; intros; lra. }
    generalize LN. apply loc_imp. intros a Ha. unfold coupling. replace (NA * rho / a) with (NA * (rho / a) / 1) by (field; exact Ha). reflexivity.
  - eapply der_eq; [apply (comp_derive (fun r => coupling r T 1 Z) (fun a => rho / a)); [apply coupling_rho; lra|apply der_inv; exact HA]|].
    unfold coupling. replace (4 / 3 * PI * (NA * (rho / A) / 1)) with (4 / 3 * PI * (NA * rho / A)) by (field; exact HA). set (w := Rpower _ _). clearbody w. field. repeat split; lra.
Qed.
Lemma coupling_T rho T A Z : 0 < T -> is_derive (fun t => coupling rho t A Z) T (- (coupling rho T A Z / T)).
Proof.
  intros HT. pose proof KB_pos. set (c := (ELECTRON_CHARGE_ESU * Z) ^ 2 * Rpower (4 / 3 * PI * (NA * rho / A)) (1 / 3) / KB).
  apply (derive_loc _ (fun t => c / t)).
  - generalize (loc_gt 0 T HT). apply loc_imp. intros t Ht. unfold coupling, c. field. split; lra.
  - eapply der_eq; [apply der_inv; lra|]. unfold coupling. fold c. unfold c. field. split; lra.
Qed.
Lemma coupling_Z rho T A Z : Z <> 0 -> 0 < T -> is_derive (fun z => coupling rho T A z) Z (2 * (coupling rho T A Z / Z)).
Proof.
  intros HZ HT. pose proof KB_pos. unfold coupling. set (w := Rpower _ _). clearbody w. auto_derive; [exact I|]. field. repeat split; lra.
Qed.
(** the conditions are open in each argument *)
Lemma open_rho rho T A Z : moderate rho T A Z -> locally rho (fun r => moderate r T A Z).
Proof.
  intros (M1 & M2 & M3 & M4 & M5 & M6 & M7). pose proof tiny_pos.
  assert (C1 : continuous (fun r => r / A) rho) by (eapply derive_cont; auto_derive; [exact I|reflexivity]).
  assert (C2 : continuous (fun r => coupling r T A Z) rho) by (eapply derive_cont; apply coupling_rho; lra).
  generalize (loc_and _ _ _ (loc_gt _ _ M1) (loc_and _ _ _ (loc_gt_f _ _ _ C1 M5) (loc_and _ _ _ (loc_lt_f _ _ _ C1 M6) (loc_gt_f _ _ _ C2 M7)))).
  apply loc_imp. intros y (Y1 & Y2 & Y3 & Y4). repeat split; assumption.
Qed.
Lemma open_T rho T A Z : moderate rho T A Z -> locally T (fun t => moderate rho t A Z).
Proof.
  intros (M1 & M2 & M3 & M4 & M5 & M6 & M7). pose proof tiny_pos.
  assert (C2 : continuous (fun t => coupling rho t A Z) T) by (eapply derive_cont; apply coupling_T; lra).
  generalize (loc_and _ _ _ (loc_gt _ _ M2) (loc_gt_f _ _ _ C2 M7)). apply loc_imp. intros y (Y1 & Y2). repeat split; assumption.
Qed.
Lemma open_A rho T A Z : moderate rho T A Z -> locally A (fun a => moderate rho T a Z).
Proof.
  intros (M1 & M2 & M3 & M4 & M5 & M6 & M7). pose proof tiny_pos.
  assert (C1 : continuous (fun a => rho / a) A) by (eapply derive_cont; apply der_inv; lra).
  assert (C2 : continuous (fun a => coupling rho T a Z) A) by (eapply derive_cont; apply coupling_A; lra).
  generalize (loc_and _ _ _ (loc_gt _ _ M3) (loc_and _ _ _ (loc_gt_f _ _ _ C1 M5) (loc_and _ _ _ (loc_lt_f _ _ _ C1 M6) (loc_gt_f _ _ _ C2 M7)))).
  apply loc_imp. intros y (Y1 & Y2 & Y3 & Y4). repeat split; assumption.
Qed.
Lemma open_Z rho T A Z : moderate rho T A Z -> locally Z (fun z => moderate rho T A z).
Proof.
  intros (M1 & M2 & M3 & M4 & M5 & M6 & M7). pose proof tiny_pos.
  assert (C2 : continuous (fun z => coupling rho T A z) Z) by (eapply derive_cont; apply coupling_Z; lra).
  generalize (loc_and _ _ _ (loc_gt _ _ M4) (loc_gt_f _ _ _ C2 M7)). apply loc_imp. intros y (Y1 & Y2). repeat split; assumption.
Qed.

(** ** Theorems *)
(** Before damping, the four slopes kept with the energy and pressure corrections are their partial derivatives in density, temperature, mean atomic
    mass and number. Missing: after damping they are not (C71). *)
Theorem C69_coulomb_slopes_partial : forall rho T A Z, moderate rho T A Z -> partials raw_e rho T A Z /\ partials raw_p rho T A Z.
Proof.
  intros rho T A Z M. pose proof tiny_pos as TP. destruct M as (M1 & M2 & M3 & M4 & M5 & M6 & M7) eqn:HM. clear HM.
  set (G := coupling rho T A Z) in *. assert (HD : is_derive hcoul G (hd G)) by (apply hcoul_derive; lra).
  destruct (raw_eq rho T A Z M) as (E1 & E2 & _). fold G in E1.
  assert (PE : partials raw_e rho T A Z).
  { unfold partials. rewrite E1. cbn [DDR DDT DDA DDZ]. refine (conj _ (conj _ (conj _ _))).
    - apply (derive_loc _ (fun r => KBNA / A * T * hcoul (coupling r T A Z))).
      + generalize (open_rho _ _ _ _ M). apply loc_imp. intros r Mr. destruct (raw_eq _ _ _ _ Mr) as (K & _). rewrite K. reflexivity.
      + eapply der_eq; [apply (der_mult (fun _ => KBNA / A * T) (fun r => hcoul (coupling r T A Z))); [apply der_const|apply (comp_derive hcoul (fun r => coupling r T A Z)); [exact HD|apply coupling_rho; lra]]|].
        cbv beta. fold G. ring.
    - apply (derive_loc _ (fun t => KBNA / A * t * hcoul (coupling rho t A Z))).
      + generalize (open_T _ _ _ _ M). apply loc_imp. intros r Mr. destruct (raw_eq _ _ _ _ Mr) as (K & _). rewrite K. reflexivity.
      + eapply der_eq; [apply (der_mult (fun t => KBNA / A * t) (fun t => hcoul (coupling rho t A Z)));
          [apply (der_mult (fun _ => KBNA / A) (fun t => t)); [apply der_const|apply der_id]|apply (comp_derive hcoul (fun t => coupling rho t A Z)); [exact HD|apply coupling_T; lra]]|].
        cbv beta. fold G. field. split; lra.
    - apply (derive_loc _ (fun a => KBNA * T / a * hcoul (coupling rho T a Z))).
      + generalize (open_A _ _ _ _ M). apply loc_imp. intros r Mr. destruct (raw_eq _ _ _ _ Mr) as (K & _). rewrite K. cbn [VAL]. destruct Mr as (_ & _ & R3 & _). field. lra.
      + eapply der_eq; [apply (der_mult (fun a => KBNA * T / a) (fun a => hcoul (coupling rho T a Z)));
          [apply der_inv; lra|apply (comp_derive hcoul (fun a => coupling rho T a Z)); [exact HD|apply coupling_A; lra]]|].
        cbv beta. fold G. field. lra.
    - apply (derive_loc _ (fun z => KBNA / A * T * hcoul (coupling rho T A z))).
      + generalize (open_Z _ _ _ _ M). apply loc_imp. intros r Mr. destruct (raw_eq _ _ _ _ Mr) as (K & _). rewrite K. reflexivity.
      + eapply der_eq; [apply (der_mult (fun _ => KBNA / A * T) (fun z => hcoul (coupling rho T A z))); [apply der_const|apply (comp_derive hcoul (fun z => coupling rho T A z)); [exact HD|apply coupling_Z; lra]]|].
        cbv beta. fold G. ring. }
  split; [exact PE|]. destruct PE as (P1 & P2 & P3 & P4). unfold partials. rewrite E2. cbn [DDR DDT DDA DDZ]. refine (conj _ (conj _ (conj _ _))).
  - apply (derive_loc _ (fun r => 1 / 3 * r * VAL (raw_e r T A Z))).
    + generalize (open_rho _ _ _ _ M). apply loc_imp. intros r Mr. destruct (raw_eq _ _ _ _ Mr) as (_ & K & _). rewrite K. reflexivity.
    + eapply der_eq; [apply (der_mult (fun r => 1 / 3 * r) (fun r => VAL (raw_e r T A Z))); [apply (der_mult (fun _ => 1 / 3) (fun r => r)); [apply der_const|apply der_id]|exact P1]|]. cbv beta. ring.
  - apply (derive_loc _ (fun t => 1 / 3 * rho * VAL (raw_e rho t A Z))).
    + generalize (open_T _ _ _ _ M). apply loc_imp. intros r Mr. destruct (raw_eq _ _ _ _ Mr) as (_ & K & _). rewrite K. reflexivity.
    + eapply der_eq; [apply (der_mult (fun _ => 1 / 3 * rho) (fun t => VAL (raw_e rho t A Z))); [apply der_const|exact P2]|]. ring.
  - apply (derive_loc _ (fun a => 1 / 3 * rho * VAL (raw_e rho T a Z))).
    + generalize (open_A _ _ _ _ M). apply loc_imp. intros r Mr. destruct (raw_eq _ _ _ _ Mr) as (_ & K & _). rewrite K. reflexivity.
    + eapply der_eq; [apply (der_mult (fun _ => 1 / 3 * rho) (fun t => VAL (raw_e rho T t Z))); [apply der_const|exact P3]|]. ring.
  - apply (derive_loc _ (fun z => 1 / 3 * rho * VAL (raw_e rho T A z))).
    + generalize (open_Z _ _ _ _ M). apply loc_imp. intros r Mr. destruct (raw_eq _ _ _ _ Mr) as (_ & K & _). rewrite K. reflexivity.
    + eapply der_eq; [apply (der_mult (fun _ => 1 / 3 * rho) (fun t => VAL (raw_e rho T A t))); [apply der_const|exact P4]|]. ring.
Qed.
(** the derivative in temperature of the entropy correction *)
Lemma s_T rho T A Z : moderate rho T A Z -> let G := coupling rho T A Z in
  is_derive (fun t => VAL (raw_s rho t A Z)) T (KBNA / A / T * (75 / 100 * cb1 * sqrt (sqrt G) + 125 / 100 * (cc1 / sqrt (sqrt G)) + cd1)).
Proof.
  intros M G. pose proof tiny_pos as TP. destruct M as (M1 & M2 & M3 & M4 & M5 & M6 & M7) eqn:HM. clear HM. fold G in M7.
  set (F := fun g => 3 * cb1 * sqrt (sqrt g) - 5 * (cc1 / sqrt (sqrt g)) + cd1 * (ln g - 1) - ce1).
  apply (derive_loc _ (fun t => - (KBNA / A) * F (coupling rho t A Z))).
  - generalize (open_T _ _ _ _ M). apply loc_imp. intros t Mt. destruct (raw_eq _ _ _ _ Mt) as (_ & _ & K & _). symmetry. exact K.
  - assert (S1 : 0 < sqrt G) by (apply sqrt_lt_R0; lra). assert (S2 : 0 < sqrt (sqrt G)) by (apply sqrt_lt_R0; exact S1).
    assert (DF : is_derive F G ((75 / 100 * cb1 * sqrt (sqrt G) + 125 / 100 * (cc1 / sqrt (sqrt G)) + cd1) / G)).
    { unfold F. auto_derive; [repeat split; try assumption; lra|].
      assert (E1 : sqrt (sqrt G) * sqrt (sqrt G) = sqrt G) by (apply sqrt_sqrt; lra). assert (E2 : sqrt G * sqrt G = G) by (apply sqrt_sqrt; lra).
      set (x := sqrt (sqrt G)) in *. set (y := sqrt G) in *. clearbody x y. subst y. rewrite <- E2. field. lra. }
    eapply der_eq; [apply (der_mult (fun _ => - (KBNA / A)) (fun t => F (coupling rho t A Z))); [apply der_const|apply (comp_derive F (fun t => coupling rho t A Z)); [exact DF|apply coupling_T; lra]]|].
    cbv beta. fold G. set (w := _ + cd1). clearbody w. field. repeat split; lra.
Qed.
(** Before damping, the correction obeys T ds = de at constant density. Missing: the damped correction. *)
Theorem C69_coulomb_entropy_partial : forall rho T A Z, moderate rho T A Z ->
  exists dedT, is_derive (fun t => VAL (raw_e rho t A Z)) T dedT /\ is_derive (fun t => VAL (raw_s rho t A Z)) T (dedT / T).
Proof.
  intros rho T A Z M. pose proof tiny_pos as TP. destruct (C69_coulomb_slopes_partial _ _ _ _ M) as ((_ & D & _) & _). eexists. split; [exact D|].
  destruct (raw_eq _ _ _ _ M) as (E1 & _). rewrite E1. cbn [DDT]. destruct M as (M1 & M2 & M3 & M4 & M5 & M6 & M7) eqn:HM. clear HM.
  eapply der_eq; [apply (s_T _ _ _ _ M)|]. set (G := coupling rho T A Z) in *. unfold hcoul, hd. assert (X := root_ge _ M7). set (x := sqrt (sqrt G)) in *. clearbody x. field. repeat split; lra.
Qed.
(** The virial theorem: whatever the table and options, switching the corrections on changes pressure and energy by amounts in the ratio density / 3. *)
Theorem C69_coulomb_virial : forall tb o junk u rho T l P E P0 E0, GAS o = true -> DEGENERATE o = true -> COUL o = true -> tiny < rho ->
  PressureFromDensityTemperature tb o junk u rho T l = Some P -> InternalEnergyFromDensityTemperature tb o junk u rho T l = Some E ->
  let o0 := mkO (RAD o) (GAS o) false (IONIZED o) (DEGENERATE o) (NEWTON o) in
  PressureFromDensityTemperature tb o0 junk u rho T l = Some P0 -> InternalEnergyFromDensityTemperature tb o0 junk u rho T l = Some E0 ->
  3 * (P - P0) = rho * (E - E0).
Proof.
  intros tb o junk u rho T l P E P0 E0 H1 H2 H3 HR HP HE o0 HP0 HE0. pose proof tiny_pos.
  unfold PressureFromDensityTemperature, InternalEnergyFromDensityTemperature, got, FillEos, ask in HP, HE, HP0, HE0. cbn in HP, HE, HP0, HE0.
  injection HP as HP. injection HE as HE. injection HP0 as HP0. injection HE0 as HE0. subst P E P0 E0.
  change o0 with (drop_coul o). rewrite (parts_coul tb o rho T (l_abar l) (l_zbar l) false H1 H2 H3). cbn [hp he add5 VAL].
  set (A := l_abar l). set (Z := l_zbar l). unfold coul_at. destruct (GetMassFractions rho (ytot_of A)) as [[x1 x2] x3]. unfold coulomb.
  assert (V : VAL (fst (fst (coul_raw rho T (ytot_of A) A Z x1 x2 x3))) * 3 = rho * VAL (snd (fst (coul_raw rho T (ytot_of A) A Z x1 x2 x3)))).
  { unfold coul_raw. cbv zeta. destruct (Rle_bool 0 (VAL (plasma T Z x1 x2 x3))); cbn [fst snd VAL].
    - field.
    - rewrite (ratio_pos 1 rho) by lra. field. lra. }
  destruct (coul_raw rho T (ytot_of A) A Z x1 x2 x3) as [[p e] s]. cbn [fst snd] in V |- *. unfold damp. destruct (damping rho T) as [[g g1] g2]. cbn [VAL]. 
  set (a := VAL (hp _)). set (b := VAL (he _)). clearbody a b.
  replace (3 * (a + VAL p * g - a)) with (VAL p * 3 * g) by ring. rewrite V. ring.
Qed.
(** Refuted: the temperature slope kept with the entropy correction is its derivative (eos_helmholtz.hpp:1438 multiplies by the coupling where the
    derivative divides by it). It is wrong at every coupling but one. *)
Theorem C71_coulomb_entropy_slope_refuted : forall rho T A Z, moderate rho T A Z -> coupling rho T A Z <> 1 ->
  ~ is_derive (fun t => VAL (raw_s rho t A Z)) T (DDT (raw_s rho T A Z)).
Proof.
  intros rho T A Z M NE D. pose proof tiny_pos as TP. pose proof KBNA_pos as KP. assert (D2 := s_T _ _ _ _ M). destruct (raw_eq _ _ _ _ M) as (_ & _ & _ & K). rewrite K in D.
  destruct M as (M1 & M2 & M3 & M4 & M5 & M6 & M7). set (G := coupling rho T A Z) in *. assert (X := root_ge _ M7). set (x := sqrt (sqrt G)) in *.
  set (w := 75 / 100 * cb1 * x + 125 / 100 * (cc1 / x) + cd1) in *.
  assert (W : 0 < w).
  { unfold w, cb1, cc1, cd1. apply (Rmult_lt_reg_r x); [lra|]. rewrite Rmult_0_l. replace ((75 / 100 * (96786 / 100000) * x + 125 / 100 * (220703 / 1000000 / x) + - (86097 / 100000)) * x)
      with (75 / 100 * (96786 / 100000) * (x * x) + 125 / 100 * (220703 / 1000000) - 86097 / 100000 * x) by (field; lra).
    assert (0 <= Rsqr (x - 6 / 10)) by apply Rle_0_sqr. unfold Rsqr in *. nra. }
  assert (Q : - (KBNA / A) * G * w * - (G / T) = KBNA / A / T * w) by (rewrite <- (is_derive_unique _ _ _ D); apply is_derive_unique; exact D2).
  assert (C : 0 < KBNA / A / T * w) by (apply Rmult_lt_0_compat; [apply Rdiv_lt_0_compat; [apply Rdiv_lt_0_compat; lra|lra]|exact W]).
  replace (- (KBNA / A) * G * w * - (G / T)) with (G * G * (KBNA / A / T * w)) in Q by (field; split; lra).
  assert (GG : G * G = 1) by (apply (Rmult_eq_reg_r (KBNA / A / T * w)); lra). apply NE. nra.
Qed.
(** Hydrogen at 1 g/cc and 1e8 K, weakly coupled *)
Example C69_coulomb_nonvacuous : moderate 1 (10 ^ 8) 1 1 /\ coupling 1 (10 ^ 8) 1 1 <> 1.
Proof.
  pose proof tiny_pos as T0. pose proof tiny_lt_1 as T1. pose proof big_tiny as B.
  assert (S1 : 1 <= 4 / 3 * PI * (NA * 1 / 1)) by (pose proof PI2_3_2 as P32; unfold PI2 in P32; unfold NA; lra).
  assert (S2 : 4 / 3 * PI * (NA * 1 / 1) <= 10 ^ 27) by (pose proof PI_4; unfold NA; lra).
  set (s := 4 / 3 * PI * (NA * 1 / 1)) in *.
  assert (C1 : 1 <= Rpower s (1 / 3)). { apply Rle_trans with (Rpower s 0); [rewrite Rpower_O; lra|apply Rle_Rpower; lra]. }
  assert (C2 : Rpower s (1 / 3) <= 10 ^ 9).
  { apply Rle_trans with (Rpower (10 ^ 27) (1 / 3)); [apply Rle_Rpower_l; lra|]. replace (10 ^ 27) with (Rpower 10 (INR 27)) by (apply Rpower_pow; lra). rewrite Rpower_mult.
    replace (INR 27 * (1 / 3)) with (INR 9) by (simpl; field). rewrite Rpower_pow by lra. lra. }
  assert (CE : coupling 1 (10 ^ 8) 1 1 = (ELECTRON_CHARGE_ESU * 1) ^ 2 / (KB * 10 ^ 8) * Rpower s (1 / 3)) by (unfold coupling; fold s; unfold Rdiv; ring).
  assert (K1 : / 10 ^ 12 <= (ELECTRON_CHARGE_ESU * 1) ^ 2 / (KB * 10 ^ 8) <= / 10 ^ 10).
  { unfold ELECTRON_CHARGE_ESU, KB. split; [apply le_div|apply div_le]; lra. }
  assert (BB : / 10 ^ 60 <= / 10 ^ 12) by (apply Rinv_le; lra).
  set (k := (ELECTRON_CHARGE_ESU * 1) ^ 2 / (KB * 10 ^ 8)) in *. set (c := Rpower s (1 / 3)) in *. clearbody k c.
  assert (L : k <= k * c) by nra. assert (U : k * c <= / 10). { apply Rle_trans with (/ 10 ^ 10 * 10 ^ 9); [apply Rmult_le_compat; lra|lra]. }
  split.
  - unfold moderate. rewrite CE. repeat split; try lra.
  - rewrite CE. lra.
Qed.
Print Assumptions C69_coulomb_slopes_partial.
Print Assumptions C69_coulomb_entropy_partial.
Print Assumptions C69_coulomb_virial.
Print Assumptions C71_coulomb_entropy_slope_refuted.
