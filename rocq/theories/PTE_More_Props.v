(** C36 (density clause of the RhoT step) and C61: corners of the PTE systems where what is promised does not hold *)
From Coq Require Import ZArith Reals Bool List Lia Lra.
From Flocq Require Import Core.
From Verif Require Import Arith Robust_Model Robust_Proofs Thermo_Spec Thermo_Tools PTE_Driver_Model PTE_Driver_Props PTE_Model PTE_Tools PTE_Base_Props PTE_Init PTE_Tools2 PTE_Witness PTE_Calm PTE_RhoT_Props PTE_RhoU_Props.
Import ListNotations.
Local Open Scope R_scope.

Section RhoT.
Variable n : nat.
Variable eos : nat -> meos.
Variable params : MixParams RArith.

(** when no material is already over its bound the second loop sees every material with its own entry of dx *)
Lemma scale2_fold s das Tnew : (forall m, (m < n)%nat -> vfrac s m <= rt_alpha_max eos s Tnew m) -> forall sc0,
  fst (rt_scale2 n eos s das Tnew sc0) =
  fold_left (fun sc m => let d := if (m =? ms s)%nat then das else dx s (run_idx (ms s) m) in
     if Rlt_bool (1 / 2 * (rt_alpha_max eos s Tnew m - vfrac s m)) (sc * d)
     then Rmin (ratio (1 / 2 * (rt_alpha_max eos s Tnew m - vfrac s m)) d) sc else sc) (seq 0 n) sc0.
Proof.
  intros H sc0. unfold rt_scale2.
  set (stepk := fun (sc : R) (_ m : nat) => if Rlt_bool (1 / 2 * (rt_alpha_max eos s Tnew m - vfrac s m)) (sc * das) then Rmin (ratio (1 / 2 * (rt_alpha_max eos s Tnew m - vfrac s m)) das) sc else sc).
  set (step := fun (sc : R) (i m : nat) => if Rlt_bool (1 / 2 * (rt_alpha_max eos s Tnew m - vfrac s m)) (sc * dx s i) then Rmin (ratio (1 / 2 * (rt_alpha_max eos s Tnew m - vfrac s m)) (dx s i)) sc else sc).
  match goal with |- fst (fold_left ?f _ _) = _ => assert (forall l x, (forall m, In m l -> (m < n)%nat) -> fold_left f l x = fold_left (fun '(b, i) m => if (m =? ms s)%nat then (stepk b i m, i) else (step b i m, S i)) l x) as HH end.
  { induction l as [|a l IH]; intros [sc i] Hl; [reflexivity|]. cbn [fold_left].
    cbv zeta. rewrite (Rlt_bool_false (rt_alpha_max eos s Tnew a) (vfrac s a)) by (apply H, Hl; left; reflexivity).
    destruct (Nat.eqb_spec a (ms s)); apply IH; intros m Hm; apply Hl; right; exact Hm. }
  rewrite HH by (intros m Hm; apply in_seq in Hm; lia). rewrite skip_fold. cbn [fst]. generalize (seq 0 n) as l.
  intros l. revert sc0. induction l as [|a l IH]; intros x; [reflexivity|]. cbn [fold_left]. rewrite IH. f_equal.
  destruct (a =? ms s)%nat; reflexivity.
Qed.
Lemma scale2_ok s das Tnew sc0 : 0 <= sc0 -> (forall m, (m < n)%nat -> vfrac s m <= rt_alpha_max eos s Tnew m) ->
  let sc := fst (rt_scale2 n eos s das Tnew sc0) in 0 <= sc <= sc0 /\
  forall m, (m < n)%nat -> sc * (if (m =? ms s)%nat then das else dx s (didx (ms s) m)) <= rt_alpha_max eos s Tnew m - vfrac s m.
Proof.
  intros H0 H. cbv zeta. rewrite scale2_fold by exact H. 
  apply (fold_scale (fun m sc => sc * (if (m =? ms s)%nat then das else dx s (didx (ms s) m)) <= rt_alpha_max eos s Tnew m - vfrac s m)); [| |exact H0].
  - intros m sc Hm Hs. cbv zeta. pose proof (H m Hm) as Hb.
    assert ((if (m =? ms s)%nat then das else dx s (run_idx (ms s) m)) = (if (m =? ms s)%nat then das else dx s (didx (ms s) m))) as ->
      by (destruct (Nat.eqb_spec m (ms s)); [reflexivity|rewrite run_idx_at by assumption; reflexivity]).
    set (d := if (m =? ms s)%nat then _ else _). clearbody d. set (a := rt_alpha_max eos s Tnew m) in *. clearbody a.
    case Rlt_bool_spec; intros Hc; [|split; lra].
    destruct (clip_high (1 / 2 * (a - vfrac s m)) d sc ltac:(lra) Hs Hc) as [[A B] C]. rewrite Rmin_left by lra. split; [lra|lra].
  - intros m sc sc' Hm HP Hs. set (d := if (m =? ms s)%nat then _ else _) in *. clearbody d. pose proof (H m Hm).
    destruct (Rle_lt_dec d 0); [assert (0 <= sc' * - d) by (apply Rmult_le_pos; lra); lra|]. nra.
Qed.

(** As long as no material already sits below the minimum-pressure density, the scaled step keeps every volume
    fraction at or below the value at which the material reaches that density, both at the old temperature and at the
    trial temperature the bound was taken at, all the way along the step. *)
Theorem C36_RhoT_density_admissible : forall s s' sc, (ms s < n)%nat -> 0 <= vfrac_safety_fac params < 1 ->
  (forall m, (m < n)%nat -> 0 < vfrac s m) -> 0 < Teq s ->
  (forall m q, (m < n)%nat -> 0 <= q <= 1 -> vfrac s m <= rt_alpha_max eos s (Teq s + q * dx s 0%nat) m) ->
  rt_ScaleDx n eos params s = (s', sc) ->
  exists q, sc <= q <= 1 /\ forall m t, (m < n)%nat -> 0 <= t <= 1 ->
    vfrac s m + t * dalpha n s' m <= rt_alpha_max eos s (Teq s + q * dx s 0%nat) m.
Proof.
  intros s s' sc Hms Hf Hv HT Hb E. unfold rt_ScaleDx in E.
  set (das := - sum_neumaier (dx s) (n - 1) 1 None idop) in E.
  destruct (scale1_ok n params s das ltac:(lra) Hv) as [A1 A2]. set (sc1 := fst (rt_scale1 n params s das)) in *. clearbody sc1.
  destruct (scale2_ok s das (Teq s + sc1 * dx s 0%nat) sc1 ltac:(lra) (fun m Hm => Hb m sc1 Hm A1)) as [B1 B2].
  set (sc2 := fst (rt_scale2 n eos s das (Teq s + sc1 * dx s 0%nat) sc1)) in *. clearbody sc2.
  set (sc3 := if Rlt_bool _ _ then _ else sc2) in E.
  assert (0 <= sc3 <= sc2) as C1.
  { unfold sc3. case Rlt_bool_spec; intros Hc; [|split; lra].
    destruct (clip_low (95 / 100) (Teq s) (dx s 0%nat) sc2 ltac:(lra) HT ltac:(lra) Hc) as [[A B] C].
    rewrite Rmin_right by lra. lra. }
  clearbody sc3. inversion E; subst s' sc; clear E. exists sc1. split; [lra|].
  assert (forall i, (i < n)%nat -> dx (set_dx (map_n (rt_neq n) (fun i => dx s i * sc3) (dx s)) s) i = dx s i * sc3) as HD.
  { intros i Hi. cbn. apply map_n_lt. exact Hi. }
  intros m t Hm Ht. pose proof (B2 m Hm) as B2m. pose proof (Hb m sc1 Hm A1) as Hbm.
  assert (dalpha n (set_dx (map_n (rt_neq n) (fun i => dx s i * sc3) (dx s)) s) m = sc3 * (if (m =? ms s)%nat then das else dx s (didx (ms s) m))) as ->.
  { unfold dalpha. cbn [ms set_dx]. destruct (Nat.eqb_spec m (ms s)) as [Em|Em].
    - unfold das. rewrite sum_neumaier_none. unfold idop.
      replace (sc3 * - rsum (n - 1) (fun k => dx s (k + 1)%nat)) with (- rsum (n - 1) (fun k => sc3 * dx s (k + 1)%nat)) by (rewrite rsum_scal; ring).
      f_equal. apply rsum_ext. intros k Hk. rewrite HD by lia. replace (k + 1)%nat with (S k) by lia. ring.
    - rewrite HD by (apply didx_lt; assumption). ring. }
  set (d := if (m =? ms s)%nat then _ else _) in *. clearbody d. set (a := rt_alpha_max _ _ _ _) in *. clearbody a.
  destruct (Rle_lt_dec d 0).
  - assert (0 <= t * (sc3 * - d)) by (apply Rmult_le_pos; [lra|apply Rmult_le_pos; lra]). lra.
  - assert (t * (sc3 * d) <= sc2 * d); [|lra]. rewrite <- Rmult_assoc. apply Rmult_le_compat_r; [lra|]. nra.
Qed.
End RhoT.

(** the same in terms of densities: if every material is at or above the minimum-pressure density of its EOS along the
    step's temperatures, it still is after any fraction t of the scaled step, at the old and at the trial temperature *)
Theorem C36_RhoT_density_above_minimum : forall n eos (params : MixParams RArith) s s' sc, (ms s < n)%nat -> 0 <= vfrac_safety_fac params < 1 ->
  0 < Teq s ->
  (forall m, (m < n)%nat -> 0 < vfrac s m <= 1) ->
  (forall m q, (m < n)%nat -> 0 <= q <= 1 ->
     tiny <= RhoPmin (eos m) (Tnorm s * (Teq s + q * dx s 0%nat)) /\
     RhoPmin (eos m) (Tnorm s * (Teq s + q * dx s 0%nat)) * vfrac s m <= rhobar s m) ->
  rt_ScaleDx n eos params s = (s', sc) ->
  exists q, sc <= q <= 1 /\ forall m t, (m < n)%nat -> 0 <= t <= 1 ->
    let v := vfrac s m + t * dalpha n s' m in
    0 < v <= 1 /\ RhoPmin (eos m) (Tnorm s * Teq s) * v <= rhobar s m /\
    RhoPmin (eos m) (Tnorm s * (Teq s + q * dx s 0%nat)) * v <= rhobar s m.
Proof.
  intros n eos params s s' sc Hms Hf HT Hv Hb E. pose proof tiny_pos as TP.
  assert (forall m q, (m < n)%nat -> 0 <= q <= 1 -> exists r, rt_alpha_max eos s (Teq s + q * dx s 0%nat) m = Rmin 1 (rhobar s m / r) /\
    tiny <= r /\ RhoPmin (eos m) (Tnorm s * Teq s) <= r /\ RhoPmin (eos m) (Tnorm s * (Teq s + q * dx s 0%nat)) <= r /\ r * vfrac s m <= rhobar s m) as HR.
  { intros m q Hm Hq. unfold rt_alpha_max. set (r := Rmax _ _). exists r.
    assert (r = RhoPmin (eos m) (Tnorm s * (Teq s + 0 * dx s 0%nat)) \/ r = RhoPmin (eos m) (Tnorm s * (Teq s + q * dx s 0%nat))) as Hr.
    { replace (Tnorm s * (Teq s + 0 * dx s 0%nat)) with (Tnorm s * Teq s) by ring. unfold r, Rmax. destruct (Rle_dec _ _); auto. }
    assert (tiny <= r /\ r * vfrac s m <= rhobar s m) as [H1 H2].
    { destruct Hr as [-> | ->]; apply Hb; try assumption; lra. }
    split; [rewrite ratio_abs by (rewrite Rabs_right; lra); reflexivity|].
    split; [exact H1|]. split; [apply Rmax_l|]. split; [apply Rmax_r|exact H2]. }
  destruct (C36_RhoT_density_admissible n eos params s s' sc Hms Hf (fun m Hm => proj1 (Hv m Hm)) HT) as (q & Hq & H); [|exact E|].
  { intros m q Hm Hq. destruct (HR m q Hm Hq) as (r & -> & H1 & _ & _ & H2). apply Rmin_glb; [apply Hv; exact Hm|].
    apply Rmult_le_reg_r with r; [lra|]. unfold Rdiv. rewrite Rmult_assoc, Rinv_l by lra. lra. }
  destruct (C36_RhoT_scaled_step_admissible n eos params s s' sc Hms Hf (fun m Hm => proj1 (Hv m Hm)) HT E) as (Hs & Hp & _).
  exists q. split; [lra|]. intros m t Hm Ht v.
  assert (0 < v) as Hv0 by (apply convex_pos; [apply Hv; exact Hm|apply Hp; exact Hm|exact Ht]).
  pose proof (H m t Hm Ht) as HB. fold v in HB. destruct (HR m q Hm ltac:(lra)) as (r & Er & H1 & H2 & H3 & _).
  rewrite Er in HB. pose proof (Rmin_l 1 (rhobar s m / r)). pose proof (Rmin_r 1 (rhobar s m / r)).
  assert (r * v <= rhobar s m) as Hrv.
  { apply Rle_trans with (r * (rhobar s m / r)); [apply Rmult_le_compat_l; lra|]. right. field. lra. }
  split; [lra|]. split; (apply Rle_trans with (r * v); [apply Rmult_le_compat_r; lra|exact Hrv]).
Qed.

(** ** C61 *)
(** one state, given its solver fields *)
Definition xst (vf rb dxv : nat -> R) : pst := set_ms 2 (set_Teq 1 (set_Tnorm 1 (set_dx dxv (set_rhobar rb (set_vfrac vf (wst 3)))))).
(** a material whose density must stay above r *)
Definition xmat (r : R) : meos := {|
  RhoPmin := fun _ => r; MaximumDensity := 10 ^ 100; MinimumTemperature := 0; MinimumPressure := 0;
  MaximumPressureAtTemperature := fun _ => 10 ^ 100;
  e_rt := fun _ T => T; p_rt := fun rh T => rh * T; p_re := fun rh e => rh * e; t_re := fun _ e => e;
  cv_rt := fun _ _ => 1; cv_re := fun _ _ => 1; de_pt := fun P T _ _ => (P / T, T);
  pref_e := false; pref_p := false |}.
Definition x3 (a b c : R) (m : nat) : R := match m with O => a | S O => b | _ => c end.

Lemma ratio_div a b : 1 / 1000 <= Rabs b -> ratio a b = a / b.
Proof. intros H. apply ratio_abs. pose proof tiny_e14. lra. Qed.

(** PTESolverRhoT::ScaleDx, three materials at volume fraction 1/3; material 0 is already thinner than its
    minimum-pressure density, so the second loop skips it without advancing the index, and material 1's bound is tested
    against material 0's step. Material 1 is allowed to reach volume fraction 1/2 and is sent to 1/3 + 3/10. *)
Theorem C61_RhoT_density_skip_refuted : exists n eos s s' sc m, (m < n)%nat /\ (ms s < n)%nat /\ 0 < Teq s /\
  (forall m, (m < n)%nat -> 0 < vfrac s m) /\ rsum n (vfrac s) = 1 /\ rt_ScaleDx n eos wpar s = (s', sc) /\
  (forall T, vfrac s m * RhoPmin (eos m) T < rhobar s m) /\
  (forall T, rhobar s m < (vfrac s m + dalpha n s' m) * RhoPmin (eos m) T).
Proof.
  exists 3%nat, (fun m => xmat (x3 4 2 1 m)).
  set (s := xst (fun _ => 1 / 3) (fun _ => 1) (x3 0 (- (3 / 10)) (3 / 10))).
  exists s. destruct (rt_ScaleDx 3 (fun m => xmat (x3 4 2 1 m)) wpar s) as [s' sc] eqn:E. exists s', sc, 1%nat.
  split; [lia|]. split; [cbn; lia|]. split; [cbn; lra|]. split; [intros m _; cbn; lra|]. split; [cbn; lra|]. split; [reflexivity|].
  split; [intros T; cbn; lra|].
  unfold rt_ScaleDx in E. cbv zeta in E.
  assert (- sum_neumaier (dx s) (3 - 1) 1 None idop = 0) as Ed.
  { rewrite sum_neumaier_none. unfold idop. cbn. lra. }
  rewrite Ed in E.
  assert (fst (rt_scale1 3 wpar s 0) = 1) as E1.
  { rewrite scale1_fold. cbn. repeat (match goal with |- context [Rlt_bool (1 * ?a) ?b] => rewrite (Rlt_bool_false (1 * a) b) by lra end). reflexivity. }
  rewrite E1 in E.
  assert (forall T m, rt_alpha_max (fun m => xmat (x3 4 2 1 m)) s T m = Rmin 1 (1 / x3 4 2 1 m)) as EA.
  { intros T m. unfold rt_alpha_max. cbn [RhoPmin xmat s rhobar]. rewrite Rmax_left by lra. cbn. rewrite ratio_div; [reflexivity|].
    destruct m as [|[|m]]; cbn; rewrite Rabs_right; lra. }
  assert (fst (rt_scale2 3 (fun m => xmat (x3 4 2 1 m)) s 0 (Teq s + 1 * dx s 0%nat) 1) = 1) as E2.
  { unfold rt_scale2. cbv zeta. cbn [seq fold_left].
    rewrite (EA _ 0%nat). cbn [x3]. rewrite (Rmin_right 1 (1 / 4)) by lra. change (vfrac s 0%nat) with (1 / 3). rewrite (Rlt_bool_true (1 / 4) (1 / 3)) by lra.
    rewrite (EA _ 1%nat). cbn [x3]. rewrite (Rmin_right 1 (1 / 2)) by lra. change (vfrac s 1%nat) with (1 / 3). rewrite (Rlt_bool_false (1 / 2) (1 / 3)) by lra.
    change (1 =? ms s)%nat with false. cbv iota. change (dx s 1%nat) with (- (3 / 10)).
    rewrite (Rlt_bool_false (1 / 2 * (1 / 2 - 1 / 3)) (1 * - (3 / 10))) by lra.
    rewrite (EA _ 2%nat). cbn [x3]. rewrite (Rmin_right 1 (1 / 1)) by lra. change (vfrac s 2%nat) with (1 / 3). rewrite (Rlt_bool_false (1 / 1) (1 / 3)) by lra.
    change (2 =? ms s)%nat with true. cbv iota.
    rewrite (Rlt_bool_false (1 / 2 * (1 / 1 - 1 / 3)) (1 * 0)) by lra. reflexivity. }
  rewrite E2 in E. rewrite Rlt_bool_false in E by (cbn; lra). inversion E; subst s' sc. clear E.
  intros T. unfold dalpha. cbn. lra.
Qed.

(** The caller of PTESolverRhoT passes the volume fraction the materials share, vfrac_total. After any update of the
    unknowns the solver's volume fractions sum to one instead, whatever vfrac_total is, and nothing later rescales them. *)
Theorem C61_RhoT_ignores_total_volume_refuted : forall n eos vfrac_total sie_total (params : MixParams RArith) lin,
  let sys := RhoT_system n eos vfrac_total sie_total params lin in
  forall t c s s' e, (ms s < n)%nat -> sTestUpdate sys t c s = (s', e) ->
  rsum n (vfrac (sFinalize sys (sFixup sys s'))) = 1.
Proof.
  intros n eos vfrac_total sie_total params lin sys t c s s' e Hms E. unfold sys in *. cbn [sTestUpdate sFinalize sFixup RhoT_system] in *.
  assert (rsum n (vfrac s') = 1) as H.
  { unfold rt_TestUpdate in E. cbv zeta in E. set (sc := if c then _ else s) in E.
    assert (ms sc = ms s) as Em by (unfold sc; destruct c; reflexivity). clearbody sc.
    match type of E with (?x, _) = _ => set (sR := x) in E end. assert (s' = sR) as -> by (inversion E; reflexivity). clear E.
    change (vfrac sR) with (upd (gather (ms sc) n (fun m idx => vtmp sc m + t * dx sc idx) (vfrac sc)) (ms sc)
      (1 - sum_neumaier (gather (ms sc) n (fun m idx => vtmp sc m + t * dx sc idx) (vfrac sc)) n 0 (Some (ms sc)) idop)).
    set (vf := gather _ _ _ _). rewrite sum_neumaier_skip. clearbody vf. rewrite Em.
    rewrite (rsum_split n _ (ms s) Hms), upd_same.
    rewrite (rsum_ext n (fun m => if (m =? ms s)%nat then 0 else upd vf (ms s) _ m) (fun m => if (m =? ms s)%nat then 0 else vf m)).
    - ring.
    - intros m _. destruct (Nat.eqb_spec m (ms s)) as [|Hne]; [reflexivity|]. rewrite upd_other by exact Hne. reflexivity. }
  rewrite <- H. unfold rt_Fixup. destruct (pte_reduced_system_exclude_idx params); reflexivity.
Qed.

(** PTESolverPT::ScaleDx: the bound that keeps the pressure below the maximum pressure of every material divides by the
    temperature step instead of the pressure step. Here the state is at half the maximum pressure and the scaled step
    takes it to three times that maximum. *)
Theorem C61_PT_maximum_pressure_refuted : exists n eos s s' sc, pt_ScaleDx n eos s = (s', sc) /\ 0 < Teq s /\
  (forall m T, (m < n)%nat -> MinimumPressure (eos m) < Peq s * uscale s < MaximumPressureAtTemperature (eos m) T) /\
  (forall m T, (m < n)%nat -> 3 * MaximumPressureAtTemperature (eos m) T <= (Peq s + dx s' 1%nat) * uscale s).
Proof.
  set (e := {| RhoPmin := fun _ => 0; MaximumDensity := 10 ^ 100; MinimumTemperature := 0; MinimumPressure := - (100);
    MaximumPressureAtTemperature := fun _ => 2;
    e_rt := fun _ T => T; p_rt := fun rh T => rh * T; p_re := fun rh e => rh * e; t_re := fun _ e => e;
    cv_rt := fun _ _ => 1; cv_re := fun _ _ => 1; de_pt := fun P T _ _ => (P / T, T); pref_e := false; pref_p := false |}).
  set (s := set_uscale 1 (set_Peq 1 (set_Teq 1 (set_dx (fun i => match i with O => 1 / 10 | _ => 5 end) (wst 1))))).
  exists 1%nat, (fun _ => e), s. destruct (pt_ScaleDx 1 (fun _ => e) s) as [s' sc] eqn:E. exists s', sc.
  split; [reflexivity|]. split; [cbn; lra|]. split; [intros m T _; cbn; lra|]. intros m T _. cbn [MaximumPressureAtTemperature e].
  unfold pt_ScaleDx in E. cbn [seq fold_left] in E. unfold pt_bounded in E. change (dx s 0%nat) with (1 / 10) in E. change (dx s 1%nat) with 5 in E.
  change (Teq s) with 1 in E. change (Peq s) with 1 in E. change (uscale s) with 1 in E. cbn [MinimumPressure MaximumPressureAtTemperature e] in E.
  rewrite (Rlt_bool_false (1 * (1 / 10)) (- (95 / 100) * 1)) in E by lra. rewrite Rabs_R1 in E.
  assert (forall x, ratio x 1 = x) as E1 by (intros x; rewrite ratio_div by (rewrite Rabs_R1; lra); field). rewrite !E1 in E.
  rewrite (ratio_div (- (100) - 1) 5) in E by (rewrite Rabs_right; lra). rewrite (ratio_div (2 - 1) (1 / 10)) in E by (rewrite Rabs_right; lra).
  rewrite (Rmin_left 1 (Rabs (95 / 100 * ((- (100) - 1) / 5)))) in E by (rewrite Rabs_left; lra). rewrite Rabs_R1 in E.
  rewrite (Rmin_left 1 (Rabs (95 / 100 * ((2 - 1) / (1 / 10))))) in E by (rewrite Rabs_right; lra).
  inversion E; subst s' sc. cbn. unfold map_n. cbn. lra.
Qed.

(** PTESolverFixedP::CheckPTE compares the dimensional pressure error with the relative tolerance: at a target pressure
    of 1e-7 every material may be off by 100% although the relative tolerance is 1e-6 and the absolute one 0. *)
Theorem C61_FixedP_relative_tolerance_refuted : exists n (params : MixParams RArith) s,
  uscale s = Rmax (Rabs (Peq s)) (1 / 100000000000000) /\ 0 < Peq s /\ pte_rel_tolerance_p params = 1 / 1000000 /\ pte_abs_tolerance_p params = 0 /\
  fst (fp_CheckPTE n params (fp_Residual n 1 s)) = true /\
  (forall m, (m < n)%nat -> Rabs (press s m * uscale s - Peq s) = Peq s).
Proof.
  set (par := @mkMixParams RArith (false) (true) (3 / 1000000) (1 / 1000000) (1 / 10000) (1 / 1000000) (1 / 1000000) (0) (0) (99 / 100) (1 / 1000000) (1 / 1000) (1 / 10000) (1 / 10000) (0) (0) (128)%nat (1 / 100) (6)%nat (1 / 2) (95 / 100) (10 ^ 15) (300) (0) (2)%nat (0) (- (1)) (None)).
  exists 1%nat, par, (set_uscale (1 / 10000000) (set_Peq (1 / 10000000) (set_vfrac (fun _ => 1) (wst 1)))).
  cbn [uscale Peq set_uscale set_Peq set_vfrac press wst]. split; [rewrite Rabs_right by lra; rewrite Rmax_left; lra|].
  split; [lra|]. split; [reflexivity|]. split; [reflexivity|]. split.
  - unfold fp_CheckPTE, fp_Residual. cbn [fst rsum]. cbn [res uscale set_res set_uscale set_Peq set_vfrac]. rewrite sum_neumaier_id. cbn.
    rewrite ratio_abs by (rewrite Rabs_right by lra; pose proof tiny_e14; lra).
    match goal with |- context [sqrt ?x] => replace x with 1 by field end. rewrite sqrt_1.
    rewrite (Rlt_bool_true (1 * (1 / 10000000)) (1 / 1000000)) by lra.
    rewrite (Rlt_bool_true (Rabs (1 - (0 + 1)))) by (replace (1 - (0 + 1)) with 0 by ring; rewrite Rabs_R0; lra). reflexivity.
  - intros m _. rewrite Rmult_0_l, Rminus_0_l, Rabs_Ropp, Rabs_right by lra. reflexivity.
Qed.

Definition x4 (a b c d : R) (m : nat) : R := match m with O => a | S O => b | S (S O) => c | _ => d end.
Lemma x4_ext (f : nat -> R) a b c d : f 0%nat = a -> f 1%nat = b -> f 2%nat = c -> f 3%nat = d -> forall m, (m < 4)%nat -> f m = x4 a b c d m.
Proof. intros A B C D m Hm. destruct m as [|[|[|[|m]]]]; cbn; [exact A|exact B|exact C|exact D|lia]. Qed.
Lemma sweeps_ext n fuel vmax : forall v1 v2, (forall m, (m < n)%nat -> v1 m = v2 m) -> forall m, (m < n)%nat -> sweeps n fuel vmax v1 m = sweeps n fuel vmax v2 m.
Proof.
  induction fuel as [|f IH]; intros v1 v2 H m Hm; cbn [sweeps]; [apply H; exact Hm|].
  assert (forall k, (k < n)%nat -> sweep_dv vmax v1 k = sweep_dv vmax v2 k) as HD by (intros k Hk; unfold sweep_dv; rewrite H by exact Hk; reflexivity).
  rewrite (rsum_ext n (sweep_dv vmax v1) (sweep_dv vmax v2) HD).
  assert (n_capped n vmax v1 = n_capped n vmax v2) as EC.
  { unfold n_capped. f_equal. assert (forall l, (forall k, In k l -> (k < n)%nat) -> filter (fun m => Rlt_bool min_dv (sweep_dv vmax v1 m)) l = filter (fun m => Rlt_bool min_dv (sweep_dv vmax v2 m)) l) as HF.
    { induction l as [|a l IHl]; intros Hl; [reflexivity|]. cbn [filter]. rewrite HD by (apply Hl; left; reflexivity). rewrite IHl by (intros k Hk; apply Hl; right; exact Hk). reflexivity. }
    apply HF. intros k Hk. apply in_seq in Hk. lia. }
  rewrite EC. set (b := Rlt_bool _ _). destruct b.
  - rewrite !mapm_lt by exact Hm. rewrite H, HD by exact Hm. reflexivity.
  - apply IH; [|exact Hm]. intros k Hk. rewrite !mapm_lt by exact Hk. rewrite H, HD by exact Hk. reflexivity.
Qed.
(** one sweep over four materials *)
Ltac dsum := cbn [rsum x4]; unfold sweep_dv; cbn [x4].
Lemma sweep4 f vmax a b c d : let vf := x4 a b c d in
  min_dv <= Rabs (rsum 4 (sweep_dv vmax vf)) ->
  forall m, (m < 4)%nat -> sweeps 4 (S f) vmax vf m =
    sweeps 4 f vmax (fun m => let v1 := vf m - sweep_dv vmax vf m in
      if Rlt_bool min_dv (vmax m - v1) then v1 + ratio (rsum 4 (sweep_dv vmax vf)) (INR (4 - n_capped 4 vmax vf)) else v1) m.
Proof.
  intros vf H m Hm. cbn [sweeps]. rewrite Rlt_bool_false by exact H. apply sweeps_ext; [|exact Hm].
  intros k Hk. rewrite !mapm_lt by exact Hk. reflexivity.
Qed.

(** SetVfracFromT reports success although the volume it took from the materials that were too thin is not all handed
    back, and the final renormalisation thins them again: material 0 ends below the minimum-pressure density. *)
Theorem C61_vfrac_from_T_refuted : exists n eos T rb vf vf' m, (m < n)%nat /\
  rsum n vf = 1 /\ (forall m, (m < n)%nat -> 0 < vf m /\ 0 < rb m) /\
  SetVfracFromT n eos 1 T rb vf = (vf', false) /\ 0 < vf' m /\ rb m / vf' m < RhoPmin (eos m) T.
Proof.
  set (vf := x4 (7 / 10) (1 / 10) (1 / 10) (1 / 10)). set (rb := x4 (1 / 10) (15 / 100) (15 / 100) 1).
  set (eos := fun _ : nat => xmat (9 / 10)).
  assert (forall m, vfrac_max eos 1 rb m = rb m) as EM.
  { intros m. unfold vfrac_max, safety. cbn [eos RhoPmin xmat]. rewrite ratio_div by (rewrite Rabs_right; lra).
    replace (9 / 10 * (rb m / (9 / 10))) with (rb m) by field. apply Rmin_left. unfold rb. destruct m as [|[|[|m]]]; cbn; lra. }
  assert (forall m, (m < 4)%nat -> sweeps 4 4 rb vf m = x4 (1 / 10) (15 / 100) (15 / 100) (45 / 100) m) as ES.
  { intros m Hm. unfold vf.
    assert (forall k, sweep_dv rb (x4 (7 / 10) (1 / 10) (1 / 10) (1 / 10)) k = x4 (6 / 10) 0 0 0 k) as D1.
    { intros k. unfold sweep_dv, rb. destruct k as [|[|[|k]]]; cbn [x4]; [rewrite Rmin_left by lra|rewrite Rmin_right by lra|rewrite Rmin_right by lra|rewrite Rmin_right by lra]; lra. }
    assert (rsum 4 (sweep_dv rb (x4 (7 / 10) (1 / 10) (1 / 10) (1 / 10))) = 6 / 10) as S1 by (cbn [rsum]; rewrite !D1; cbn [x4]; lra).
    rewrite sweep4 by (try (rewrite S1; unfold min_dv; rewrite Rabs_right; lra); exact Hm). rewrite S1.
    assert (n_capped 4 rb (x4 (7 / 10) (1 / 10) (1 / 10) (1 / 10)) = 1%nat) as N1.
    { unfold n_capped. cbn [seq filter]. rewrite !D1. cbn [x4]. unfold min_dv. rewrite Rlt_bool_true, !Rlt_bool_false by lra. reflexivity. }
    rewrite N1. cbn [Nat.sub]. rewrite (ratio_div (6 / 10) (INR 3)) by (cbn; rewrite Rabs_right; lra).
    rewrite (sweeps_ext 4 3 rb _ (x4 (1 / 10) (3 / 10) (3 / 10) (3 / 10))); [|intros k Hk; destruct k as [|[|[|[|k]]]]; [| | | |lia]; cbv zeta; rewrite D1; unfold rb, min_dv; cbn [x4 INR]; (rewrite Rlt_bool_false by lra; lra) || (rewrite Rlt_bool_true by lra; lra)|exact Hm].
    clear D1 S1 N1.
    assert (forall k, sweep_dv rb (x4 (1 / 10) (3 / 10) (3 / 10) (3 / 10)) k = x4 0 (15 / 100) (15 / 100) 0 k) as D1.
    { intros k. unfold sweep_dv, rb. destruct k as [|[|[|k]]]; cbn [x4]; (rewrite Rmin_left by lra; lra) || (rewrite Rmin_right by lra; lra). }
    assert (rsum 4 (sweep_dv rb (x4 (1 / 10) (3 / 10) (3 / 10) (3 / 10))) = 3 / 10) as S1 by (cbn [rsum]; rewrite !D1; cbn [x4]; lra).
    rewrite sweep4 by (try (rewrite S1; unfold min_dv; rewrite Rabs_right; lra); exact Hm). rewrite S1.
    assert (n_capped 4 rb (x4 (1 / 10) (3 / 10) (3 / 10) (3 / 10)) = 2%nat) as N1.
    { unfold n_capped. cbn [seq filter]. rewrite !D1. cbn [x4]. unfold min_dv.
      rewrite (Rlt_bool_true _ (15 / 100)), (Rlt_bool_false _ 0) by lra. reflexivity. }
    rewrite N1. cbn [Nat.sub]. rewrite (ratio_div (3 / 10) (INR 2)) by (cbn; rewrite Rabs_right; lra).
    rewrite (sweeps_ext 4 2 rb _ (x4 (1 / 10) (15 / 100) (15 / 100) (45 / 100))); [|intros k Hk; destruct k as [|[|[|[|k]]]]; [| | | |lia]; cbv zeta; rewrite D1; unfold rb, min_dv; cbn [x4 INR]; (rewrite Rlt_bool_false by lra; lra) || (rewrite Rlt_bool_true by lra; lra)|exact Hm].
    apply sweeps_calm; [|exact Hm]. intros k Hk. unfold rb. destruct k as [|[|[|k]]]; cbn [x4]; lra. }
  exists 4%nat, eos, 1, rb, vf. destruct (SetVfracFromT 4 eos 1 1 rb vf) as [vf' bad] eqn:E. exists vf', 0%nat.
  split; [lia|]. split; [unfold vf; cbn; lra|]. split; [intros m _; unfold vf, rb; destruct m as [|[|[|m]]]; cbn; lra|].
  unfold SetVfracFromT in E. cbv zeta in E.
  rewrite Rlt_bool_false in E by (rewrite (rsum_ext 4 _ rb) by (intros; apply EM); unfold rb; cbn; lra).
  assert (bad = false) as -> by (inversion E; reflexivity). apply (f_equal fst) in E. cbn [fst] in E. split; [reflexivity|].
  match type of E with NormalizeVfrac 4 1 (sweeps 4 4 _ (NormalizeVfrac 4 1 ?v)) = _ => set (v0 := v) in E end.
  assert (forall m, (m < 4)%nat -> v0 m = vf m) as E0.
  { intros m Hm. unfold v0. rewrite mapm_lt by exact Hm. rewrite Rle_bool_false; [reflexivity|]. unfold vf. destruct m as [|[|[|m]]]; cbn; lra. }
  pose proof tiny_e14 as TE. pose proof tiny_pos as TP.
  pose proof (normalize_calm 4 1 v0 ltac:(lra) ltac:(rewrite (rsum_ext 4 v0 vf E0); unfold vf; cbn; lra)) as N0.
  assert (forall m, (m < 4)%nat -> sweeps 4 4 (vfrac_max eos 1 rb) (NormalizeVfrac 4 1 v0) m = x4 (1 / 10) (15 / 100) (15 / 100) (45 / 100) m) as EW.
  { intros m Hm. rewrite <- ES by exact Hm. rewrite (sweeps_ext 4 4 _ _ vf) by (try exact Hm; intros k Hk; rewrite N0, E0 by exact Hk; reflexivity).
    assert (forall fuel v k, sweeps 4 fuel (vfrac_max eos 1 rb) v k = sweeps 4 fuel rb v k) as HX.
    { assert (forall v k, sweep_dv (vfrac_max eos 1 rb) v k = sweep_dv rb v k) as HS by (intros; unfold sweep_dv; rewrite EM; reflexivity).
      induction fuel as [|f IH]; intros v k; [reflexivity|]. cbn [sweeps].
      assert (n_capped 4 (vfrac_max eos 1 rb) v = n_capped 4 rb v) as -> by (unfold n_capped; f_equal; apply filter_ext; intros; rewrite HS; reflexivity).
      rewrite (rsum_ext 4 (sweep_dv (vfrac_max eos 1 rb) v) (sweep_dv rb v)) by (intros; apply HS).
      assert (forall j, mapm 4 (fun m => v m - sweep_dv (vfrac_max eos 1 rb) v m) v j = mapm 4 (fun m => v m - sweep_dv rb v m) v j) as HM by (intros j; unfold mapm, map_n; rewrite HS; reflexivity).
      set (bb := Rlt_bool _ _). destruct bb; [apply HM|]. rewrite IH.
      destruct (Nat.ltb_spec k 4) as [Hk|Hk].
      - apply sweeps_ext; [|exact Hk]. intros j Hj. rewrite !mapm_lt by exact Hj. rewrite EM, !HS. reflexivity.
      - assert (forall g v, sweeps 4 g rb v k = v k) as HO.
        { induction g as [|g IHg]; intros w; [reflexivity|]. cbn [sweeps]. set (b2 := Rlt_bool _ _). destruct b2; [|rewrite IHg]; unfold mapm, map_n; destruct (Nat.ltb_spec k 4); try lia; reflexivity. }
        rewrite !HO. unfold mapm, map_n. destruct (Nat.ltb_spec k 4); [lia|]. reflexivity. }
    apply HX. }
  set (w := sweeps 4 4 (vfrac_max eos 1 rb) (NormalizeVfrac 4 1 v0)) in *. clearbody w.
  assert (vf' 0%nat = 1 / 10 * (1 / (85 / 100))) as EV.
  { rewrite <- E. unfold NormalizeVfrac. rewrite mapm_lt by lia. rewrite sum_neumaier_id. cbn [rsum]. rewrite !EW by lia. cbn [x4].
    rewrite ratio_div by (rewrite Rabs_right; lra). field. }
  rewrite EV. cbn [eos RhoPmin xmat]. unfold rb. cbn [x4]. split; [lra|].
  replace (1 / 10 / (1 / 10 * (1 / (85 / 100)))) with (85 / 100) by field. lra.
Qed.

(** Two ideal gases (EquationOfState that lists pressure among its preferred inputs, eos_ideal.hpp:227-229): InitBase
    takes the caller's pressure array as the materials' pressures. *)
Definition pgas (g : R) : meos := {|
  RhoPmin := fun _ => 0; MaximumDensity := 10 ^ 100; MinimumTemperature := 0; MinimumPressure := 0;
  MaximumPressureAtTemperature := fun _ => 10 ^ 100;
  e_rt := fun _ T => T; p_rt := fun r T => g * r * T; p_re := fun r e => g * r * e; t_re := fun _ e => e;
  cv_rt := fun _ _ => 1; cv_re := fun _ _ => 1; de_pt := fun P T _ _ => (P / (g * T), T);
  pref_e := true; pref_p := true |}.
Definition peos (m : nat) : meos := pgas (match m with O => 2 / 5 | _ => 2 / 3 end).
Lemma pgas_good : good_input 2 peos 1 wpar rst.
Proof.
  pose proof tiny_small_half as T4. pose proof tiny_pos as TP. constructor; cbn [rho vfrac rst]; try lia; try (intros; lra).
  - cbn [rsum]. lra.
  - intros m T _. cbn [peos RhoPmin pgas]. pose proof (ratio_to_0 (1 * (1 / 2)) ltac:(lra)). unfold safety. lra.
  - cbn. lra.
  - cbn. lra.
Qed.
Lemma bad_value_0 : bad_value 0 = false.
Proof. unfold bad_value, violates_condition, is_normal_or_zero. rewrite Req_bool_true by reflexivity. reflexivity. Qed.
Lemma pgas_calm : calm 2 peos 1 300 wpar rst 300.
Proof.
  pose proof tiny_small_half as T4. pose proof tiny_pos as TP.
  constructor; cbn [rho vfrac press rst Tnorm peos RhoPmin pgas MinimumTemperature MaximumDensity cv_rt e_rt pref_p]; try (intros; lra); try reflexivity.
  - exact pgas_good.
  - cbn. lra.
  - intros m _. unfold vfrac_max. cbn [peos RhoPmin pgas]. pose proof (ratio_to_0 (1 * (1 / 2)) ltac:(lra)). unfold safety. apply Rmin_glb; lra.
  - cbn [rsum]. lra.
Qed.
(** PTESolverRhoT with default parameters and a zero-initialised pressure array reports convergence without a step and
    returns zero pressures, although the EOS pressures of the returned densities are 120 and 200. *)
Theorem C61_RhoT_initial_pressure_guess_refuted : exists n eos params s0 sie_total st sf,
  good_input n eos 1 params s0 /\ params = default_params RArith /\
  (forall lin, @PTESolver RArith pst ratio (RhoT_system n eos 1 sie_total params lin) s0 = (st, sf)) /\
  converged st = true /\ slow_convergence_detected st = false /\
  (forall m, (m < n)%nat -> temp sf m = 300 /\ rho sf m = 1 /\ press sf m = 0) /\
  p_rt (eos 0%nat) (rho sf 0%nat) (temp sf 0%nat) = 120 /\ p_rt (eos 1%nat) (rho sf 1%nat) (temp sf 1%nat) = 200.
Proof.
  pose proof (InitBase_calm _ _ _ _ _ _ _ pgas_calm) as HC. pose proof (InitBase_ok 2 peos 1 300 wpar rst pgas_good) as HI.
  cbv zeta in HC. destruct (rt_Init 2 peos 1 300 wpar rst) as [s1 e1] eqn:EI. pose proof EI as EI0.
  assert (exists k, s1 = set_Teq (temp (rt_Residual 2 (set_ms k (InitBase 2 peos 1 300 wpar rst))) 0%nat) (rt_Residual 2 (set_ms k (InitBase 2 peos 1 300 wpar rst))) /\ (k < 2)%nat) as (k & Es & Hk).
  { unfold rt_Init in EI. cbv zeta in EI. apply (f_equal fst) in EI. cbn [fst] in EI. symmetry in EI. eexists. split; [exact EI|].
    cbn [pte_reduced_system_exclude_idx wpar default_params]. apply argmax_lt. lia. }
  clear EI. set (sB := InitBase 2 peos 1 300 wpar rst) in *. clearbody sB. destruct HC as [C1 C2].
  pose proof tiny_small_half as T4. pose proof tiny_pos as TP.
  assert (uscale sB = 300) as EU.
  { rewrite (io_us _ _ _ _ _ _ HI). cbn [rsum rho vfrac rst]. replace ((0 + 1 * (1 / 2) + 1 * (1 / 2)) * 300) with 300 by lra. rewrite Rabs_right by lra. apply Rmax_left. lra. }
  assert (tiny <= Rabs 300) as H300 by (rewrite Rabs_right; lra).
  assert (utot sB = 1) as ET by (rewrite (io_ut _ _ _ _ _ _ HI), EU; cbn [rsum rho vfrac rst]; rewrite ratio_abs by exact H300; field).
  assert (forall m, (m < 2)%nat -> press sB m = 0 /\ u sB m = 1 / 2 /\ temp sB m = 1 /\ rho sB m = 1) as HB.
  { intros m Hm. destruct (C2 m Hm) as [V Rr]. cbn [rho vfrac rst] in V, Rr. split; [|split; [|split; [apply (io_temp _ _ _ _ _ _ HI m Hm)|exact Rr]]].
    - rewrite (io_p _ _ _ _ _ _ HI m Hm), EU. cbn [peos pref_p pgas andb press rst]. rewrite bad_value_0. cbn [negb]. rewrite ratio_abs by exact H300. field.
    - rewrite (io_u _ _ _ _ _ _ HI m Hm), (io_sie _ _ _ _ _ _ HI m Hm), C1, EU. rewrite (so_rb _ _ _ _ (io_shape _ _ _ _ _ _ HI) m Hm). cbn [rho vfrac rst peos e_rt pgas].
      rewrite ratio_abs by exact H300. field. }
  assert (fst (rt_CheckPTE 2 wpar s1) = true) as HK.
  { subst s1. destruct (residual_inv 2 (utot sB) (set_ms k sB) Hk eq_refl) as [R0 R1]. cbn [ms set_ms press] in R1.
    unfold rt_CheckPTE. cbn [fst res set_Teq]. rewrite R0. unfold rt_neq. rewrite sum_neumaier_none. unfold sqop. cbn [Nat.sub rsum Nat.add].
    assert (res (rt_Residual 2 (set_ms k sB)) 1%nat = 0) as R01.
    { destruct k as [|[|k]]; [| |lia].
      - pose proof (R1 1%nat ltac:(lia) ltac:(lia)) as H. cbn [didx Nat.ltb Nat.leb] in H. rewrite H.
        change (press (set_ms 0 sB)) with (press sB). rewrite (proj1 (HB 0%nat ltac:(lia))), (proj1 (HB 1%nat ltac:(lia))). ring.
      - pose proof (R1 0%nat ltac:(lia) ltac:(lia)) as H. cbn [didx Nat.ltb Nat.leb] in H. rewrite H.
        change (press (set_ms 1 sB)) with (press sB). rewrite (proj1 (HB 0%nat ltac:(lia))), (proj1 (HB 1%nat ltac:(lia))). ring. }
    rewrite R01. replace (0 + 0 * 0) with 0 by ring. rewrite sqrt_0. rewrite (Rlt_bool_true 0 (pte_abs_tolerance_p wpar)) by (cbn; lra). rewrite orb_true_r.
    change (u (set_ms k sB)) with (u sB). destruct (HB 0%nat ltac:(lia)) as (_ & U0 & _). destruct (HB 1%nat ltac:(lia)) as (_ & U1 & _). rewrite U0, U1, ET.
    replace (1 - (0 + 1 / 2 + 1 / 2)) with 0 by lra. rewrite Rabs_R0. rewrite Rlt_bool_true by (cbn; lra). reflexivity. }
  set (sf := base_Finalize 2 (rt_Fixup 2 wpar s1)).
  assert (forall m, (m < 2)%nat -> temp sf m = 300 /\ rho sf m = 1 /\ press sf m = 0) as HF.
  { intros m Hm. destruct (HB m Hm) as (P & _ & T & Rr). subst sf s1. cbn. rewrite !mapm_lt by exact Hm. cbn. rewrite P, T, C1, Rr. repeat split; ring. }
  exists 2%nat, peos, wpar, rst, 300, (mkStatus RArith true false 0 0 0 e1), sf.
  split; [exact pgas_good|]. split; [reflexivity|]. split.
  { intros lin. apply (C35_converged_initial_guess_untouched (A := RArith) ratio (RhoT_system 2 peos 1 300 wpar lin) rst s1 e1); [exact EI0|cbn; lia|exact HK]. }
  split; [reflexivity|]. split; [reflexivity|]. split; [exact HF|].
  destruct (HF 0%nat ltac:(lia)) as (A0 & A1 & _). destruct (HF 1%nat ltac:(lia)) as (B0 & B1 & _). rewrite A0, A1, B0, B1. cbn. split; lra.
Qed.
(** the hypotheses of the density theorem are met by a step that would empty material 0: it is shortened *)
Example C36_ex_RhoT_density : let s := set_ms 0 (set_Teq 1 (set_Tnorm 1 (set_dx (x3 0 (3 / 4) 0) (set_rhobar (fun _ => 1 / 2) (set_vfrac (fun _ => 1 / 2) (wst 2)))))) in
  let eos := fun _ : nat => xmat (1 / 2) in
  (forall m q, (m < 2)%nat -> 0 <= q <= 1 ->
     tiny <= RhoPmin (eos m) (Tnorm s * (Teq s + q * dx s 0%nat)) /\ RhoPmin (eos m) (Tnorm s * (Teq s + q * dx s 0%nat)) * vfrac s m <= rhobar s m) /\
  snd (rt_ScaleDx 2 eos wpar s) <= 2 / 3.
Proof.
  cbv zeta. set (s := set_ms 0 _). set (eos := fun _ => _). pose proof tiny_e14.
  assert (forall m q, (m < 2)%nat -> 0 <= q <= 1 ->
     tiny <= RhoPmin (eos m) (Tnorm s * (Teq s + q * dx s 0%nat)) /\ RhoPmin (eos m) (Tnorm s * (Teq s + q * dx s 0%nat)) * vfrac s m <= rhobar s m) as HH by (intros m q _ _; cbn; lra).
  split; [exact HH|]. destruct (rt_ScaleDx 2 eos wpar s) as [s' sc] eqn:E. cbn [snd].
  destruct (C36_RhoT_density_above_minimum 2 eos wpar s s' sc ltac:(cbn; lia) wsafe ltac:(cbn; lra) ltac:(intros m _; cbn; lra) HH E) as (q & _ & HQ).
  destruct (C36_RhoT_scaled_step_admissible 2 eos wpar s s' sc ltac:(cbn; lia) wsafe ltac:(intros m _; cbn; lra) ltac:(cbn; lra) E) as (_ & _ & _ & HD).
  destruct (HQ 1%nat 1 ltac:(lia) ltac:(lra)) as ((_ & H1) & _).
  assert (ms s' = 0%nat) as Em by (unfold rt_ScaleDx in E; inversion E; reflexivity).
  unfold dalpha in H1. rewrite Em in H1. cbn [Nat.eqb didx Nat.ltb Nat.leb] in H1. rewrite (HD 1%nat ltac:(lia)) in H1. cbn in H1. lra.
Qed.
Print Assumptions C36_RhoT_density_admissible.
Print Assumptions C36_RhoT_density_above_minimum.
Print Assumptions C61_RhoT_density_skip_refuted.
Print Assumptions C61_RhoT_ignores_total_volume_refuted.
Print Assumptions C61_PT_maximum_pressure_refuted.
Print Assumptions C61_FixedP_relative_tolerance_refuted.
Print Assumptions C61_vfrac_from_T_refuted.
Print Assumptions C61_RhoT_initial_pressure_guess_refuted.
