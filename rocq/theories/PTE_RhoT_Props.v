(** C34/C36/C37 for PTESolverRhoT, end to end through the driver *)
From Coq Require Import ZArith Reals Bool List Lia Lra.
From Flocq Require Import Core.
From Verif Require Import Arith Robust_Model Robust_Proofs Thermo_Spec Thermo_Tools PTE_Driver_Model PTE_Driver_Props PTE_Model PTE_Tools PTE_Base_Props PTE_Init PTE_Tools2 PTE_Witness.
Import ListNotations.
Local Open Scope R_scope.

Section RhoT.
Variable n : nat.
Variable eos : nat -> meos.
Variable sie_total : R.
Variable params : MixParams RArith.
Variable lin : nat -> (nat -> R) -> (nat -> R) -> (nat -> R).
Notation sys := (RhoT_system n eos 1 sie_total params lin).

(** the step of material m encoded in dx *)
Definition dalpha (s : pst) (m : nat) : R := if (m =? ms s)%nat then - rsum (n - 1) (fun k => dx s (S k)) else dx s (didx (ms s) m).

(** ** ScaleDx *)
Lemma scale1_fold s das : fst (rt_scale1 n params s das) =
  fold_left (fun sc m => let d := if (m =? ms s)%nat then das else dx s (run_idx (ms s) m) in
     if Rlt_bool (sc * d) (- vfrac_safety_fac params * vfrac s m)
     then Rmin sc (Rabs (vfrac_safety_fac params * ratio (vfrac s m) d)) else sc) (seq 0 n) 1.
Proof.
  unfold rt_scale1.
  set (stepk := fun (sc : R) (_ m : nat) => if Rlt_bool (sc * das) (- vfrac_safety_fac params * vfrac s m) then Rmin sc (Rabs (vfrac_safety_fac params * ratio (vfrac s m) das)) else sc).
  set (step := fun (sc : R) (i m : nat) => if Rlt_bool (sc * dx s i) (- vfrac_safety_fac params * vfrac s m) then Rmin sc (Rabs (vfrac_safety_fac params * ratio (vfrac s m) (dx s i))) else sc).
  match goal with |- fst (fold_left ?f _ _) = _ => assert (forall l x, fold_left f l x = fold_left (fun '(b, i) m => if (m =? ms s)%nat then (stepk b i m, i) else (step b i m, S i)) l x) as -> end.
  { induction l as [|a l IH]; intros [sc i]; [reflexivity|]. cbn [fold_left]. destruct (Nat.eqb_spec a (ms s)); apply IH. }
  rewrite skip_fold. cbn [fst]. generalize (seq 0 n) as l. generalize 1 as x.
  intros x l. revert x. induction l as [|a l IH]; intros x; [reflexivity|]. cbn [fold_left]. rewrite IH. f_equal.
  destruct (a =? ms s)%nat; reflexivity.
Qed.
Lemma scale1_ok s das : 0 <= vfrac_safety_fac params -> (forall m, (m < n)%nat -> 0 < vfrac s m) ->
  let sc := fst (rt_scale1 n params s das) in 0 <= sc <= 1 /\
  forall m, (m < n)%nat -> - vfrac_safety_fac params * vfrac s m <= sc * (if (m =? ms s)%nat then das else dx s (didx (ms s) m)).
Proof.
  intros Hf Hv. cbv zeta. rewrite scale1_fold. set (f := vfrac_safety_fac params) in *.
  apply (fold_scale (fun m sc => - f * vfrac s m <= sc * (if (m =? ms s)%nat then das else dx s (didx (ms s) m)))); [| |lra].
  - intros m sc Hm Hs. cbv zeta.
    assert ((if (m =? ms s)%nat then das else dx s (run_idx (ms s) m)) = (if (m =? ms s)%nat then das else dx s (didx (ms s) m))) as ->
      by (destruct (Nat.eqb_spec m (ms s)); [reflexivity|rewrite run_idx_at by assumption; reflexivity]).
    set (d := if (m =? ms s)%nat then _ else _). clearbody d. case Rlt_bool_spec; intros Hc; [|split; lra].
    pose proof (Hv m Hm). destruct (clip_low' f (vfrac s m) d sc Hf ltac:(lra) Hs Hc) as [[A B] C].
    assert (Rabs (f * ratio (vfrac s m) d) = - f * ratio (vfrac s m) d) as -> by (rewrite Rabs_left1; lra).
    rewrite Rmin_right by lra. split; [lra|exact C].
  - intros m sc sc' Hm HP Hs. set (d := if (m =? ms s)%nat then _ else _) in *. clearbody d.
    pose proof (Hv m Hm). assert (0 <= f * vfrac s m) by (apply Rmult_le_pos; lra).
    destruct (Rle_lt_dec 0 d); [assert (0 <= sc' * d) by (apply Rmult_le_pos; lra); lra|]. nra.
Qed.
Lemma scale2_shrinks s das Tnew : forall sc, 0 <= sc -> 0 <= fst (rt_scale2 n eos s das Tnew sc) <= sc.
Proof.
  intros sc0 H0. unfold rt_scale2. generalize (seq 0 n) as l. intros l. generalize 1%nat as i0. revert sc0 H0.
  induction l as [|m l IH]; intros sc H0 i0; cbn [fold_left fst]; [lra|].
  case Rlt_bool_spec; intros Ha; [apply IH; exact H0|].
  destruct (m =? ms s)%nat; cbv beta iota; (case Rlt_bool_spec; intros Hc; [|apply IH; exact H0]).
  - match type of Hc with ?a < _ * ?d => destruct (clip_high a d sc ltac:(lra) H0 Hc) as [[A B] _] end. rewrite Rmin_left by lra.
    match goal with |- 0 <= fst (fold_left _ _ (?r, ?i)) <= _ => pose proof (IH r A i) end. lra.
  - match type of Hc with ?a < _ * ?d => destruct (clip_high a d sc ltac:(lra) H0 Hc) as [[A B] _] end. rewrite Rmin_left by lra.
    match goal with |- 0 <= fst (fold_left _ _ (?r, ?i)) <= _ => pose proof (IH r A i) end. lra.
Qed.

(** After ScaleDx the full step keeps every volume fraction and the temperature positive *)
Theorem C36_RhoT_scaled_step_admissible : forall s s' sc, (ms s < n)%nat -> 0 <= vfrac_safety_fac params < 1 ->
  (forall m, (m < n)%nat -> 0 < vfrac s m) -> 0 < Teq s -> rt_ScaleDx n eos params s = (s', sc) ->
  0 <= sc <= 1 /\ (forall m, (m < n)%nat -> 0 < vfrac s m + dalpha s' m) /\ 0 < Teq s + dx s' 0%nat /\
  (forall i, (i < n)%nat -> dx s' i = dx s i * sc).
Proof.
  intros s s' sc Hms Hf Hv HT E. unfold rt_ScaleDx in E.
  set (das := - sum_neumaier (dx s) (n - 1) 1 None idop) in E.
  destruct (scale1_ok s das ltac:(lra) Hv) as [A1 A2]. set (sc1 := fst (rt_scale1 n params s das)) in *. clearbody sc1.
  pose proof (scale2_shrinks s das (Teq s + sc1 * dx s 0%nat) sc1 ltac:(lra)) as B1.
  set (sc2 := fst (rt_scale2 n eos s das (Teq s + sc1 * dx s 0%nat) sc1)) in *. clearbody sc2.
  set (sc3 := if Rlt_bool _ _ then _ else sc2) in E.
  assert (0 <= sc3 <= sc2 /\ - (95 / 100) * Teq s <= sc3 * dx s 0%nat) as [C1 C2].
  { unfold sc3. case Rlt_bool_spec; intros Hc; [|split; lra].
    destruct (clip_low (95 / 100) (Teq s) (dx s 0%nat) sc2 ltac:(lra) HT ltac:(lra) Hc) as [[A B] C].
    rewrite Rmin_right by lra. split; [lra|exact C]. }
  clearbody sc3. inversion E; subst s' sc; clear E.
  assert (forall i, (i < n)%nat -> dx (set_dx (map_n (rt_neq n) (fun i => dx s i * sc3) (dx s)) s) i = dx s i * sc3) as HD.
  { intros i Hi. cbn. apply map_n_lt. exact Hi. }
  split; [lra|]. split; [|split; [rewrite HD by lia; lra|exact HD]].
  intros m Hm. pose proof (Hv m Hm) as Hvm. pose proof (A2 m Hm) as A2m.
  assert (dalpha (set_dx (map_n (rt_neq n) (fun i => dx s i * sc3) (dx s)) s) m = sc3 * (if (m =? ms s)%nat then das else dx s (didx (ms s) m))) as ->.
  { unfold dalpha. cbn [ms set_dx]. destruct (Nat.eqb_spec m (ms s)) as [Em|Em].
    - unfold das. rewrite sum_neumaier_none. unfold idop. rewrite <- rsum_scal with (c := sc3) || idtac.
      replace (sc3 * - rsum (n - 1) (fun k => dx s (k + 1)%nat)) with (- rsum (n - 1) (fun k => sc3 * dx s (k + 1)%nat)) by (rewrite rsum_scal; ring).
      f_equal. apply rsum_ext. intros k Hk. rewrite HD by lia. replace (k + 1)%nat with (S k) by lia. ring.
    - rewrite HD by (apply didx_lt; assumption). ring. }
  set (d := if (m =? ms s)%nat then _ else _) in *. clearbody d.
  assert (- vfrac_safety_fac params * vfrac s m <= sc3 * d).
  { assert (0 <= vfrac_safety_fac params * vfrac s m) by (apply Rmult_le_pos; lra).
    destruct (Rle_lt_dec 0 d); [assert (0 <= sc3 * d) by (apply Rmult_le_pos; lra); lra|]. nra. }
  nra.
Qed.

(** ** the invariant of the iteration *)
Variable rb : nat -> R.       (* conserved partial densities *)
Variable Tn us ut : R.
Hypothesis Hrb : forall m, (m < n)%nat -> tiny <= rb m.
Hypothesis Hus : 1 / 100000000000000 <= us.

Record rt_inv (s : pst) : Prop := {
  ri_ms : (ms s < n)%nat;
  ri_rb : forall m, (m < n)%nat -> rhobar s m = rb m;
  ri_Tn : Tnorm s = Tn;
  ri_us : uscale s = us;
  ri_ut : utot s = ut;
  ri_T : 0 < Teq s;
  ri_temp : forall m, (m < n)%nat -> temp s m = Teq s;
  ri_vf : forall m, (m < n)%nat -> 0 < vfrac s m;
  ri_sum : rsum n (vfrac s) = 1;
  ri_mass : forall m, (m < n)%nat -> tiny <= vfrac s m -> rho s m * vfrac s m = rb m;
  ri_rho : forall m, (m < n)%nat -> 0 < rho s m;
  ri_sie : forall m, (m < n)%nat -> sie s m = e_rt (eos m) (rho s m) (Tn * Teq s);
  ri_u : forall m, (m < n)%nat -> u s m * us = rb m * sie s m;
  ri_p : forall m, (m < n)%nat -> press s m * us = GetPressureFromPreferred (eos m) (rho s m) (Tn * Teq s) (sie s m) false;
  ri_r0 : res s 0%nat = ut - rsum n (u s);
  ri_r : forall m, (m < n)%nat -> m <> ms s -> res s (didx (ms s) m) = press s (ms s) - press s m
}.
Record rt_inv2 (s : pst) : Prop := {
  r2_inv : rt_inv s;
  r2_v : forall m, (m < n)%nat -> 0 < vtmp s m /\ 0 < vtmp s m + dalpha s m;
  r2_sum : rsum n (vtmp s) = 1;
  r2_T : 0 < Ttmp s /\ 0 < Ttmp s + dx s 0%nat
}.

Lemma us_tiny : tiny <= Rabs us.
Proof. rewrite Rabs_right by lra. pose proof tiny_e14. lra. Qed.

Lemma residual_inv s : (ms s < n)%nat -> utot s = ut ->
  res (rt_Residual n s) 0%nat = ut - rsum n (u s) /\
  forall m, (m < n)%nat -> m <> ms s -> res (rt_Residual n s) (didx (ms s) m) = press s (ms s) - press s m.
Proof.
  intros Hm Eu. unfold rt_Residual. cbn [res set_res].
  change (fst (fold_left _ _ _)) with (scatter (ms s) n (fun m => press s (ms s) - press s m) (upd (res s) 0 (utot s - sum_neumaier (u s) n 0 None idop))).
  destruct (scatter_spec (ms s) n (fun m => press s (ms s) - press s m) (upd (res s) 0 (utot s - sum_neumaier (u s) n 0 None idop)) Hm) as (H1 & H2 & _).
  split; [|exact H2]. rewrite H1, upd_same, sum_neumaier_id, Eu. reflexivity.
Qed.

Lemma skip_sum s (f : nat -> R) : (ms s < n)%nat -> rsum n (fun m => if (m =? ms s)%nat then 0 else f (didx (ms s) m)) = rsum (n - 1) (fun k => f (S k)).
Proof.
  intros H. assert (forall k N, (k < N)%nat -> rsum N (fun m => if (m =? k)%nat then 0 else f (didx k m)) = rsum (N - 1) (fun j => f (S j))) as HH.
  { intros k N. induction N as [|N IH]; intros HN; [lia|]. cbn [rsum]. replace (S N - 1)%nat with N by lia.
    destruct (Nat.eqb_spec N k) as [->|E].
    - rewrite Rplus_0_r. apply rsum_ext. intros m Hm. destruct (Nat.eqb_spec m k); [lia|]. unfold didx. destruct (Nat.ltb_spec m k); [reflexivity|lia].
    - rewrite IH by lia. destruct N as [|N']; [lia|]. replace (S N' - 1)%nat with N' by lia. cbn [rsum]. f_equal.
      unfold didx. destruct (Nat.ltb_spec (S N') k); [lia|reflexivity]. }
  apply HH. exact H.
Qed.

(** one TestUpdate from cached values vt, Tt *)
Lemma test_core t s : 0 < t <= 1 -> (ms s < n)%nat -> (forall m, (m < n)%nat -> rhobar s m = rb m) -> Tnorm s = Tn -> uscale s = us -> utot s = ut ->
  (forall m, (m < n)%nat -> 0 < vtmp s m /\ 0 < vtmp s m + dalpha s m) -> rsum n (vtmp s) = 1 -> 0 < Ttmp s -> 0 < Ttmp s + dx s 0%nat ->
  forall s' e, rt_TestUpdate n eos t false s = (s', e) -> rt_inv2 s'.
Proof.
  intros Ht Hms Erb ETn Eus Eut Hv Hs1 HT1 HT2 s' e E. unfold rt_TestUpdate in E. cbv zeta in E.
  change (fst (fold_left _ _ _)) with (gather (ms s) n (fun m idx => vtmp s m + t * dx s idx) (vfrac s)) in E.
  set (vf := gather (ms s) n _ _) in E.
  assert (forall m, (m < n)%nat -> m <> ms s -> vf m = vtmp s m + t * dalpha s m) as Evf.
  { intros m Hm Hne. unfold vf, dalpha. rewrite gather_spec. destruct (Nat.ltb_spec m n); [|lia]. destruct (Nat.eqb_spec m (ms s)); [contradiction|]. reflexivity. }
  cbn [ms set_Teq] in E.
  rewrite sum_neumaier_skip in E. set (vs := 1 - _) in E.
  assert (vs = vtmp s (ms s) + t * dalpha s (ms s)) as Evs.
  { unfold vs. rewrite (rsum_ext n _ (fun m => if (m =? ms s)%nat then 0 else (fun m => vtmp s m + t * dx s (didx (ms s) m)) m)).
    2: { intros m Hm. destruct (Nat.eqb_spec m (ms s)) as [|Hne]; [reflexivity|]. rewrite Evf by assumption. unfold dalpha. destruct (Nat.eqb_spec m (ms s)); [contradiction|reflexivity]. }
    rewrite (rsum_ext n _ (fun m => (if (m =? ms s)%nat then 0 else vtmp s m) + t * (if (m =? ms s)%nat then 0 else dx s (didx (ms s) m)))).
    2: { intros m Hm. destruct (m =? ms s)%nat; ring. }
    rewrite rsum_plus, rsum_scal, skip_sum by exact Hms.
    pose proof (rsum_split n (vtmp s) (ms s) Hms) as HS. rewrite Hs1 in HS.
    unfold dalpha. rewrite Nat.eqb_refl. lra. }
  clearbody vs. set (vf' := upd vf (ms s) vs) in E.
  assert (forall m, (m < n)%nat -> vf' m = vtmp s m + t * dalpha s m) as Evf'.
  { intros m Hm. unfold vf'. destruct (Nat.eq_dec m (ms s)) as [->|Hne]; [rewrite upd_same; exact Evs|rewrite upd_other by exact Hne; apply Evf; assumption]. }
  assert (rsum n vf' = 1) as Hsum.
  { rewrite (rsum_ext n vf' (fun m => vtmp s m + t * dalpha s m) Evf'). rewrite rsum_plus, rsum_scal, Hs1.
    rewrite (rsum_split n (dalpha s) (ms s) Hms). unfold dalpha at 1. rewrite Nat.eqb_refl.
    rewrite (rsum_ext n (fun m => if (m =? ms s)%nat then 0 else dalpha s m) (fun m => if (m =? ms s)%nat then 0 else dx s (didx (ms s) m))).
    - rewrite skip_sum by exact Hms. ring.
    - intros m Hm. unfold dalpha. destruct (m =? ms s)%nat; reflexivity. }
  clearbody vf'. clear Evs Evf vf.
  match type of E with (?x, _) = _ => set (sR := x) in E end. inversion E; subst s'. clear E.
  assert (forall m, (m < n)%nat -> 0 < vf' m) as Hvp.
  { intros m Hm. rewrite Evf' by exact Hm. apply convex_pos; [apply Hv; exact Hm|apply Hv; exact Hm|lra]. }
  pose proof us_tiny as Hut.
  assert (ms sR = ms s) as Ems by reflexivity.
  destruct (residual_inv (set_press (press sR) (set_u (u sR) s)) Hms Eut) as [R1 R2].
  constructor.
  - constructor.
    + exact Hms.
    + intros m Hm. cbn. apply Erb. exact Hm.
    + exact ETn.
    + exact Eus.
    + exact Eut.
    + cbn. pose proof (convex_pos (Ttmp s) (dx s 0%nat) t HT1 HT2 ltac:(lra)). lra.
    + intros m Hm. cbn. apply mapm_lt. exact Hm.
    + intros m Hm. cbn. apply Hvp. exact Hm.
    + cbn. exact Hsum.
    + intros m Hm Htv. cbn in *. rewrite mapm_lt by exact Hm. rewrite ratio_mul; [apply Erb; exact Hm|]. rewrite Rabs_right; [exact Htv|]. pose proof (Hvp m Hm). lra.
    + intros m Hm. cbn. rewrite mapm_lt by exact Hm. rewrite Erb by exact Hm. pose proof (Hrb m Hm). pose proof tiny_pos. apply ratio_pos_pos; [lra|]. apply Rlt_le. apply (Hvp m Hm).
    + intros m Hm. cbn. rewrite !mapm_lt by exact Hm. rewrite Erb by exact Hm. rewrite ETn.
      pose proof (Hrb m Hm). pose proof tiny_pos. rewrite ratio_abs by (rewrite Rabs_right; lra). field. lra.
    + intros m Hm. cbn. rewrite !mapm_lt by exact Hm. rewrite Erb by exact Hm. rewrite Eus, ETn. rewrite ratio_mul by exact Hut.
      pose proof (Hrb m Hm). pose proof tiny_pos. rewrite (ratio_abs _ (rb m)) by (rewrite Rabs_right; lra). field. lra.
    + intros m Hm. cbn. rewrite !mapm_lt by exact Hm. rewrite Eus, ETn. rewrite ratio_mul by exact Hut. reflexivity.
    + unfold sR. cbn [res rt_Residual set_res]. exact R1.
    + intros m Hm Hne. apply (R2 m Hm Hne).
  - intros m Hm. change (vtmp sR m) with (vtmp s m). change (dalpha sR m) with (dalpha s m). apply Hv. exact Hm.
  - exact Hs1.
  - split; assumption.
Qed.

(** I0 only looks at fields that Jacobian, Solve and ScaleDx leave alone *)
Lemma inv_dx x s : rt_inv s -> rt_inv (set_dx x s).
Proof. intros H. constructor; apply H. Qed.
Lemma inv_jac s : rt_inv s -> rt_inv (rt_Jacobian n eos params s).
Proof. intros H. constructor; apply H. Qed.
Lemma inv_solve k s : rt_inv s -> rt_inv (fst (Solve lin k s)).
Proof. intros H. unfold Solve. destruct (solve_Ax_b _ _ _ _) as [x ok]. cbn [fst]. apply inv_dx. exact H. Qed.
Lemma inv_fix s : rt_inv s -> rt_inv (rt_Fixup n params s).
Proof.
  intros H. unfold rt_Fixup. destruct (pte_reduced_system_exclude_idx params); [exact H|].
  assert (fst (argmax n (vfrac s) 0) < n)%nat as Hk by (apply argmax_lt; pose proof (ri_ms _ H); lia).
  set (k := fst (argmax n (vfrac s) 0)) in *. clearbody k.
  destruct (residual_inv (set_ms k s) Hk (ri_ut _ H)) as [R1 R2].
  constructor; try apply H; [exact Hk|exact R1|exact R2].
Qed.
Definition rt_IS (sc : R) (s : pst) : Prop :=
  rt_inv s /\ (forall m, (m < n)%nat -> 0 < vfrac s m + dalpha s m) /\ 0 < Teq s + dx s 0%nat.

Lemma rt_driver_inv : 0 <= vfrac_safety_fac params < 1 ->
  driver_invariant sys rt_inv (fun _ => rt_inv) rt_IS rt_inv2.
Proof.
  intros Hf. constructor; cbn [sCheckPTE sJacobian sSolve sScaleDx sTestUpdate sFixup RhoT_system].
  - intros s s2 ok H _ E. pose proof (inv_solve (rt_neq n) _ (inv_jac _ H)) as HH. rewrite E in HH. exact HH.
  - intros ok s H. apply inv_fix. exact H.
  - intros s s3 sc H E.
    destruct (C36_RhoT_scaled_step_admissible s s3 sc (ri_ms _ H) Hf (ri_vf _ H) (ri_T _ H) E) as (_ & H1 & H2 & _).
    assert (exists x, s3 = set_dx x s) as (x & ->) by (unfold rt_ScaleDx in E; inversion E; eauto).
    split; [apply inv_dx; exact H|]. split; [exact H1|exact H2].
  - intros sc s (H & _). apply inv_fix. exact H.
  - intros sc s s4 e (H & Hv & HT) E.
    apply (test_core 1 (set_vtmp (mapm n (vfrac s) (vtmp s)) (set_Ttmp (Teq s) s))) with (e := e).
    + lra.
    + apply H.
    + apply H.
    + apply H.
    + apply H.
    + apply H.
    + intros m Hm. cbn [vtmp set_vtmp]. rewrite mapm_lt by exact Hm. split; [apply H; exact Hm|apply Hv; exact Hm].
    + cbn [vtmp set_vtmp]. rewrite rsum_mapm. apply H.
    + apply (ri_T _ H).
    + exact HT.
    + exact E.
  - intros t s s4 e [H Hv Hs HT] Ht E. eapply (test_core t s); try apply H; try eassumption; apply HT.
  - intros s [H _ _ _]. apply inv_fix. exact H.
  - exact inv_fix.
Qed.

(** the initial guess satisfies it *)
Lemma rt_init_inv s0 : good_input n eos 1 params s0 -> (forall m, (m < n)%nat -> rb m = rho s0 m * vfrac s0 m) ->
  (forall m, (m < n)%nat -> pref_p (eos m) = false \/ bad_value (press s0 m) = true) ->
  (match pte_reduced_system_exclude_idx params with Some k => (k < n)%nat | None => True end) ->
  let sB := InitBase n eos 1 sie_total params s0 in
  Tn = Tnorm sB -> us = uscale sB -> ut = utot sB ->
  rt_inv (fst (rt_Init n eos 1 sie_total params s0)).
Proof.
  intros G Erb Hpp Hex sB ETn Eus Eut.
  pose proof (InitBase_ok n eos 1 sie_total params s0 G) as HI. fold sB in HI.
  unfold rt_Init. fold sB. cbv zeta. cbn [fst].
  match goal with |- context [set_ms ?k sB] => set (k0 := k) end.
  assert (k0 < n)%nat as Hk.
  { unfold k0. destruct (pte_reduced_system_exclude_idx params); [exact Hex|]. apply argmax_lt. apply G. }
  clearbody k0. destruct (residual_inv (set_ms k0 sB) Hk (eq_sym Eut)) as [R1 R2].
  pose proof (gi_n _ _ _ _ _ G) as Hn.
  assert (temp sB 0%nat = 1) as ET by (apply (io_temp _ _ _ _ _ _ HI); exact Hn).
  pose proof us_tiny as Hut.
  constructor.
  - exact Hk.
  - intros m Hm. rewrite Erb by exact Hm. apply (so_rb _ _ _ _ (io_shape _ _ _ _ _ _ HI) m Hm).
  - symmetry. exact ETn.
  - symmetry. exact Eus.
  - symmetry. exact Eut.
  - cbn. rewrite ET. lra.
  - intros m Hm. cbn. rewrite ET. apply (io_temp _ _ _ _ _ _ HI). exact Hm.
  - apply (so_vf _ _ _ _ (io_shape _ _ _ _ _ _ HI)).
  - apply (so_sum _ _ _ _ (io_shape _ _ _ _ _ _ HI)).
  - intros m Hm Hv. rewrite Erb by exact Hm. apply (so_mass _ _ _ _ (io_shape _ _ _ _ _ _ HI)); assumption.
  - intros m Hm. apply (so_rho _ _ _ _ (io_shape _ _ _ _ _ _ HI)); [exact Hm|]. apply Rmult_lt_0_compat; [apply (gi_rho _ _ _ _ _ G m Hm)|apply (gi_vf _ _ _ _ _ G m Hm)].
  - intros m Hm. cbn. rewrite ET, Rmult_1_r, ETn. apply (io_sie _ _ _ _ _ _ HI). exact Hm.
  - intros m Hm. cbn. rewrite (io_u _ _ _ _ _ _ HI m Hm), <- Eus. rewrite Rmult_assoc, ratio_mul by exact Hut.
    rewrite (so_rb _ _ _ _ (io_shape _ _ _ _ _ _ HI) m Hm), Erb by exact Hm. ring.
  - intros m Hm. cbn. rewrite ET, Rmult_1_r, ETn. rewrite (io_p _ _ _ _ _ _ HI m Hm).
    replace (pref_p (eos m) && negb (bad_value (press s0 m))) with false.
    + rewrite <- Eus. apply ratio_mul. exact Hut.
    + destruct (Hpp m Hm) as [->| ->]; [reflexivity|]. rewrite andb_false_r. reflexivity.
  - cbn [res set_Teq]. exact R1.
  - exact R2.
Qed.
End RhoT.

(** ** End-to-end statements *)
Section EndToEnd.
Variable n : nat.
Variable eos : nat -> meos.
Variable sie_total : R.
Variable params : MixParams RArith.
Variable lin : nat -> (nat -> R) -> (nat -> R) -> (nat -> R).
Notation sys := (RhoT_system n eos 1 sie_total params lin).

(** what the parameters must satisfy (all true of the defaults) *)
Definition good_params : Prop := 0 <= vfrac_safety_fac params < 1 /\ 0 < line_search_fac params <= 1 /\
  match pte_reduced_system_exclude_idx params with Some k => (k < n)%nat | None => True end.
(** no material's pressure is taken from the caller's array *)
Definition pressure_looked_up (s0 : pst) : Prop := forall m, (m < n)%nat -> pref_p (eos m) = false \/ bad_value (press s0 m) = true.

(** Returned state, converged or not: every volume fraction is positive, they sum to one, every material keeps its
    mass, there is one common positive temperature, and the returned energies and
    pressures are the ones the EOS assign to the returned densities at that temperature. *)
Theorem C34_RhoT_returned_state : forall s0 st sf, good_input n eos 1 params s0 -> good_params -> pressure_looked_up s0 ->
  (forall m, (m < n)%nat -> tiny <= rho s0 m * vfrac s0 m) ->
  @PTESolver RArith pst ratio sys s0 = (st, sf) ->
  rsum n (vfrac sf) = 1 /\
  (forall m, (m < n)%nat -> 0 < vfrac sf m /\ 0 < rho sf m /\ (tiny <= vfrac sf m -> rho sf m * vfrac sf m = rho s0 m * vfrac s0 m)) /\
  exists T, 0 < T /\ forall m, (m < n)%nat -> temp sf m = T /\ sie sf m = e_rt (eos m) (rho sf m) T /\
    press sf m = GetPressureFromPreferred (eos m) (rho sf m) T (sie sf m) false.
Proof.
  intros s0 st sf G (P1 & P2 & P3) HP Hm0 E.
  set (sB := InitBase n eos 1 sie_total params s0).
  pose proof (InitBase_ok n eos 1 sie_total params s0 G) as HI. fold sB in HI.
  set (rb := fun m => rho s0 m * vfrac s0 m).
  pose proof (us_pos _ _ _ _ _ _ HI) as Hus.
  pose proof (rt_init_inv n eos sie_total params rb (Tnorm sB) (uscale sB) (utot sB) Hus s0 G (fun m _ => eq_refl) HP P3 eq_refl eq_refl eq_refl) as H0.
  pose proof (rt_driver_inv n eos sie_total params lin rb (Tnorm sB) (uscale sB) (utot sB) Hm0 Hus P1) as HD.
  destruct (C35_invariant_principle sys _ _ _ _ HD P2 s0 H0) as (s' & H' & E').
  rewrite E in E'. cbn [snd sFinalize RhoT_system] in E'. subst sf.
  split; [exact (ri_sum _ _ _ _ _ _ _ H')|]. split.
  { intros m Hm. split; [apply (ri_vf _ _ _ _ _ _ _ H' m Hm)|]. split; [apply (ri_rho _ _ _ _ _ _ _ H' m Hm)|apply (ri_mass _ _ _ _ _ _ _ H' m Hm)]. }
  exists (Tnorm sB * Teq s'). split; [apply Rmult_lt_0_compat; [apply (io_Tn _ _ _ _ _ _ HI)|apply (ri_T _ _ _ _ _ _ _ H')]|].
  intros m Hm. cbn. rewrite !mapm_lt by exact Hm. split; [|split].
  - rewrite (ri_Tn _ _ _ _ _ _ _ H'), (ri_temp _ _ _ _ _ _ _ H' m Hm). ring.
  - apply (ri_sie _ _ _ _ _ _ _ H' m Hm).
  - rewrite (ri_us _ _ _ _ _ _ _ H'). apply (ri_p _ _ _ _ _ _ _ H' m Hm).
Qed.


(** A convergence report without the slow-convergence flag: the returned material pressures agree pairwise within twice
    the configured tolerance (relative to the volume-averaged pressure, or absolute in units of the total energy
    density), and the total energy of the returned state equals the requested one within pte_rel_tolerance_e. *)
Theorem C37_RhoT_converged_means_equilibrium : forall s0 st sf, good_input n eos 1 params s0 -> good_params -> pressure_looked_up s0 ->
  (forall m, (m < n)%nat -> tiny <= rho s0 m * vfrac s0 m) ->
  @PTESolver RArith pst ratio sys s0 = (st, sf) -> converged st = true -> slow_convergence_detected st = false ->
  let mass m := rho s0 m * vfrac s0 m in
  let etot := rsum n mass * sie_total in
  let scale := Rmax (Rabs etot) (1 / 100000000000000) in
  Rabs (etot - rsum n (fun m => mass m * sie sf m)) < pte_rel_tolerance_e params * scale /\
  exists tol, (tol = pte_rel_tolerance_p params * Rabs (rsum n (fun m => vfrac sf m * press sf m)) \/ tol = pte_abs_tolerance_p params * scale) /\
    forall i j, (i < n)%nat -> (j < n)%nat -> Rabs (press sf i - press sf j) <= 2 * tol.
Proof.
  intros s0 st sf G (P1 & P2 & P3) HP Hm0 E HC HS. cbv zeta.
  set (sB := InitBase n eos 1 sie_total params s0).
  pose proof (InitBase_ok n eos 1 sie_total params s0 G) as HI. fold sB in HI.
  set (rb := fun m => rho s0 m * vfrac s0 m).
  pose proof (us_pos _ _ _ _ _ _ HI) as Hus.
  pose proof (io_us _ _ _ _ _ _ HI) as Eus. change (rsum n (fun m => rho s0 m * vfrac s0 m)) with (rsum n rb) in Eus. rewrite <- Eus.
  pose proof (io_ut _ _ _ _ _ _ HI) as Eut. change (rsum n (fun m => rho s0 m * vfrac s0 m)) with (rsum n rb) in Eut.
  pose proof (rt_init_inv n eos sie_total params rb (Tnorm sB) (uscale sB) (utot sB) Hus s0 G (fun m _ => eq_refl) HP P3 eq_refl eq_refl eq_refl) as H0.
  pose proof (rt_driver_inv n eos sie_total params lin rb (Tnorm sB) (uscale sB) (utot sB) Hm0 Hus P1) as HD.
  destruct (C35_converged_invariant sys _ _ _ _ HD P2 s0 st sf H0 E HC HS) as (s' & H' & HK & E').
  cbn [sCheckPTE sFinalize sFixup RhoT_system] in HK, E'.
  pose proof (us_tiny (uscale sB) Hus) as Hut.
  assert (0 < uscale sB) as Hup by lra.
  (* Finalize after Fixup *)
  assert (sie sf = sie s' /\ vfrac sf = vfrac s' /\ forall m, (m < n)%nat -> press sf m = press s' m * uscale sB) as (F1 & F2 & F3).
  { subst sf. unfold rt_Fixup. destruct (pte_reduced_system_exclude_idx params); (split; [reflexivity|split; [reflexivity|]]);
      intros m Hm; cbn; rewrite mapm_lt by exact Hm; rewrite (ri_us _ _ _ _ _ _ _ H'); reflexivity. }
  unfold rt_CheckPTE in HK. cbn [fst] in HK. apply andb_true_iff in HK. destruct HK as [HKp HKe].
  assert (Rabs (res s' 0%nat) < pte_rel_tolerance_e params) as He by (revert HKe; case Rlt_bool_spec; [auto|discriminate]).
  split.
  { change (rsum n (fun m => rho s0 m * vfrac s0 m)) with (rsum n rb).
    rewrite (ri_r0 _ _ _ _ _ _ _ H'), Eut in He.
    replace (rsum n rb * sie_total - rsum n (fun m => rb m * sie sf m)) with ((ratio (rsum n rb * sie_total) (uscale sB) - rsum n (u s')) * uscale sB).
    - rewrite Rabs_mult, (Rabs_right (uscale sB)) by lra. apply Rmult_lt_compat_r; [exact Hup|exact He].
    - rewrite Rmult_minus_distr_r, ratio_mul by exact Hut. f_equal. rewrite <- rsum_scal_r. apply rsum_ext. intros m Hm.
      rewrite (ri_u _ _ _ _ _ _ _ H' m Hm), F1. reflexivity. }
  set (mean := rsum n (fun m => vfrac s' m * press s' m)) in HKp.
  assert (rsum n (fun m => vfrac sf m * press sf m) = mean * uscale sB) as Em.
  { unfold mean. rewrite <- rsum_scal_r. apply rsum_ext. intros m Hm. rewrite F2, F3 by exact Hm. ring. }
  set (ep := sqrt _) in HKp.
  assert (exists t0, (t0 = pte_rel_tolerance_p params * Rabs mean \/ t0 = pte_abs_tolerance_p params) /\ ep < t0) as (t0 & Ht0 & Hep).
  { apply orb_true_iff in HKp. destruct HKp as [H|H]; revert H; (case Rlt_bool_spec; [|discriminate]); eauto. }
  exists (t0 * uscale sB). split.
  { destruct Ht0 as [-> | ->]; [left|right; reflexivity]. rewrite Em, Rabs_mult, (Rabs_right (uscale sB)) by lra. ring. }
  assert (forall m, (m < n)%nat -> Rabs (press s' (ms s') - press s' m) <= t0) as HB.
  { intros m Hm. destruct (Nat.eq_dec m (ms s')) as [->|Hne].
    - rewrite Rminus_diag_eq, Rabs_R0 by reflexivity. apply Rle_trans with ep; [apply sqrt_pos|lra].
    - left. rewrite <- (ri_r _ _ _ _ _ _ _ H' m Hm Hne).
      unfold ep in Hep. rewrite sum_neumaier_none in Hep. unfold sqop in Hep.
      pose proof (didx_pos (ms s') m Hne). pose proof (didx_lt n (ms s') m Hm (ri_ms _ _ _ _ _ _ _ H') Hne).
      pose proof (sqrt_term (fun k => res s' (k + 1)%nat) (didx (ms s') m - 1) (rt_neq n - 1) t0 ltac:(unfold rt_neq; lia) Hep) as HH.
      cbv beta in HH. replace (didx (ms s') m - 1 + 1)%nat with (didx (ms s') m) in HH by lia. exact HH. }
  intros i j Hi Hj. rewrite (F3 i Hi), (F3 j Hj).
  replace (press s' i * uscale sB - press s' j * uscale sB) with (((press s' (ms s') - press s' j) - (press s' (ms s') - press s' i)) * uscale sB) by ring.
  rewrite Rabs_mult, (Rabs_right (uscale sB)) by lra. rewrite <- Rmult_assoc. apply Rmult_le_compat_r; [lra|].
  pose proof (HB i Hi). pose proof (HB j Hj).
  eapply Rle_trans; [apply Rabs_triang|]. rewrite Rabs_Ropp. lra.
Qed.
End EndToEnd.

(** ** The hypotheses are met: any number (up to 2^900) of ideal gases in one cell *)
Example C34_ex_RhoT : forall n, (0 < n)%nat -> INR n <= 2 ^ 900 ->
  good_input n weos 1 wpar (wst n) /\ good_params n wpar /\ pressure_looked_up n weos (wst n) /\
  (forall m, (m < n)%nat -> tiny <= rho (wst n) m * vfrac (wst n) m).
Proof.
  intros n Hn HB. split; [exact (good_input_witness n Hn HB)|]. split.
  { unfold good_params. split; [exact wsafe|]. split; [exact wfac|]. cbn. try exact I; try lia. }
  split.
  { intros m _. left. destruct m as [|[|m]]; reflexivity. }
  intros m _. cbn [rho vfrac wst]. pose proof (tiny_frac n Hn HB). assert (0 < INR n) by (apply lt_0_INR; lia).
  apply Rle_trans with (1 * / INR n); [lra|]. apply Rmult_le_compat_r; [apply Rlt_le, Rinv_0_lt_compat; assumption|]. rewrite S_INR. pose proof (pos_INR m). lra.
Qed.
(** a step that has to be shortened: two materials, dx(vfrac 1) = -3/4 from 1/2, dT = -2 from 1 *)
Example C36_ex_RhoT : let s := set_ms 0 (set_Teq 1 (set_dx (fun i => match i with O => -2 | _ => -3/4 end) (wst 2))) in
  snd (rt_ScaleDx 2 weos wpar s) < 1.
Proof.
  cbv zeta. match goal with |- snd ?x < 1 => destruct x as [s' sc] eqn:E end.
  pose proof (fun H1 H2 H3 H4 => C36_RhoT_scaled_step_admissible 2 weos wpar _ s' sc H1 H2 H3 H4 E) as H. cbn [snd].
  destruct H as (_ & _ & H3 & H4); [cbn; lia|exact wsafe|intros m Hm; cbn; lra|cbn; lra|].
  rewrite (H4 0%nat ltac:(lia)) in H3. cbn in H3. lra.
Qed.
Print Assumptions C36_RhoT_scaled_step_admissible.
Print Assumptions C34_RhoT_returned_state.
Print Assumptions C37_RhoT_converged_means_equilibrium.
