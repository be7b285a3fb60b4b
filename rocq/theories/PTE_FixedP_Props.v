(** C34/C36/C37/C46 for PTESolverFixedP, end to end through the driver *)
From Coq Require Import ZArith Reals Bool List Lia Lra.
From Flocq Require Import Core.
From Verif Require Import Arith Robust_Model Robust_Proofs Thermo_Spec Thermo_Tools PTE_Driver_Model PTE_Driver_Props PTE_Model PTE_Tools PTE_Base_Props PTE_Init PTE_Tools2 PTE_Witness.
Import ListNotations.
Local Open Scope R_scope.

Section FixedP.
Variable n : nat.
Variable eos : nat -> meos.
Variable vfrac_total : R.
Variable params : MixParams RArith.
Variable lin : nat -> (nat -> R) -> (nat -> R) -> (nat -> R).
Notation sys := (FixedP_system n eos vfrac_total params lin).

(** ** ScaleDx *)
Lemma fp_vscale_ok f s : 0 <= f -> (forall m, (m < n)%nat -> 0 < vfrac s m) ->
  forall sc0, 0 <= sc0 -> let sc := fold_left (fp_vscale f s) (seq 0 n) sc0 in
  0 <= sc <= sc0 /\ forall m, (m < n)%nat -> - f * vfrac s m <= sc * dx s m.
Proof.
  intros Hf Hv. apply (fold_scale (fun m sc => - f * vfrac s m <= sc * dx s m)).
  - intros m sc Hm Hs. unfold fp_vscale. case Rlt_bool_spec; intros Hc; [|split; lra].
    destruct (clip_low' f (vfrac s m) (dx s m) sc Hf (Hv m Hm) Hs Hc) as [A B]. split; assumption.
  - intros m sc sc' Hm HP Hs. pose proof (Hv m Hm). assert (0 <= f * vfrac s m) by (apply Rmult_le_pos; lra).
    destruct (Rle_lt_dec 0 (dx s m)); [assert (0 <= sc' * dx s m) by (apply Rmult_le_pos; lra); lra|]. nra.
Qed.
Definition fp_alpha_max (s : pst) (Tnew : R) (m : nat) : R :=
  ratio (rhobar s m) (Rmax (RhoPmin (eos m) (Tnorm s * Teq s)) (RhoPmin (eos m) (Tnorm s * Tnew))).
Lemma fp_dscale_ok s Tnew : forall sc0, 0 <= sc0 -> let sc := fold_left (fp_scale2 eos s Tnew) (seq 0 n) sc0 in
  0 <= sc <= sc0 /\ forall m, (m < n)%nat -> vfrac s m <= fp_alpha_max s Tnew m -> sc * dx s m <= 1 / 2 * (fp_alpha_max s Tnew m - vfrac s m).
Proof.
  apply (fold_scale (fun m sc => vfrac s m <= fp_alpha_max s Tnew m -> sc * dx s m <= 1 / 2 * (fp_alpha_max s Tnew m - vfrac s m))).
  - intros m sc Hm Hs. unfold fp_scale2. fold (fp_alpha_max s Tnew m). set (am := fp_alpha_max s Tnew m).
    case Rlt_bool_spec; intros Ha; [split; [lra|intros; lra]|].
    case Rlt_bool_spec; intros Hc; [|split; [lra|intros; lra]].
    destruct (clip_high (1 / 2 * (am - vfrac s m)) (dx s m) sc ltac:(lra) Hs Hc) as [A B]. rewrite ratio_scal in A, B. split; [exact A|intros; lra].
  - intros m sc sc' Hm HP Hs Ha. specialize (HP Ha). destruct (Rle_lt_dec 0 (dx s m)); nra.
Qed.

(** The scaled step keeps volume fractions and the temperature positive; a material whose density is admissible at the
    current temperature and at the trial temperature stays so with respect to the current temperature *)
Theorem C36_FixedP_scaled_step_admissible : forall s s' sc, 0 <= vfrac_safety_fac params < 1 ->
  (forall m, (m < n)%nat -> 0 < vfrac s m) -> 0 < Teq s -> fp_ScaleDx n eos params s = (s', sc) ->
  0 <= sc <= 1 /\ (forall m, (m < n)%nat -> 0 < vfrac s m + dx s' m) /\ 0 < Teq s + dx s' n /\
  (forall m, (m <= n)%nat -> dx s' m = sc * dx s m) /\
  exists Tnew, forall m t, (m < n)%nat -> vfrac s m <= fp_alpha_max s Tnew m -> 0 <= t <= 1 -> vfrac s m + t * dx s' m <= fp_alpha_max s Tnew m.
Proof.
  intros s s' sc Hf Hv HT E. unfold fp_ScaleDx in E.
  destruct (fp_vscale_ok (vfrac_safety_fac params) s ltac:(lra) Hv 1 ltac:(lra)) as [A1 A2].
  set (sc1 := fold_left (fp_vscale _ s) (seq 0 n) 1) in *. clearbody sc1.
  set (Tnew := Teq s + sc1 * dx s n) in *. clearbody Tnew.
  destruct (fp_dscale_ok s Tnew sc1 ltac:(lra)) as [B1 B2]. set (sc2 := fold_left (fp_scale2 eos s Tnew) (seq 0 n) sc1) in *. clearbody sc2.
  set (sc3 := if Rlt_bool _ _ then _ else sc2) in E.
  assert (0 <= sc3 <= sc2 /\ - (95 / 100) * Teq s <= sc3 * dx s n) as [C1 C2].
  { unfold sc3. case Rlt_bool_spec; intros Hc; [|split; lra].
    exact (clip_low' (95 / 100) (Teq s) (dx s n) sc2 ltac:(lra) HT ltac:(lra) Hc). }
  clearbody sc3. inversion E; subst s' sc; clear E.
  assert (forall m, (m <= n)%nat -> dx (set_dx (map_n (n + 1) (fun i => dx s i * sc3) (dx s)) s) m = sc3 * dx s m) as HD.
  { intros m Hm. cbn. rewrite map_n_lt by lia. ring. }
  split; [lra|]. split; [|split; [rewrite HD by lia; lra|split; [exact HD|]]].
  - intros m Hm. rewrite HD by lia. pose proof (A2 m Hm). pose proof (Hv m Hm).
    assert (0 <= vfrac_safety_fac params * vfrac s m) by (apply Rmult_le_pos; lra).
    assert (- vfrac_safety_fac params * vfrac s m <= sc3 * dx s m) by (destruct (Rle_lt_dec 0 (dx s m)); [assert (0 <= sc3 * dx s m) by (apply Rmult_le_pos; lra); lra|]; nra).
    nra.
  - exists Tnew. intros m t Hm Ha Ht. rewrite HD by lia. pose proof (B2 m Hm Ha).
    destruct (Rle_lt_dec 0 (dx s m)).
    + assert (0 <= sc3 * dx s m) by (apply Rmult_le_pos; lra). assert (sc3 * dx s m <= sc2 * dx s m) by (apply Rmult_le_compat_r; lra).
      assert (t * (sc3 * dx s m) <= sc3 * dx s m) by nra. lra.
    + assert (t * (sc3 * dx s m) <= 0) by (assert (sc3 * dx s m <= 0) by nra; nra). lra.
Qed.

(** ** the Newton matrix *)
Lemma fp_jac_entries s : let J := jac (fp_Jacobian n eos params s) in let D := dpdv (fp_Jacobian n eos params s) in let H := dpdT (fp_Jacobian n eos params s) in
  (forall c, (c < n)%nat -> J (n * (n + 1) + c)%nat = 1) /\ J (n * (n + 1) + n)%nat = 0 /\
  (forall r, (r < n)%nat -> J (r * (n + 1) + n)%nat = H r) /\
  (forall r c, (r < n)%nat -> (c < n)%nat -> J (r * (n + 1) + c)%nat = if (c =? r)%nat then D r else 0).
Proof.
  set (D := dpdv (fp_Jacobian n eos params s)). set (H := dpdT (fp_Jacobian n eos params s)).
  set (j0 := map_n ((n + 1) * (n + 1)) (fun _ => 0) (jac s)).
  set (j1 := fold_left (fun a m => upd (upd a (MatIndex (n + 1) m m) (D m)) (MatIndex (n + 1) m n) (H m)) (seq 0 n) j0).
  change (jac (fp_Jacobian n eos params s)) with (fold_left (fun a m => upd a (MatIndex (n + 1) n m) 1) (seq 0 n) j1).
  cbv zeta. clearbody D H.
  assert (forall N, (N <= n)%nat -> let J := fold_left (fun a m => upd (upd a (MatIndex (n + 1) m m) (D m)) (MatIndex (n + 1) m n) (H m)) (seq 0 N) j0 in
     (forall c, (c <= n)%nat -> J (n * (n + 1) + c)%nat = 0) /\
     (forall r, (r < n)%nat -> J (r * (n + 1) + n)%nat = if (r <? N)%nat then H r else 0) /\
     (forall r c, (r < n)%nat -> (c < n)%nat -> J (r * (n + 1) + c)%nat = if (r <? N)%nat && (c =? r)%nat then D r else 0)) as H1.
  { unfold MatIndex. induction N as [|N IH]; intros HN; cbv zeta.
    - cbn [seq fold_left]. unfold j0. split; [|split].
      + intros c Hc. apply map_n_lt. nia.
      + intros r Hr. cbn [Nat.ltb Nat.leb]. apply map_n_lt. nia.
      + intros r c Hr Hc. cbn [Nat.ltb Nat.leb andb]. apply map_n_lt. nia.
    - rewrite seq_S, fold_left_app. cbn [fold_left plus]. destruct (IH ltac:(lia)) as (I1 & I2 & I3).
      set (J0 := fold_left _ (seq 0 N) j0) in *. clearbody J0. split; [|split].
      + intros c Hc. rewrite !upd_other by nia. apply I1. exact Hc.
      + intros r Hr. destruct (Nat.eq_dec r N) as [->|HrN].
        * destruct (Nat.ltb_spec N (S N)); [|lia]. apply upd_same.
        * rewrite !upd_other by nia. rewrite I2 by exact Hr. destruct (Nat.ltb_spec r N), (Nat.ltb_spec r (S N)); try reflexivity; lia.
      + intros r c Hr Hc. destruct (Nat.eq_dec r N) as [->|HrN].
        * destruct (Nat.ltb_spec N (S N)); [|lia]. cbn [andb]. rewrite upd_other by lia. destruct (Nat.eqb_spec c N) as [->|Hne]; [apply upd_same|].
          rewrite upd_other by lia. rewrite I3 by assumption. destruct (Nat.ltb_spec N N); [lia|reflexivity].
        * rewrite !upd_other by nia. rewrite I3 by assumption. destruct (Nat.ltb_spec r N), (Nat.ltb_spec r (S N)); try reflexivity; lia. }
  destruct (H1 n ltac:(lia)) as (K1 & K2 & K3). fold j1 in K1, K2, K3. clearbody j1. clear H1.
  assert (forall N, (N <= n)%nat -> let J := fold_left (fun a m => upd a (MatIndex (n + 1) n m) 1) (seq 0 N) j1 in
     (forall c, (c < n)%nat -> J (n * (n + 1) + c)%nat = if (c <? N)%nat then 1 else 0) /\ J (n * (n + 1) + n)%nat = 0 /\
     (forall i, (i < n * (n + 1))%nat -> J i = j1 i)) as H2.
  { unfold MatIndex. induction N as [|N IH]; intros HN; cbv zeta.
    - cbn [seq fold_left]. split; [intros c Hc; cbn [Nat.ltb Nat.leb]; apply K1; lia|]. split; [apply K1; lia|reflexivity].
    - rewrite seq_S, fold_left_app. cbn [fold_left plus]. destruct (IH ltac:(lia)) as (I1 & I2 & I3).
      set (J0 := fold_left _ (seq 0 N) j1) in *. clearbody J0. split; [|split].
      + intros c Hc. destruct (Nat.eq_dec c N) as [->|E]; [rewrite upd_same; destruct (Nat.ltb_spec N (S N)); [reflexivity|lia]|].
        rewrite upd_other by lia. rewrite I1 by exact Hc. destruct (Nat.ltb_spec c N), (Nat.ltb_spec c (S N)); try reflexivity; lia.
      + rewrite upd_other by lia. exact I2.
      + intros i Hi. rewrite upd_other by lia. apply I3. exact Hi. }
  destruct (H2 n ltac:(lia)) as (M1 & M2 & M3). split; [|split; [exact M2|split]].
  - intros c Hc. rewrite M1 by exact Hc. destruct (Nat.ltb_spec c n); [reflexivity|lia].
  - intros r Hr. rewrite M3 by nia. rewrite K2 by exact Hr. destruct (Nat.ltb_spec r n); [reflexivity|lia].
  - intros r c Hr Hc. rewrite M3 by nia. rewrite K3 by assumption. destruct (Nat.ltb_spec r n); [reflexivity|lia].
Qed.
Lemma fp_rown s x : matvec (n + 1) (jac (fp_Jacobian n eos params s)) x n = rsum n x.
Proof.
  destruct (fp_jac_entries s) as (E1 & E2 & _). unfold matvec. replace (rsum (n + 1)) with (rsum (S n)) by (f_equal; lia). cbn [rsum].
  rewrite E2. rewrite (rsum_ext n _ x); [ring|]. intros j Hj. rewrite E1 by exact Hj. ring.
Qed.
Lemma fp_row s x r : (r < n)%nat -> matvec (n + 1) (jac (fp_Jacobian n eos params s)) x r =
  dpdv (fp_Jacobian n eos params s) r * x r + dpdT (fp_Jacobian n eos params s) r * x n.
Proof.
  intros Hr. destruct (fp_jac_entries s) as (_ & _ & E3 & E4). unfold matvec. replace (rsum (n + 1)) with (rsum (S n)) by (f_equal; lia). cbn [rsum].
  rewrite E3 by exact Hr. rewrite (rsum_single n _ r Hr).
  - rewrite E4 by assumption. rewrite Nat.eqb_refl. reflexivity.
  - intros m Hm Hne. rewrite E4 by assumption. destruct (Nat.eqb_spec m r); [contradiction|ring].
Qed.
Lemma fp_dpdv_neg s m : (m < n)%nat -> pte_max_dpdv params <> 0 -> dpdv (fp_Jacobian n eos params s) m < 0.
Proof.
  intros Hm Hp. unfold fp_Jacobian. cbn. rewrite mapm_lt by exact Hm. eapply Rle_lt_trans; [apply Rmin_r|].
  pose proof (Rabs_pos_lt _ Hp). lra.
Qed.
Lemma fp_nonsingular s : (0 < n)%nat -> pte_max_dpdv params <> 0 -> (forall m, (m < n)%nat -> 0 < dpdT (fp_Jacobian n eos params s) m) ->
  nonsingular (n + 1) (jac (fp_Jacobian n eos params s)).
Proof.
  intros Hn Hp HT x Hx. set (D := dpdv (fp_Jacobian n eos params s)) in *. set (H := dpdT (fp_Jacobian n eos params s)) in *.
  assert (forall m, (m < n)%nat -> D m < 0) as HD by (intros m Hm; apply fp_dpdv_neg; assumption).
  assert (forall m, (m < n)%nat -> x m = x n * (H m * - / D m)) as HX.
  { intros m Hm. pose proof (Hx m ltac:(lia)) as E. rewrite fp_row in E by exact Hm. fold D H in E. pose proof (HD m Hm).
    apply (Rmult_eq_reg_l (D m)); [|lra]. replace (D m * x m) with (- (H m * x n)) by lra. field. lra. }
  pose proof (Hx n ltac:(lia)) as E0. rewrite fp_rown in E0. rewrite (rsum_ext n x _ HX), rsum_scal in E0.
  assert (forall m, (m < n)%nat -> 0 < H m * - / D m) as HP.
  { intros m Hm. apply Rmult_lt_0_compat; [apply HT; exact Hm|]. pose proof (Rinv_lt_0_compat _ (HD m Hm)). lra. }
  assert (0 < rsum n (fun m => H m * - / D m)) as HS.
  { apply Rlt_le_trans with (1 := HP 0%nat Hn). apply (rsum_ge_term n (fun m => H m * - / D m) 0 Hn). intros m Hm. left. apply HP. exact Hm. }
  assert (x n = 0) as Exn by nra. intros j Hj. destruct (Nat.eq_dec j n) as [->|E]; [exact Exn|]. rewrite HX by lia. rewrite Exn. ring.
Qed.
Lemma fp_solve_sum s s2 : (2 <= n)%nat -> pte_max_dpdv params <> 0 -> exact_solver lin ->
  (forall m, (m < n)%nat -> 0 < dpdT (fp_Jacobian n eos params s) m) ->
  Solve lin (n + 1) (fp_Jacobian n eos params s) = (s2, true) -> rsum n (dx s2) = res s n.
Proof.
  intros Hn Hp HL HT E. pose proof (fp_nonsingular s ltac:(lia) Hp HT) as HA. unfold Solve in E.
  change (res (fp_Jacobian n eos params s)) with (res s) in E. change (dx (fp_Jacobian n eos params s)) with (dx s) in E.
  destruct (solve_Ax_b _ _ _ _) as [x ok] eqn:ES. inversion E; subst s2 ok. cbn [dx set_dx].
  pose proof (solve_exact lin (n + 1) _ _ x HL ltac:(lia) HA ES n ltac:(lia)) as H. rewrite fp_rown in H. rewrite H. apply map_n_lt. lia.
Qed.

(** ** the invariant *)
Variable rb : nat -> R.
Variable Tn P0 us : R.
Hypothesis Hrb : forall m, (m < n)%nat -> tiny <= rb m.
Hypothesis Hus : 1 / 100000000000000 <= us.
Hypothesis HTn : 0 < Tn.
Record fp_inv (s : pst) : Prop := {
  pi_rb : forall m, (m < n)%nat -> rhobar s m = rb m;
  pi_Tn : Tnorm s = Tn;
  pi_P : Peq s = P0;
  pi_us : uscale s = us;
  pi_T : 0 < Teq s;
  pi_temp : forall m, (m < n)%nat -> temp s m = Teq s;
  pi_vf : forall m, (m < n)%nat -> 0 < vfrac s m;
  pi_mass : forall m, (m < n)%nat -> tiny <= vfrac s m -> rho s m * vfrac s m = rb m;
  pi_rho : forall m, (m < n)%nat -> 0 < rho s m;
  pi_sie : forall m, (m < n)%nat -> sie s m = e_rt (eos m) (rho s m) (Tn * Teq s);
  pi_p : forall m, (m < n)%nat -> press s m * us = p_rt (eos m) (rho s m) (Tn * Teq s);
  pi_rn : res s n = vfrac_total - rsum n (vfrac s);
  pi_r : forall m, (m < n)%nat -> res s m = ratio P0 us - press s m
}.
Record fp_inv2 (s : pst) : Prop := {
  p2_inv : fp_inv s;
  p2_v : forall m, (m < n)%nat -> 0 < vtmp s m /\ 0 < vtmp s m + dx s m;
  p2_T : 0 < Ttmp s /\ 0 < Ttmp s + dx s n
}.
Lemma fp_us_tiny : tiny <= Rabs us.
Proof. rewrite Rabs_right by lra. pose proof tiny_e14. lra. Qed.
Lemma fp_residual s : Peq s = P0 -> uscale s = us -> res (fp_Residual n vfrac_total s) n = vfrac_total - rsum n (vfrac s) /\
  forall m, (m < n)%nat -> res (fp_Residual n vfrac_total s) m = ratio P0 us - press s m.
Proof.
  intros EP EU. unfold fp_Residual. cbn [res set_res]. rewrite EP, EU, sum_neumaier_id. split; [apply upd_same|].
  intros m Hm. rewrite upd_other by lia. apply mapm_lt. exact Hm.
Qed.
Lemma fp_test_core t s : 0 < t <= 1 -> (forall m, (m < n)%nat -> rhobar s m = rb m) -> Tnorm s = Tn -> Peq s = P0 -> uscale s = us ->
  (forall m, (m < n)%nat -> 0 < vtmp s m /\ 0 < vtmp s m + dx s m) -> 0 < Ttmp s -> 0 < Ttmp s + dx s n ->
  forall s' e, fp_TestUpdate n eos vfrac_total t false s = (s', e) -> fp_inv2 s' /\ vtmp s' = vtmp s /\ dx s' = dx s /\
    forall m, (m < n)%nat -> vfrac s' m = vtmp s m + t * dx s m.
Proof.
  intros Ht Erb ETn EP Eus Hv HT1 HT2 s' e E. unfold fp_TestUpdate in E. cbv zeta in E.
  match type of E with (?x, _) = _ => set (sR := x) in E end. inversion E; subst s'. clear E.
  pose proof fp_us_tiny as Hut.
  destruct (fp_residual (set_press (press sR) (set_vfrac (vfrac sR) s)) EP Eus) as [R1 R2].
  assert (forall m, (m < n)%nat -> vfrac sR m = vtmp s m + t * dx s m) as Ev by (intros m Hm; cbn; rewrite mapm_lt by exact Hm; reflexivity).
  split; [|split; [reflexivity|split; [reflexivity|exact Ev]]].
  constructor.
  - constructor.
    + exact Erb.
    + exact ETn.
    + exact EP.
    + exact Eus.
    + cbn. exact (convex_pos (Ttmp s) (dx s n) t HT1 HT2 ltac:(lra)).
    + intros m Hm. cbn. rewrite mapm_lt by exact Hm. reflexivity.
    + intros m Hm. rewrite Ev by exact Hm. apply convex_pos; [apply Hv; exact Hm|apply Hv; exact Hm|lra].
    + intros m Hm Htv. rewrite (Ev m Hm) in *. cbn. rewrite !mapm_lt by exact Hm. rewrite ratio_mul; [apply Erb; exact Hm|]. rewrite Rabs_right; [exact Htv|]. pose proof tiny_pos. lra.
    + intros m Hm. cbn. rewrite !mapm_lt by exact Hm. rewrite Erb by exact Hm. pose proof (Hrb m Hm). pose proof tiny_pos. apply ratio_pos_pos; [lra|]. apply Rlt_le. apply convex_pos; [apply Hv; exact Hm|apply Hv; exact Hm|lra].
    + intros m Hm. cbn. rewrite !mapm_lt by exact Hm. rewrite Erb by exact Hm. rewrite ETn.
      pose proof (Hrb m Hm). pose proof tiny_pos. rewrite (ratio_abs _ (rb m)) by (rewrite Rabs_right; lra). field. lra.
    + intros m Hm. cbn. rewrite !mapm_lt by exact Hm. rewrite Eus, ETn. rewrite ratio_mul by exact Hut. reflexivity.
    + exact R1.
    + intros m Hm. apply (R2 m Hm).
  - exact Hv.
  - split; assumption.
Qed.
Lemma fp_inv_dx x s : fp_inv s -> fp_inv (set_dx x s).
Proof. intros H. constructor; apply H. Qed.
Lemma fp_inv_jac s : fp_inv s -> fp_inv (fp_Jacobian n eos params s).
Proof. intros H. constructor; apply H. Qed.
Lemma fp_inv_solve k s s2 ok : fp_inv s -> Solve lin k (fp_Jacobian n eos params s) = (s2, ok) -> fp_inv s2.
Proof. intros H E. unfold Solve in E. destruct (solve_Ax_b _ _ _ _) as [x o]. inversion E; subst. apply fp_inv_dx, fp_inv_jac, H. Qed.

(** pressure strictly increasing with temperature at fixed density *)
Definition pressure_increases : Prop := forall m r T1 T2, (m < n)%nat -> 0 < r -> 0 < T1 < T2 -> p_rt (eos m) r T1 < p_rt (eos m) r T2.
Lemma fp_dpdT_pos s : fp_inv s -> 0 < derivative_eps params -> (forall m, (m < n)%nat -> pref_e (eos m) = false) -> pressure_increases ->
  forall m, (m < n)%nat -> 0 < dpdT (fp_Jacobian n eos params s) m.
Proof.
  intros H He Hp HI m Hm. unfold fp_Jacobian. cbn. rewrite mapm_lt by exact Hm.
  pose proof (pi_T _ H) as HT. assert (0 < Teq s * derivative_eps params) as HdT by (apply Rmult_lt_0_compat; assumption).
  apply ratio_pos_pos; [|lra]. unfold GetPressureFromPreferred. rewrite (Hp m Hm). rewrite (pi_Tn _ H), (pi_us _ H).
  pose proof fp_us_tiny as Hut. assert (0 < us) by lra.
  apply Rmult_lt_reg_r with us; [lra|]. rewrite Rmult_0_l, Rmult_minus_distr_r, ratio_mul, (pi_p _ H m Hm) by exact Hut.
  assert (0 < Tn * Teq s) by (apply Rmult_lt_0_compat; lra).
  pose proof (HI m (rho s m) (Tn * Teq s) (Tn * (Teq s + Teq s * derivative_eps params)) Hm (pi_rho _ H m Hm) ltac:(split; nra)). lra.
Qed.

Definition fp_I (b : bool) (s : pst) : Prop := fp_inv s /\ (b = true -> rsum n (vfrac s) = vfrac_total).
Definition fp_IJ (b ok : bool) (s : pst) : Prop := fp_I b s /\ (b = true -> ok = true -> rsum n (dx s) = 0).
Definition fp_IS (b : bool) (sc : R) (s : pst) : Prop := fp_I b s /\ (b = true -> rsum n (dx s) = 0) /\ (forall m, (m < n)%nat -> 0 < vfrac s m + dx s m) /\ 0 < Teq s + dx s n.
Definition fp_I2 (b : bool) (s : pst) : Prop := fp_inv2 s /\ (b = true -> rsum n (vfrac s) = vfrac_total /\ rsum n (vtmp s) = vfrac_total /\ rsum n (dx s) = 0).
(** the extra assumptions for the exact volume constraint *)
Definition fp_exact : Prop := (2 <= n)%nat /\ exact_solver lin /\ pte_max_dpdv params <> 0 /\ 0 < derivative_eps params /\
  (forall m, (m < n)%nat -> pref_e (eos m) = false) /\ pressure_increases.
Lemma fp_driver_inv b : 0 <= vfrac_safety_fac params < 1 -> (0 < n)%nat -> (b = true -> fp_exact) ->
  driver_invariant sys (fp_I b) (fp_IJ b) (fp_IS b) (fp_I2 b).
Proof.
  intros Hf Hn HB. constructor; cbn [sCheckPTE sJacobian sSolve sScaleDx sTestUpdate sFixup FixedP_system].
  - intros s s2 ok [H HS] _ E. pose proof (fp_inv_solve _ s s2 ok H E) as HH. split; [split; [exact HH|]|].
    + intros Hb. unfold Solve in E. destruct (solve_Ax_b _ _ _ _) as [x o]. inversion E; subst. apply HS. reflexivity.
    + intros Hb Hok. destruct (HB Hb) as (N2 & HL & HP & He & Hpe & HI). rewrite Hok in E.
      rewrite (fp_solve_sum s s2 N2 HP HL (fp_dpdT_pos s H He Hpe HI) E). rewrite (pi_rn _ H), (HS Hb). ring.
  - intros ok s [H _]. exact H.
  - intros s s3 sc [[H HS] HD] E.
    destruct (C36_FixedP_scaled_step_admissible s s3 sc Hf (pi_vf _ H) (pi_T _ H) E) as (_ & H1 & HT & H2 & _).
    assert (exists x, s3 = set_dx x s) as (x & ->) by (unfold fp_ScaleDx in E; inversion E; eauto).
    split; [split; [apply fp_inv_dx; exact H|exact HS]|]. split; [|split; [exact H1|exact HT]].
    intros Hb. rewrite (rsum_ext n _ (fun m => sc * dx s m)) by (intros m Hm; apply H2; lia). rewrite rsum_scal, (HD Hb eq_refl). ring.
  - intros sc s [H _]. exact H.
  - intros sc s s4 e ([H HS] & HD & Hv & HT) E.
    destruct (fp_test_core 1 (set_vtmp (mapm n (vfrac s) (vtmp s)) (set_Ttmp (Teq s) s)) ltac:(lra) (pi_rb _ H) (pi_Tn _ H) (pi_P _ H) (pi_us _ H)) with (s' := s4) (e := e) as (A & B & C & D).
    + intros m Hm. cbn [vtmp set_vtmp]. rewrite mapm_lt by exact Hm. split; [apply H; exact Hm|apply Hv; exact Hm].
    + apply (pi_T _ H).
    + exact HT.
    + exact E.
    + split; [exact A|]. intros Hb. cbn [vtmp set_vtmp dx] in B, C, D.
      assert (rsum n (vtmp s4) = vfrac_total) as Evt by (rewrite B, rsum_mapm; apply HS; exact Hb).
      assert (rsum n (dx s4) = 0) as Edx by (rewrite C; apply HD; exact Hb).
      split; [|split; assumption].
      rewrite (rsum_ext n (vfrac s4) (fun m => vtmp s4 m + 1 * dx s4 m)) by (intros m Hm; rewrite B, C; apply D; exact Hm).
      rewrite rsum_plus, rsum_scal, Evt, Edx. ring.
  - intros t s s4 e [[H Hv [HT1 HT2]] HS] Ht E.
    destruct (fp_test_core t s Ht (pi_rb _ H) (pi_Tn _ H) (pi_P _ H) (pi_us _ H) Hv HT1 HT2 s4 e E) as (A & B & C & D).
    split; [exact A|]. intros Hb. destruct (HS Hb) as (_ & S2 & S3). rewrite B, C. split; [|split; assumption].
    rewrite (rsum_ext n (vfrac s4) _ D), rsum_plus, rsum_scal, S2, S3. ring.
  - intros s [[H _ _] HS]. split; [exact H|]. intros Hb. apply HS. exact Hb.
  - auto.
Qed.
End FixedP.

(** ** End-to-end statements *)
Section EndToEndP.
Variable n : nat.
Variable eos : nat -> meos.
Variable vfrac_total : R.
Variable params : MixParams RArith.
Variable lin : nat -> (nat -> R) -> (nat -> R) -> (nat -> R).
Notation sys := (FixedP_system n eos vfrac_total params lin).

Lemma fp_init_inv s0 : good_input n eos vfrac_total params s0 -> exists Tn, 0 < Tn /\
  fp_inv n eos vfrac_total (fun m => rho s0 m * vfrac s0 m) Tn (Peq s0) (Rmax (Rabs (Peq s0)) (1 / 100000000000000)) (fst (fp_Init n eos vfrac_total params s0)) /\
  rsum n (vfrac (fst (fp_Init n eos vfrac_total params s0))) = vfrac_total.
Proof.
  intros G. set (us := Rmax (Rabs (Peq s0)) (1 / 100000000000000)).
  assert (1 / 100000000000000 <= us) as Hus by apply Rmax_r. pose proof (fp_us_tiny _ Hus) as Hut.
  unfold fp_Init. pose proof (initrho_ok n eos vfrac_total params s0 G) as HA. set (sA := InitRhoBarandRho n s0) in *.
  destruct (GetTguess n eos vfrac_total params sA) as [s1 Tg] eqn:EG.
  destruct (GetTguess_ok n eos vfrac_total params _ _ _ (gi_n _ _ _ _ _ G) (gi_vt _ _ _ _ _ G) (gi_Tl _ _ _ _ _ G) (gi_T _ _ _ _ _ G) _ (fun m T Hm => gi_cap _ _ _ _ _ G m T Hm) HA EG) as (H1 & H2 & H3).
  assert (Peq s1 = Peq s0) as EP by (apply H3).
  exists Tg. split; [exact H2|]. clear EG. cbv zeta. cbn [fst].
  change (Peq (set_Tnorm Tg s1)) with (Peq s1). rewrite EP. fold us.
  match goal with |- fp_inv _ _ _ _ _ _ _ ?x /\ _ => set (sR := x) end.
  split; [|cbn; apply H1].
  destruct (fp_residual n vfrac_total (Peq s0) us (set_press (press sR) (set_vfrac (vfrac sR) (set_uscale us s1))) EP eq_refl) as [R1 R2].
  assert (temp (set_temp (mapm n (fun _ => 1) (temp s1)) s1) 0%nat = 1) as ET by (cbn; apply mapm_lt; apply G).
  cbn in ET.
  constructor.
  - intros m Hm. apply (so_rb _ _ _ _ H1 m Hm).
  - reflexivity.
  - exact EP.
  - reflexivity.
  - cbn. rewrite ET. lra.
  - intros m Hm. cbn. rewrite ET. apply mapm_lt. exact Hm.
  - apply H1.
  - apply H1.
  - intros m Hm. apply (so_rho _ _ _ _ H1); [exact Hm|]. apply Rmult_lt_0_compat; [apply (gi_rho _ _ _ _ _ G m Hm)|apply (gi_vf _ _ _ _ _ G m Hm)].
  - intros m Hm. cbn. rewrite ET, Rmult_1_r. rewrite mapm_lt by exact Hm. reflexivity.
  - intros m Hm. cbn. rewrite ET, Rmult_1_r. rewrite !mapm_lt by exact Hm. apply ratio_mul. exact Hut.
  - exact R1.
  - intros m Hm. apply (R2 m Hm).
Qed.

Theorem C34_FixedP_returned_state : forall s0 st sf, good_input n eos vfrac_total params s0 ->
  0 <= vfrac_safety_fac params < 1 -> 0 < line_search_fac params <= 1 ->
  (forall m, (m < n)%nat -> tiny <= rho s0 m * vfrac s0 m) ->
  @PTESolver RArith pst ratio sys s0 = (st, sf) ->
  exists T, 0 < T /\ forall m, (m < n)%nat -> 0 < vfrac sf m /\ 0 < rho sf m /\ (tiny <= vfrac sf m -> rho sf m * vfrac sf m = rho s0 m * vfrac s0 m) /\
    temp sf m = T /\ sie sf m = e_rt (eos m) (rho sf m) T /\ press sf m = p_rt (eos m) (rho sf m) T.
Proof.
  intros s0 st sf G P1 P2 Hm0 E. destruct (fp_init_inv s0 G) as (Tn & HTn & H0 & H1).
  set (us := Rmax (Rabs (Peq s0)) (1 / 100000000000000)) in *. assert (1 / 100000000000000 <= us) as Hus by apply Rmax_r.
  pose proof (fp_driver_inv n eos vfrac_total params lin _ Tn (Peq s0) us Hm0 Hus HTn false P1 (gi_n _ _ _ _ _ G) ltac:(discriminate)) as HD.
  destruct (C35_invariant_principle sys _ _ _ _ HD P2 s0) as (s' & [H' _] & E').
  { split; [exact H0|discriminate]. }
  rewrite E in E'. cbn [snd sFinalize FixedP_system] in E'. subst sf.
  exists (Tn * Teq s'). split; [apply Rmult_lt_0_compat; [exact HTn|apply (pi_T _ _ _ _ _ _ _ _ H')]|].
  intros m Hm. cbn. rewrite !mapm_lt by exact Hm.
  split; [apply (pi_vf _ _ _ _ _ _ _ _ H' m Hm)|]. split; [apply (pi_rho _ _ _ _ _ _ _ _ H' m Hm)|]. split; [apply (pi_mass _ _ _ _ _ _ _ _ H' m Hm)|]. split; [|split].
  - rewrite (pi_Tn _ _ _ _ _ _ _ _ H'), (pi_temp _ _ _ _ _ _ _ _ H' m Hm). ring.
  - apply (pi_sie _ _ _ _ _ _ _ _ H' m Hm).
  - rewrite (pi_us _ _ _ _ _ _ _ _ H'). apply (pi_p _ _ _ _ _ _ _ _ H' m Hm).
Qed.

Theorem C46_FixedP_volumes_sum : forall s0 st sf, good_input n eos vfrac_total params s0 ->
  0 <= vfrac_safety_fac params < 1 -> 0 < line_search_fac params <= 1 -> (2 <= n)%nat -> exact_solver lin ->
  pte_max_dpdv params <> 0 -> 0 < derivative_eps params -> (forall m, (m < n)%nat -> pref_e (eos m) = false) -> pressure_increases n eos ->
  (forall m, (m < n)%nat -> tiny <= rho s0 m * vfrac s0 m) ->
  @PTESolver RArith pst ratio sys s0 = (st, sf) -> rsum n (vfrac sf) = vfrac_total.
Proof.
  intros s0 st sf G P1 P2 N2 HL HP He Hpe HI Hm0 E. destruct (fp_init_inv s0 G) as (Tn & HTn & H0 & H1).
  set (us := Rmax (Rabs (Peq s0)) (1 / 100000000000000)) in *. assert (1 / 100000000000000 <= us) as Hus by apply Rmax_r.
  assert (fp_exact n eos params lin) as HX by (repeat split; assumption).
  pose proof (fp_driver_inv n eos vfrac_total params lin _ Tn (Peq s0) us Hm0 Hus HTn true P1 (gi_n _ _ _ _ _ G) (fun _ => HX)) as HD.
  destruct (C35_invariant_principle sys _ _ _ _ HD P2 s0) as (s' & [H' HS] & E').
  { split; [exact H0|intros _; exact H1]. }
  rewrite E in E'. cbn [snd sFinalize FixedP_system] in E'. subst sf. cbn. apply HS. reflexivity.
Qed.

(** converged, not slow: every material is at the requested pressure within the larger of the two pressure tolerances
    -- read as absolute pressures, including the one named "relative" -- and the volume constraint holds *)
Theorem C37_FixedP_converged_means_equilibrium : forall s0 st sf, good_input n eos vfrac_total params s0 ->
  0 <= vfrac_safety_fac params < 1 -> 0 < line_search_fac params <= 1 ->
  (forall m, (m < n)%nat -> tiny <= rho s0 m * vfrac s0 m) ->
  @PTESolver RArith pst ratio sys s0 = (st, sf) -> converged st = true -> slow_convergence_detected st = false ->
  Rabs (vfrac_total - rsum n (vfrac sf)) < pte_rel_tolerance_v params /\
  forall m, (m < n)%nat -> Rabs (press sf m - Peq s0) < Rmax (pte_rel_tolerance_p params) (pte_abs_tolerance_p params).
Proof.
  intros s0 st sf G P1 P2 Hm0 E HC HS. destruct (fp_init_inv s0 G) as (Tn & HTn & H0 & H1).
  set (us := Rmax (Rabs (Peq s0)) (1 / 100000000000000)) in *. assert (1 / 100000000000000 <= us) as Hus by apply Rmax_r.
  pose proof (fp_driver_inv n eos vfrac_total params lin _ Tn (Peq s0) us Hm0 Hus HTn false P1 (gi_n _ _ _ _ _ G) ltac:(discriminate)) as HD.
  destruct (C35_converged_invariant sys _ _ _ _ HD P2 s0 st sf) as (s' & [H' _] & HK & E'); [split; [exact H0|discriminate]|exact E|exact HC|exact HS|].
  cbn [sCheckPTE sFinalize sFixup FixedP_system] in HK, E'.
  assert (0 < us) as Hup by lra. pose proof (fp_us_tiny _ Hus) as Hut.
  unfold fp_CheckPTE in HK. cbn [fst] in HK. apply andb_true_iff in HK. destruct HK as [HKp HKv]. subst sf.
  split. { cbn. rewrite <- (pi_rn _ _ _ _ _ _ _ _ H'). revert HKv. case Rlt_bool_spec; [auto|discriminate]. }
  intros m Hm. cbn. rewrite mapm_lt by exact Hm. rewrite (pi_us _ _ _ _ _ _ _ _ H') in *.
  set (ep := sqrt _) in HKp.
  assert (ep * us < Rmax (pte_rel_tolerance_p params) (pte_abs_tolerance_p params)) as Hep.
  { apply orb_true_iff in HKp. destruct HKp as [H|H]; revert H; (case Rlt_bool_spec; [|discriminate]); intros H _.
    - eapply Rlt_le_trans; [exact H|apply Rmax_l].
    - eapply Rlt_le_trans; [exact H|apply Rmax_r]. }
  assert (press s' m * us - Peq s0 = - (res s' m * us)) as ->.
  { rewrite (pi_r _ _ _ _ _ _ _ _ H' m Hm). rewrite Rmult_minus_distr_r, ratio_mul by exact Hut. ring. }
  rewrite Rabs_Ropp, Rabs_mult, (Rabs_right us) by lra. apply Rle_lt_trans with (2 := Hep). apply Rmult_le_compat_r; [lra|].
  unfold ep. rewrite <- (sqrt_Rsqr_abs (res s' m)). apply sqrt_le_1_alt.
  apply (rsum_ge_term n (fun m => res s' m * res s' m) m Hm). intros k _. nra.
Qed.
End EndToEndP.

(** ** The hypotheses are met *)
Example C34_ex_FixedP : forall n, (0 < n)%nat -> INR n <= 2 ^ 900 ->
  good_input n weos 1 wpar (wst n) /\ 0 <= vfrac_safety_fac wpar < 1 /\ 0 < line_search_fac wpar <= 1 /\
  exact_solver gauss /\ pte_max_dpdv wpar <> 0 /\ 0 < derivative_eps wpar /\ (forall m, (m < n)%nat -> pref_e (weos m) = false) /\ pressure_increases n weos /\
  (forall m, (m < n)%nat -> tiny <= rho (wst n) m * vfrac (wst n) m).
Proof.
  intros n Hn HB. split; [exact (good_input_witness n Hn HB)|]. split; [exact wsafe|]. split; [exact wfac|].
  split; [exact gauss_exact|]. split; [cbn; lra|]. split; [cbn; lra|]. split; [intros [|[|m]] _; reflexivity|]. split.
  { intros m r T1 T2 _ Hr HT. destruct (weos_form m) as (g & c & -> & Hg & Hc). cbn. apply Rmult_lt_compat_l; [|lra].
    apply Rmult_lt_0_compat; [apply Rmult_lt_0_compat; lra|lra]. }
  intros m _. cbn [rho vfrac wst]. pose proof (tiny_frac n Hn HB). assert (0 < INR n) by (apply lt_0_INR; lia).
  apply Rle_trans with (1 * / INR n); [lra|]. apply Rmult_le_compat_r; [apply Rlt_le, Rinv_0_lt_compat; assumption|]. rewrite S_INR. pose proof (pos_INR m). lra.
Qed.
Print Assumptions C36_FixedP_scaled_step_admissible.
Print Assumptions C34_FixedP_returned_state.
Print Assumptions C46_FixedP_volumes_sum.
Print Assumptions C37_FixedP_converged_means_equilibrium.
