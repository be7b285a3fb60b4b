(** C34/C36/C37/C46 for PTESolverFixedT, end to end through the driver *)
From Coq Require Import ZArith Reals Bool List Lia Lra.
From Flocq Require Import Core.
From Verif Require Import Arith Robust_Model Robust_Proofs Thermo_Spec Thermo_Tools PTE_Driver_Model PTE_Driver_Props PTE_Model PTE_Tools PTE_Base_Props PTE_Init PTE_Tools2 PTE_Witness.
Import ListNotations.
Local Open Scope R_scope.

Section FixedT.
Variable n : nat.
Variable eos : nat -> meos.
Variable vfrac_total sie_total : R.
Variable params : MixParams RArith.
Variable lin : nat -> (nat -> R) -> (nat -> R) -> (nat -> R).
Notation sys := (FixedT_system n eos vfrac_total params lin).

(** ** ScaleDx *)
Lemma vscale_ok f s : 0 <= f -> (forall m, (m < n)%nat -> 0 < vfrac s m) ->
  forall sc0, 0 <= sc0 -> let sc := fold_left (vfrac_scale f s) (seq 0 n) sc0 in
  0 <= sc <= sc0 /\ forall m, (m < n)%nat -> - f * vfrac s m <= sc * dx s m.
Proof.
  intros Hf Hv. apply (fold_scale (fun m sc => - f * vfrac s m <= sc * dx s m)).
  - intros m sc Hm Hs. unfold vfrac_scale. case Rlt_bool_spec; intros Hc; [|split; lra].
    destruct (clip_low f (vfrac s m) (dx s m) sc Hf (Hv m Hm) Hs Hc) as [A B]. split; assumption.
  - intros m sc sc' Hm HP Hs. pose proof (Hv m Hm). assert (0 <= f * vfrac s m) by (apply Rmult_le_pos; lra).
    destruct (Rle_lt_dec 0 (dx s m)); [assert (0 <= sc' * dx s m) by (apply Rmult_le_pos; lra); lra|]. nra.
Qed.
(** the density clip: for a material not already too expanded, at most half the way to its largest volume fraction *)
Lemma dscale_ok s : forall sc0, 0 <= sc0 -> let sc := fold_left (ft_scale2 eos s) (seq 0 n) sc0 in
  0 <= sc <= sc0 /\ forall m, (m < n)%nat -> vfrac s m <= ratio (rhobar s m) (RhoPmin (eos m) (Teq s)) ->
    sc * dx s m <= 1 / 2 * (ratio (rhobar s m) (RhoPmin (eos m) (Teq s)) - vfrac s m).
Proof.
  apply (fold_scale (fun m sc => vfrac s m <= ratio (rhobar s m) (RhoPmin (eos m) (Teq s)) ->
    sc * dx s m <= 1 / 2 * (ratio (rhobar s m) (RhoPmin (eos m) (Teq s)) - vfrac s m))).
  - intros m sc Hm Hs. unfold ft_scale2. set (am := ratio (rhobar s m) (RhoPmin (eos m) (Teq s))).
    case Rlt_bool_spec; intros Ha; [split; [lra|intros; lra]|].
    case Rlt_bool_spec; intros Hc; [|split; [lra|intros; lra]].
    destruct (clip_high (1 / 2 * (am - vfrac s m)) (dx s m) sc ltac:(lra) Hs Hc) as [A B]. split; [exact A|intros; lra].
  - intros m sc sc' Hm HP Hs Ha. specialize (HP Ha).
    destruct (Rle_lt_dec 0 (dx s m)); nra.
Qed.

Theorem C36_FixedT_scaled_step_admissible : forall s s' sc, 0 <= vfrac_safety_fac params < 1 ->
  (forall m, (m < n)%nat -> 0 < vfrac s m) -> ft_ScaleDx n eos params s = (s', sc) ->
  0 <= sc <= 1 /\ (forall m, (m < n)%nat -> 0 < vfrac s m + dx s' m) /\ (forall m, (m < n)%nat -> dx s' m = sc * dx s m) /\
  (forall m t, (m < n)%nat -> vfrac s m <= ratio (rhobar s m) (RhoPmin (eos m) (Teq s)) -> 0 <= t <= 1 ->
     vfrac s m + t * dx s' m <= ratio (rhobar s m) (RhoPmin (eos m) (Teq s))).
Proof.
  intros s s' sc Hf Hv E. unfold ft_ScaleDx in E.
  destruct (vscale_ok (vfrac_safety_fac params) s ltac:(lra) Hv 1 ltac:(lra)) as [A1 A2].
  set (sc1 := fold_left (vfrac_scale _ s) (seq 0 n) 1) in *. clearbody sc1.
  destruct (dscale_ok s sc1 ltac:(lra)) as [B1 B2]. set (sc2 := fold_left (ft_scale2 eos s) (seq 0 n) sc1) in *. clearbody sc2.
  inversion E; subst s' sc; clear E.
  assert (forall m, (m < n)%nat -> dx (set_dx (map_n n (fun i => dx s i * sc2) (dx s)) s) m = sc2 * dx s m) as HD.
  { intros m Hm. cbn. rewrite map_n_lt by exact Hm. ring. }
  split; [lra|]. split; [|split; [exact HD|]].
  - intros m Hm. rewrite HD by exact Hm. pose proof (A2 m Hm). pose proof (Hv m Hm).
    assert (0 <= vfrac_safety_fac params * vfrac s m) by (apply Rmult_le_pos; lra).
    assert (- vfrac_safety_fac params * vfrac s m <= sc2 * dx s m) by (destruct (Rle_lt_dec 0 (dx s m)); [assert (0 <= sc2 * dx s m) by (apply Rmult_le_pos; lra); lra|]; nra).
    nra.
  - intros m t Hm Ha Ht. rewrite HD by exact Hm. pose proof (B2 m Hm Ha).
    destruct (Rle_lt_dec 0 (dx s m)); [assert (t * (sc2 * dx s m) <= sc2 * dx s m) by (assert (0 <= sc2 * dx s m) by (apply Rmult_le_pos; lra); nra); lra|].
    assert (t * (sc2 * dx s m) <= 0) by (assert (sc2 * dx s m <= 0) by nra; nra). lra.
Qed.

(** ** the Newton matrix *)
Lemma ft_jac_entries s : (0 < n)%nat -> forall c, (c < n)%nat ->
  let J := jac (ft_Jacobian n eos params s) in let D := dpdv (ft_Jacobian n eos params s) in
  J c = 1 /\ forall r, (r < n - 1)%nat -> J ((r + 1) * n + c)%nat = if (c =? r)%nat then - D r else if (c =? r + 1)%nat then D (r + 1)%nat else 0.
Proof.
  intros Hn. set (D := dpdv (ft_Jacobian n eos params s)).
  set (j0 := map_n n (fun _ => 1) (map_n (n * n) (fun _ => 0) (jac s))).
  change (jac (ft_Jacobian n eos params s)) with (fold_left (fun a m => upd (upd a (MatIndex n (m + 1) m) (- D m)) (MatIndex n (m + 1) (m + 1)) (D (m + 1)%nat)) (seq 0 (n - 1)) j0).
  clearbody D.
  assert (forall N, (N <= n - 1)%nat -> let J := fold_left (fun a m => upd (upd a (MatIndex n (m + 1) m) (- D m)) (MatIndex n (m + 1) (m + 1)) (D (m + 1)%nat)) (seq 0 N) j0 in
     forall c, (c < n)%nat -> J c = 1 /\ forall r, (r < n - 1)%nat -> J ((r + 1) * n + c)%nat =
       if (r <? N)%nat then (if (c =? r)%nat then - D r else if (c =? r + 1)%nat then D (r + 1)%nat else 0) else 0) as H.
  { induction N as [|N IH]; intros HN J c Hc.
    - unfold J. cbn [seq fold_left]. unfold j0. split; [apply map_n_lt; exact Hc|].
      intros r Hr. destruct (Nat.ltb_spec r 0); [lia|]. rewrite map_n_ge by nia. apply map_n_lt. nia.
    - unfold J. rewrite seq_S, fold_left_app. cbn [fold_left plus]. destruct (IH ltac:(lia) c Hc) as [I1 I2].
      set (J0 := fold_left _ (seq 0 N) j0) in *. clearbody J0. clear J. unfold MatIndex. split.
      + rewrite !upd_other by nia. exact I1.
      + intros r Hr. destruct (Nat.eq_dec r N) as [->|HrN].
        * destruct (Nat.ltb_spec N (S N)); [|lia]. destruct (Nat.eqb_spec c N) as [->|Hc1].
          -- rewrite upd_other by lia. apply upd_same.
          -- destruct (Nat.eqb_spec c (N + 1)) as [->|Hc2]; [apply upd_same|].
             rewrite !upd_other by lia. rewrite I2 by lia. destruct (Nat.ltb_spec N N); [lia|reflexivity].
        * rewrite !upd_other by nia. rewrite I2 by lia.
          destruct (Nat.ltb_spec r N), (Nat.ltb_spec r (S N)); try reflexivity; lia. }
  intros c Hc. destruct (H (n - 1)%nat ltac:(lia) c Hc) as [H1 H2]. split; [exact H1|]. intros r Hr. rewrite H2 by exact Hr.
  destruct (Nat.ltb_spec r (n - 1)); [reflexivity|lia].
Qed.
Lemma ft_dpdv_neg s m : (m < n)%nat -> pte_max_dpdv params <> 0 -> dpdv (ft_Jacobian n eos params s) m < 0.
Proof.
  intros Hm Hp. unfold ft_Jacobian. cbn. rewrite mapm_lt by exact Hm. eapply Rle_lt_trans; [apply Rmin_r|].
  pose proof (Rabs_pos_lt _ Hp). lra.
Qed.
Lemma rsum_two N f a b : (a < N)%nat -> (b < N)%nat -> a <> b -> (forall k, (k < N)%nat -> k <> a -> k <> b -> f k = 0) -> rsum N f = f a + f b.
Proof.
  intros Ha Hb Hab H. rewrite (rsum_split N f a Ha). f_equal.
  rewrite (rsum_single N _ b Hb); [destruct (Nat.eqb_spec b a); [congruence|reflexivity]|].
  intros k Hk Hkb. destruct (Nat.eqb_spec k a); [reflexivity|apply H; assumption].
Qed.
Lemma ft_row0 s x : (0 < n)%nat -> matvec n (jac (ft_Jacobian n eos params s)) x 0 = rsum n x.
Proof.
  intros Hn. unfold matvec. apply rsum_ext. intros j Hj. rewrite Nat.mul_0_l, Nat.add_0_l.
  destruct (ft_jac_entries s Hn j Hj) as [-> _]. ring.
Qed.
Lemma ft_rowS s x r : (0 < n)%nat -> (r < n - 1)%nat -> let D := dpdv (ft_Jacobian n eos params s) in
  matvec n (jac (ft_Jacobian n eos params s)) x (r + 1) = D (r + 1)%nat * x (r + 1)%nat - D r * x r.
Proof.
  intros Hn Hr. cbv zeta. unfold matvec. rewrite (rsum_two n _ r (r + 1)%nat); [|lia|lia|lia|].
  2: { intros k Hk H1 H2. destruct (ft_jac_entries s Hn k Hk) as [_ E]. rewrite E by exact Hr.
       destruct (Nat.eqb_spec k r); [lia|]. destruct (Nat.eqb_spec k (r + 1)); [lia|]. ring. }
  destruct (ft_jac_entries s Hn r ltac:(lia)) as [_ E1]. destruct (ft_jac_entries s Hn (r + 1)%nat ltac:(lia)) as [_ E2].
  rewrite E1, E2 by exact Hr. rewrite Nat.eqb_refl. destruct (Nat.eqb_spec (r + 1) r); [lia|]. rewrite Nat.eqb_refl. ring.
Qed.
(** the matrix is nonsingular whatever the equations of state return *)
Theorem C46_FixedT_newton_matrix_nonsingular : forall s, (0 < n)%nat -> pte_max_dpdv params <> 0 ->
  nonsingular n (jac (ft_Jacobian n eos params s)).
Proof.
  intros s Hn Hp x Hx. set (D := dpdv (ft_Jacobian n eos params s)).
  assert (forall m, (m < n)%nat -> D m < 0) as HD by (intros m Hm; apply ft_dpdv_neg; assumption).
  assert (forall m, (m < n)%nat -> D m * x m = D 0%nat * x 0%nat) as HE.
  { induction m as [|m IH]; intros Hm; [reflexivity|]. rewrite <- IH by lia.
    pose proof (Hx (m + 1)%nat ltac:(lia)) as H. rewrite ft_rowS in H by lia. fold D in H. replace (m + 1)%nat with (S m) in H by lia. lra. }
  set (c := D 0%nat * x 0%nat) in *. clearbody c.
  assert (forall m, (m < n)%nat -> x m = c * / D m) as HX.
  { intros m Hm. pose proof (HD m Hm). rewrite <- (HE m Hm). field. lra. }
  pose proof (Hx 0%nat Hn) as H0. rewrite ft_row0 in H0 by exact Hn. rewrite (rsum_ext n x (fun m => c * / D m) HX), rsum_scal in H0.
  assert (0 < rsum n (fun m => - / D m)) as HS.
  { apply Rlt_le_trans with (- / D 0%nat).
    - pose proof (Rinv_lt_0_compat _ (HD 0%nat Hn)). lra.
    - apply (rsum_ge_term n (fun m => - / D m) 0 Hn). intros m Hm. pose proof (Rinv_lt_0_compat _ (HD m Hm)). lra. }
  assert (rsum n (fun m => - / D m) = - rsum n (fun m => / D m)) as HN.
  { rewrite (rsum_ext n _ (fun m => -1 * / D m)) by (intros; ring). rewrite rsum_scal. ring. }
  assert (c = 0) by nra. subst c. intros j Hj. rewrite HX by exact Hj. ring.
Qed.
(** with an exact linear solver the Newton step has Sum(dalpha) = vfrac_total - Sum(alpha) *)
Lemma ft_solve_sum s s2 : (0 < n)%nat -> pte_max_dpdv params <> 0 -> exact_solver lin ->
  Solve lin n (ft_Jacobian n eos params s) = (s2, true) -> rsum n (dx s2) = res s 0%nat.
Proof.
  intros Hn Hp HL E. pose proof (C46_FixedT_newton_matrix_nonsingular s Hn Hp) as HA.
  unfold Solve in E. set (J := jac (ft_Jacobian n eos params s)) in *.
  change (res (ft_Jacobian n eos params s)) with (res s) in E. change (dx (ft_Jacobian n eos params s)) with (dx s) in E.
  set (b := map_n n (res s) (dx s)) in *.
  destruct (solve_Ax_b lin n J b) as [x ok] eqn:ES. inversion E; subst s2 ok. cbn [dx set_dx].
  assert (b 0%nat = res s 0%nat) as Eb by (apply map_n_lt; exact Hn).
  destruct (le_lt_dec 3 n) as [H3|H3].
  { rewrite <- Eb, <- (solve_exact lin n J b x HL H3 HA ES 0%nat Hn). symmetry. apply ft_row0. exact Hn. }
  pose proof (solve_rows _ _ _ _ _ ES) as HR.
  destruct (ft_jac_entries s Hn 0%nat Hn) as [J0 _]. fold J in J0.
  assert (rowmax n J 0 = 1) as R0.
  { apply Rle_antisym.
    - destruct (rowmax_att n J 0) as [->|(c & Hc & ->)]; [lra|]. rewrite Nat.mul_0_l, Nat.add_0_l.
      destruct (ft_jac_entries s Hn c Hc) as [H _]. fold J in H. rewrite H, Rabs_R1. lra.
    - pose proof (rowmax_ge n J 0 0 Hn) as H. rewrite Nat.mul_0_l, Nat.add_0_l, J0, Rabs_R1 in H. exact H. }
  unfold solve_Ax_b in ES. destruct (existsb _ _); [discriminate|]. clear E.
  pose proof tiny_pos as HT. pose proof tiny_lt_1 as HT1.
  pose proof (ft_jac_entries s Hn) as HJE. cbv zeta in HJE. fold J in HJE.
  set (D := dpdv (ft_Jacobian n eos params s)) in *.
  assert (forall m, (m < n)%nat -> D m < 0) as HDn by (intros m Hm; apply ft_dpdv_neg; assumption).
  clearbody D. clearbody b. clearbody J.
  assert (n = 1 \/ n = 2)%nat as [N|N] by lia; rewrite N in *; cbn [Nat.eqb] in ES.
  - inversion ES; subst x. cbn [rsum]. rewrite upd_same, Rplus_0_l. rewrite !map_n_lt by lia. cbn [Nat.div fst Nat.divmod].
    replace (0 / 1)%nat with 0%nat by reflexivity. rewrite J0, R0, Eb. unfold Rdiv. rewrite Rinv_1, !Rmult_1_r.
    rewrite <- (Rmult_1_r (ratio _ _)). rewrite ratio_mul by (rewrite Rabs_R1; lra). reflexivity.
  - destruct (HJE 1%nat ltac:(lia)) as [J1 J3]. specialize (J3 0%nat ltac:(lia)).
    destruct (HJE 0%nat ltac:(lia)) as [_ J2]. specialize (J2 0%nat ltac:(lia)).
    cbn [Nat.eqb Nat.add Nat.mul] in J2, J3.
    assert (D 0%nat < 0 /\ D 1%nat < 0) as [D0 D1] by (split; apply HDn; lia).
    set (M := rowmax 2 J 1) in *. assert (0 < M) as HM by (apply HR; lia).
    assert (M <= Rmax (- D 0%nat) (- D 1%nat)) as HM2.
    { unfold M. destruct (rowmax_att 2 J 1) as [->|(c & Hc & ->)].
      - eapply Rle_trans; [|apply Rmax_l]. lra.
      - assert (c = 0 \/ c = 1)%nat as [-> | ->] by lia; cbn [Nat.mul Nat.add].
        + rewrite J2, Rabs_Ropp, Rabs_left by lra. apply Rmax_l.
        + rewrite J3, Rabs_left by lra. apply Rmax_r. }
    inversion ES; subst x. cbn [rsum].
    assert (forall k, (k < 4)%nat -> map_n (2 * 2) (fun k => J k / rowmax 2 J (k / 2)) J k = J k / (if (k <? 2)%nat then 1 else M)) as EA.
    { intros k Hk. rewrite map_n_lt by lia. f_equal. assert (k = 0 \/ k = 1 \/ k = 2 \/ k = 3)%nat as [-> | [-> | [-> | ->]]] by lia; cbn [Nat.ltb Nat.leb].
      - change (0 / 2)%nat with 0%nat. exact R0.
      - change (1 / 2)%nat with 0%nat. exact R0.
      - reflexivity.
      - reflexivity. }
    rewrite !EA by lia. cbn [Nat.ltb Nat.leb].
    rewrite upd_other by lia. rewrite !upd_same. rewrite J0, J1, J2, J3. rewrite !(map_n_lt 2) by lia. rewrite R0. fold M. rewrite Eb.
    set (det := 1 / 1 * (D 1%nat / M) - 1 / 1 * (- D 0%nat / M)).
    assert (det = - ((- D 0%nat) + (- D 1%nat)) / M) as Ed by (unfold det; field; lra).
    assert (tiny <= Rabs det) as Hdet.
    { rewrite Ed. unfold Rdiv. rewrite Rabs_mult, Rabs_Ropp, (Rabs_right (- D 0%nat + - D 1%nat)), (Rabs_right (/ M)) by (try (left; apply Rinv_0_lt_compat; lra); lra).
      apply Rle_trans with 1; [lra|]. apply Rmult_le_reg_r with M; [lra|]. rewrite Rmult_assoc, Rinv_l by lra.
      eapply Rle_trans; [rewrite Rmult_1_l; exact HM2|]. apply Rmax_case; lra. }
    clearbody det.
    rewrite !ratio_abs by exact Hdet. assert (det <> 0) by (intros ->; rewrite Rabs_R0 in Hdet; lra).
    apply (Rmult_eq_reg_r det); [|assumption]. 
    match goal with |- (0 + ?a / det + ?b / det) * det = ?r * det => replace ((0 + a / det + b / det) * det) with (a + b) by (generalize a b; intros; field; assumption) end.
    rewrite Ed. field. lra.
Qed.

(** ** the invariant *)
Variable rb : nat -> R.
Variable T0 us : R.
Variable tarr : nat -> R.
Hypothesis Hrb : forall m, (m < n)%nat -> tiny <= rb m.
Hypothesis Hus : 1 / 100000000000000 <= us.
Record ft_inv (s : pst) : Prop := {
  fi_rb : forall m, (m < n)%nat -> rhobar s m = rb m;
  fi_Tn : Tnorm s = 1;
  fi_T : Teq s = T0;
  fi_us : uscale s = us;
  fi_temp : forall m, (m < n)%nat -> temp s m = tarr m;
  fi_vf : forall m, (m < n)%nat -> 0 < vfrac s m;
  fi_mass : forall m, (m < n)%nat -> tiny <= vfrac s m -> rho s m * vfrac s m = rb m;
  fi_rho : forall m, (m < n)%nat -> 0 < rho s m;
  fi_sie : forall m, (m < n)%nat -> sie s m = e_rt (eos m) (rho s m) T0;
  fi_u : forall m, (m < n)%nat -> u s m * us = rb m * sie s m;
  fi_p : forall m, (m < n)%nat -> press s m * us = p_rt (eos m) (rho s m) T0;
  fi_r0 : res s 0%nat = vfrac_total - rsum n (vfrac s);
  fi_r : forall m, (S m < n)%nat -> res s (S m) = press s m - press s (S m)
}.
Record ft_inv2 (s : pst) : Prop := {
  f2_inv : ft_inv s;
  f2_v : forall m, (m < n)%nat -> 0 < vtmp s m /\ 0 < vtmp s m + dx s m
}.
Lemma ft_us_tiny : tiny <= Rabs us.
Proof. rewrite Rabs_right by lra. pose proof tiny_e14. lra. Qed.
Lemma ft_residual s : res (ft_Residual n vfrac_total s) 0%nat = vfrac_total - rsum n (vfrac s) /\
  forall m, (S m < n)%nat -> res (ft_Residual n vfrac_total s) (S m) = press s m - press s (S m).
Proof.
  unfold ft_Residual. cbn [res set_res]. set (r0 := upd (res s) 0 _).
  assert (forall N, let r := fold_left (fun r m => upd r (1 + m) (press s m - press s (m + 1)%nat)) (seq 0 N) r0 in
    r 0%nat = r0 0%nat /\ forall m, (m < N)%nat -> r (S m) = press s m - press s (S m)) as H.
  { induction N as [|N IH]; cbv zeta; [split; [reflexivity|intros; lia]|]. rewrite seq_S, fold_left_app. cbn [fold_left plus].
    destruct IH as [I1 I2]. split; [rewrite upd_other by lia; exact I1|]. intros m Hm.
    destruct (Nat.eq_dec m N) as [->|E]; [rewrite upd_same; replace (N + 1)%nat with (S N) by lia; reflexivity|].
    rewrite upd_other by lia. apply I2. lia. }
  destruct (H (n - 1)%nat) as [H1 H2]. split.
  - rewrite H1. unfold r0. rewrite upd_same, sum_neumaier_id. reflexivity.
  - intros m Hm. apply H2. lia.
Qed.
Lemma ft_test_core t s : 0 < t <= 1 -> (forall m, (m < n)%nat -> rhobar s m = rb m) -> Tnorm s = 1 -> Teq s = T0 -> uscale s = us ->
  (forall m, (m < n)%nat -> temp s m = tarr m) -> (forall m, (m < n)%nat -> 0 < vtmp s m /\ 0 < vtmp s m + dx s m) ->
  forall s' e, ft_TestUpdate n eos vfrac_total t false s = (s', e) -> ft_inv2 s' /\ vtmp s' = vtmp s /\ dx s' = dx s /\
    forall m, (m < n)%nat -> vfrac s' m = vtmp s m + t * dx s m.
Proof.
  intros Ht Erb ETn ET Eus Etm Hv s' e E. unfold ft_TestUpdate in E. cbv zeta in E.
  match type of E with (?x, _) = _ => set (sR := x) in E end. inversion E; subst s'. clear E.
  pose proof ft_us_tiny as Hut.
  destruct (ft_residual (set_press (press sR) (set_vfrac (vfrac sR) s))) as [R1 R2].
  assert (forall m, (m < n)%nat -> vfrac sR m = vtmp s m + t * dx s m) as Ev by (intros m Hm; cbn; rewrite mapm_lt by exact Hm; reflexivity).
  split; [|split; [reflexivity|split; [reflexivity|exact Ev]]].
  constructor.
  - constructor.
    + exact Erb.
    + exact ETn.
    + exact ET.
    + exact Eus.
    + exact Etm.
    + intros m Hm. rewrite Ev by exact Hm. apply convex_pos; [apply Hv; exact Hm|apply Hv; exact Hm|lra].
    + intros m Hm Htv. rewrite (Ev m Hm) in *. cbn. rewrite !mapm_lt by exact Hm. rewrite ratio_mul; [apply Erb; exact Hm|]. rewrite Rabs_right; [exact Htv|]. pose proof tiny_pos. lra.
    + intros m Hm. cbn. rewrite !mapm_lt by exact Hm. rewrite Erb by exact Hm. pose proof (Hrb m Hm). pose proof tiny_pos. apply ratio_pos_pos; [lra|]. apply Rlt_le. apply convex_pos; [apply Hv; exact Hm|apply Hv; exact Hm|lra].
    + intros m Hm. cbn. rewrite !mapm_lt by exact Hm. rewrite Erb by exact Hm. rewrite ET.
      pose proof (Hrb m Hm). pose proof tiny_pos. rewrite (ratio_abs _ (rb m)) by (rewrite Rabs_right; lra). field. lra.
    + intros m Hm. cbn. rewrite !mapm_lt by exact Hm. rewrite Erb by exact Hm. rewrite Eus, ET. rewrite ratio_mul by exact Hut.
      pose proof (Hrb m Hm). pose proof tiny_pos. rewrite (ratio_abs _ (rb m)) by (rewrite Rabs_right; lra). field. lra.
    + intros m Hm. cbn. rewrite !mapm_lt by exact Hm. rewrite Eus, ET. rewrite ratio_mul by exact Hut. reflexivity.
    + exact R1.
    + intros m Hm. apply (R2 m Hm).
  - exact Hv.
Qed.
Lemma ft_inv_dx x s : ft_inv s -> ft_inv (set_dx x s).
Proof. intros H. constructor; apply H. Qed.
Lemma ft_inv_jac s : ft_inv s -> ft_inv (ft_Jacobian n eos params s).
Proof. intros H. constructor; apply H. Qed.
Lemma ft_inv_solve s s2 ok : ft_inv s -> Solve lin n (ft_Jacobian n eos params s) = (s2, ok) -> ft_inv s2.
Proof. intros H E. unfold Solve in E. destruct (solve_Ax_b _ _ _ _) as [x o]. inversion E; subst. apply ft_inv_dx, ft_inv_jac, H. Qed.

(** [sum_ok] true: also carry Sum(alpha) = vfrac_total *)
Definition ft_I (b : bool) (s : pst) : Prop := ft_inv s /\ (b = true -> rsum n (vfrac s) = vfrac_total).
Definition ft_IJ (b ok : bool) (s : pst) : Prop := ft_I b s /\ (b = true -> ok = true -> rsum n (dx s) = 0).
Definition ft_IS (b : bool) (sc : R) (s : pst) : Prop := ft_I b s /\ (b = true -> rsum n (dx s) = 0) /\ forall m, (m < n)%nat -> 0 < vfrac s m + dx s m.
Definition ft_I2 (b : bool) (s : pst) : Prop := ft_inv2 s /\ (b = true -> rsum n (vfrac s) = vfrac_total /\ rsum n (vtmp s) = vfrac_total /\ rsum n (dx s) = 0).
Lemma ft_driver_inv b : 0 <= vfrac_safety_fac params < 1 -> (0 < n)%nat ->
  (b = true -> exact_solver lin /\ pte_max_dpdv params <> 0) ->
  driver_invariant sys (ft_I b) (ft_IJ b) (ft_IS b) (ft_I2 b).
Proof.
  intros Hf Hn HB. constructor; cbn [sCheckPTE sJacobian sSolve sScaleDx sTestUpdate sFixup FixedT_system].
  - intros s s2 ok [H HS] _ E. pose proof (ft_inv_solve s s2 ok H E) as HH. split; [split; [exact HH|]|].
    + intros Hb. unfold Solve in E. destruct (solve_Ax_b _ _ _ _) as [x o]. inversion E; subst. apply HS. reflexivity.
    + intros Hb Hok. destruct (HB Hb) as [HL HP]. rewrite Hok in E. rewrite (ft_solve_sum s s2 Hn HP HL E).
      rewrite (fi_r0 _ H), (HS Hb). ring.
  - intros ok s [H _]. exact H.
  - intros s s3 sc [[H HS] HD] E.
    destruct (C36_FixedT_scaled_step_admissible s s3 sc Hf (fi_vf _ H) E) as (_ & H1 & H2 & _).
    assert (exists x, s3 = set_dx x s) as (x & ->) by (unfold ft_ScaleDx in E; inversion E; eauto).
    split; [split; [apply ft_inv_dx; exact H|exact HS]|]. split; [|exact H1].
    intros Hb. rewrite (rsum_ext n _ (fun m => sc * dx s m) H2), rsum_scal, (HD Hb eq_refl). ring.
  - intros sc s [H _]. exact H.
  - intros sc s s4 e ([H HS] & HD & Hv) E.
    destruct (ft_test_core 1 (set_vtmp (mapm n (vfrac s) (vtmp s)) s) ltac:(lra) (fi_rb _ H) (fi_Tn _ H) (fi_T _ H) (fi_us _ H) (fi_temp _ H)) with (s' := s4) (e := e) as (A & B & C & D).
    + intros m Hm. cbn [vtmp set_vtmp]. rewrite mapm_lt by exact Hm. split; [apply H; exact Hm|apply Hv; exact Hm].
    + exact E.
    + split; [exact A|]. intros Hb. cbn [vtmp set_vtmp dx] in B, C, D.
      assert (rsum n (vtmp s4) = vfrac_total) as Evt by (rewrite B, rsum_mapm; apply HS; exact Hb).
      assert (rsum n (dx s4) = 0) as Edx by (rewrite C; apply HD; exact Hb).
      split; [|split; assumption].
      rewrite (rsum_ext n (vfrac s4) (fun m => vtmp s4 m + 1 * dx s4 m)) by (intros m Hm; rewrite B, C; apply D; exact Hm).
      rewrite rsum_plus, rsum_scal, Evt, Edx. ring.
  - intros t s s4 e [[H Hv] HS] Ht E.
    destruct (ft_test_core t s Ht (fi_rb _ H) (fi_Tn _ H) (fi_T _ H) (fi_us _ H) (fi_temp _ H) Hv s4 e E) as (A & B & C & D).
    split; [exact A|]. intros Hb. destruct (HS Hb) as (_ & S2 & S3). rewrite B, C. split; [|split; assumption].
    rewrite (rsum_ext n (vfrac s4) _ D), rsum_plus, rsum_scal, S2, S3. ring.
  - intros s [[H _] HS]. split; [exact H|]. intros Hb. apply HS. exact Hb.
  - auto.
Qed.
End FixedT.

(** ** End-to-end statements *)
Section EndToEndT.
Variable n : nat.
Variable eos : nat -> meos.
Variable vfrac_total : R.
Variable params : MixParams RArith.
Variable lin : nat -> (nat -> R) -> (nat -> R) -> (nat -> R).
Notation sys := (FixedT_system n eos vfrac_total params lin).

(** the energy-density scale the solver derives from its initial guess *)
Definition ft_uscale (s0 : pst) : R := uscale (fst (ft_Init n eos vfrac_total s0)).
Lemma ft_uscale_ge s0 : 1 / 100000000000000 <= ft_uscale s0.
Proof. unfold ft_uscale, ft_Init. cbn. apply Rmax_r. Qed.

Lemma ft_init_inv s0 : good_input n eos vfrac_total params s0 ->
  ft_inv n eos vfrac_total (fun m => rho s0 m * vfrac s0 m) (Teq s0) (ft_uscale s0) (temp s0) (fst (ft_Init n eos vfrac_total s0)) /\
  rsum n (vfrac (fst (ft_Init n eos vfrac_total s0))) = vfrac_total.
Proof.
  intros G. pose proof (ft_uscale_ge s0) as Hus. pose proof (ft_us_tiny _ Hus) as Hut. revert Hut. unfold ft_uscale.
  unfold ft_Init. set (sA := InitRhoBarandRho n (set_Tnorm 1 s0)). cbv zeta. cbn [fst]. intros Hut.
  assert (shape_ok n vfrac_total (fun m => rho s0 m * vfrac s0 m) sA) as HA.
  { constructor; cbn; [intros m Hm; apply mapm_lt; exact Hm|apply G|apply G|reflexivity|]. intros m Hm _. apply G. exact Hm. }
  change (Teq sA) with (Teq s0) in *. pose proof tiny_pos as HTP. pose proof tiny_lt_1 as HT1.
  assert (forall m, (m < n)%nat -> tiny <= vfrac_max eos (Teq s0) (rhobar sA) m) as HC.
  { intros m Hm. unfold vfrac_max. apply Rmin_glb; [|lra]. rewrite (so_rb _ _ _ _ HA m Hm). apply (gi_cap _ _ _ _ _ G). exact Hm. }
  pose proof (C34_SetVfracFromT_sums n eos vfrac_total (Teq s0) (rhobar sA) (vfrac sA) (gi_n _ _ _ _ _ G) (gi_vt _ _ _ _ _ G) (so_vf _ _ _ _ HA) ltac:(rewrite (so_sum _ _ _ _ HA); apply G) HC) as HV.
  destruct (SetVfracFromT n eos vfrac_total (Teq s0) (rhobar sA) (vfrac sA)) as [vf bad]. cbn [fst] in *.
  assert (rsum n vf = vfrac_total /\ forall m, (m < n)%nat -> 0 < vf m) as [V1 V2].
  { destruct bad; [|exact HV]. split; [rewrite (rsum_ext n vf _ HV); apply HA|]. intros m Hm. rewrite HV by exact Hm. apply HA. exact Hm. }
  match goal with |- ft_inv _ _ _ _ _ _ _ ?x /\ _ => set (sR := x) in * end.
  split; [|exact V1].
  destruct (ft_residual n vfrac_total (set_press (press sR) (set_vfrac (vfrac sR) s0))) as [R1 R2].
  constructor.
  - intros m Hm. apply (so_rb _ _ _ _ HA m Hm).
  - reflexivity.
  - reflexivity.
  - reflexivity.
  - reflexivity.
  - exact V2.
  - intros m Hm Hv. cbn in *. rewrite mapm_lt by exact Hm. rewrite ratio_mul by (rewrite Rabs_right; lra). rewrite mapm_lt by exact Hm. reflexivity.
  - intros m Hm. cbn. rewrite !mapm_lt by exact Hm. apply ratio_pos_pos; [|apply Rlt_le, V2; exact Hm].
    apply Rmult_lt_0_compat; [apply (gi_rho _ _ _ _ _ G m Hm)|apply (gi_vf _ _ _ _ _ G m Hm)].
  - intros m Hm. cbn. rewrite !mapm_lt by exact Hm. reflexivity.
  - intros m Hm. unfold sR at 1. cbn [u set_u ft_Residual set_res]. rewrite mapm_lt by exact Hm. rewrite Rmult_assoc.
    change (uscale sR) with (uscale sR) in Hut. rewrite ratio_mul by exact Hut. cbn. rewrite !mapm_lt by exact Hm. ring.
  - intros m Hm. unfold sR at 1. cbn [press set_u set_press ft_Residual set_res]. rewrite mapm_lt by exact Hm. rewrite ratio_mul by exact Hut.
    cbn. rewrite !mapm_lt by exact Hm. reflexivity.
  - exact R1.
  - intros m Hm. apply (R2 m Hm).
Qed.

(** Returned state, converged or not *)
Theorem C34_FixedT_returned_state : forall s0 st sf, good_input n eos vfrac_total params s0 ->
  0 <= vfrac_safety_fac params < 1 -> 0 < line_search_fac params <= 1 ->
  (forall m, (m < n)%nat -> tiny <= rho s0 m * vfrac s0 m) ->
  @PTESolver RArith pst ratio sys s0 = (st, sf) ->
  forall m, (m < n)%nat -> 0 < vfrac sf m /\ 0 < rho sf m /\ (tiny <= vfrac sf m -> rho sf m * vfrac sf m = rho s0 m * vfrac s0 m) /\
    temp sf m = temp s0 m /\ sie sf m = e_rt (eos m) (rho sf m) (Teq s0) /\ press sf m = p_rt (eos m) (rho sf m) (Teq s0).
Proof.
  intros s0 st sf G P1 P2 Hm0 E. destruct (ft_init_inv s0 G) as [H0 H1]. pose proof (ft_uscale_ge s0) as Hus.
  pose proof (ft_driver_inv n eos vfrac_total params lin _ (Teq s0) (ft_uscale s0) (temp s0) Hm0 Hus false P1 (gi_n _ _ _ _ _ G) ltac:(discriminate)) as HD.
  destruct (C35_invariant_principle sys _ _ _ _ HD P2 s0) as (s' & [H' _] & E').
  { split; [exact H0|discriminate]. }
  rewrite E in E'. cbn [snd sFinalize FixedT_system] in E'. subst sf. intros m Hm. cbn. rewrite !mapm_lt by exact Hm.
  split; [apply (fi_vf _ _ _ _ _ _ _ _ H' m Hm)|]. split; [apply (fi_rho _ _ _ _ _ _ _ _ H' m Hm)|]. split; [apply (fi_mass _ _ _ _ _ _ _ _ H' m Hm)|]. split; [|split].
  - rewrite (fi_Tn _ _ _ _ _ _ _ _ H'), (fi_temp _ _ _ _ _ _ _ _ H' m Hm). ring.
  - apply (fi_sie _ _ _ _ _ _ _ _ H' m Hm).
  - rewrite (fi_us _ _ _ _ _ _ _ _ H'). apply (fi_p _ _ _ _ _ _ _ _ H' m Hm).
Qed.

(** ExactlySum: with an exact linear solver the returned volume fractions sum exactly to vfrac_total, at every exit *)
Theorem C46_FixedT_volumes_sum : forall s0 st sf, good_input n eos vfrac_total params s0 ->
  0 <= vfrac_safety_fac params < 1 -> 0 < line_search_fac params <= 1 -> exact_solver lin -> pte_max_dpdv params <> 0 ->
  (forall m, (m < n)%nat -> tiny <= rho s0 m * vfrac s0 m) ->
  @PTESolver RArith pst ratio sys s0 = (st, sf) -> rsum n (vfrac sf) = vfrac_total.
Proof.
  intros s0 st sf G P1 P2 HL HP Hm0 E. destruct (ft_init_inv s0 G) as [H0 H1]. pose proof (ft_uscale_ge s0) as Hus.
  pose proof (ft_driver_inv n eos vfrac_total params lin _ (Teq s0) (ft_uscale s0) (temp s0) Hm0 Hus true P1 (gi_n _ _ _ _ _ G) ltac:(auto)) as HD.
  destruct (C35_invariant_principle sys _ _ _ _ HD P2 s0) as (s' & [H' HS] & E').
  { split; [exact H0|intros _; exact H1]. }
  rewrite E in E'. cbn [snd sFinalize FixedT_system] in E'. subst sf. cbn. apply HS. reflexivity.
Qed.

(** converged, not slow: pressures agree pairwise and the volume constraint holds within the tolerances *)
Theorem C37_FixedT_converged_means_equilibrium : forall s0 st sf, good_input n eos vfrac_total params s0 ->
  0 <= vfrac_safety_fac params < 1 -> 0 < line_search_fac params <= 1 ->
  (forall m, (m < n)%nat -> tiny <= rho s0 m * vfrac s0 m) ->
  @PTESolver RArith pst ratio sys s0 = (st, sf) -> converged st = true -> slow_convergence_detected st = false ->
  Rabs (vfrac_total - rsum n (vfrac sf)) < pte_rel_tolerance_v params /\
  exists tol, (tol = pte_rel_tolerance_p params * Rabs (rsum n (fun m => vfrac sf m * press sf m)) \/ tol = pte_abs_tolerance_p params * ft_uscale s0) /\
    forall i j, (i < n)%nat -> (j < n)%nat -> Rabs (press sf i - press sf j) <= INR (Nat.max i j - Nat.min i j) * tol.
Proof.
  intros s0 st sf G P1 P2 Hm0 E HC HS. destruct (ft_init_inv s0 G) as [H0 H1]. pose proof (ft_uscale_ge s0) as Hus.
  pose proof (ft_driver_inv n eos vfrac_total params lin _ (Teq s0) (ft_uscale s0) (temp s0) Hm0 Hus false P1 (gi_n _ _ _ _ _ G) ltac:(discriminate)) as HD.
  destruct (C35_converged_invariant sys _ _ _ _ HD P2 s0 st sf) as (s' & [H' _] & HK & E'); [split; [exact H0|discriminate]|exact E|exact HC|exact HS|].
  cbn [sCheckPTE sFinalize sFixup FixedT_system] in HK, E'. set (us := ft_uscale s0) in *.
  assert (0 < us) as Hup by lra.
  assert (vfrac sf = vfrac s' /\ forall m, (m < n)%nat -> press sf m = press s' m * us) as (F2 & F3).
  { subst sf. split; [reflexivity|]. intros m Hm. cbn. rewrite mapm_lt by exact Hm. rewrite (fi_us _ _ _ _ _ _ _ _ H'). reflexivity. }
  unfold ft_CheckPTE in HK. cbn [fst] in HK. apply andb_true_iff in HK. destruct HK as [HKp HKv].
  split. { rewrite F2, <- (fi_r0 _ _ _ _ _ _ _ _ H'). revert HKv. case Rlt_bool_spec; [auto|discriminate]. }
  set (mean := rsum n (fun m => vfrac s' m * press s' m)) in HKp.
  assert (rsum n (fun m => vfrac sf m * press sf m) = mean * us) as Em.
  { unfold mean. rewrite <- rsum_scal_r. apply rsum_ext. intros m Hm. rewrite F2, F3 by exact Hm. ring. }
  set (ep := sqrt _) in HKp.
  assert (exists t0, (t0 = pte_rel_tolerance_p params * Rabs mean \/ t0 = pte_abs_tolerance_p params) /\ ep < t0) as (t0 & Ht0 & Hep).
  { apply orb_true_iff in HKp. destruct HKp as [H|H]; revert H; (case Rlt_bool_spec; [|discriminate]); eauto. }
  exists (t0 * us). split.
  { destruct Ht0 as [-> | ->]; [left|right; reflexivity]. rewrite Em, Rabs_mult, (Rabs_right us) by lra. ring. }
  assert (forall m, (S m < n)%nat -> Rabs (press sf m - press sf (S m)) <= t0 * us) as HB.
  { intros m Hm. rewrite !F3 by lia. replace (press s' m * us - press s' (S m) * us) with ((press s' m - press s' (S m)) * us) by ring.
    rewrite Rabs_mult, (Rabs_right us) by lra. apply Rmult_le_compat_r; [lra|]. left.
    rewrite <- (fi_r _ _ _ _ _ _ _ _ H' m Hm). apply (sqrt_term (fun m => res s' (S m)) m (n - 1) t0); [lia|exact Hep]. }
  assert (forall d i, (i + d < n)%nat -> Rabs (press sf i - press sf (i + d)%nat) <= INR d * (t0 * us)) as HI.
  { induction d as [|d IH]; intros i Hi.
    - rewrite Nat.add_0_r, Rminus_diag_eq, Rabs_R0 by reflexivity. cbn. lra.
    - rewrite S_INR. replace (press sf i - press sf (i + S d)%nat) with ((press sf i - press sf (i + d)%nat) + (press sf (i + d)%nat - press sf (S (i + d)))) by (rewrite Nat.add_succ_r; ring).
      eapply Rle_trans; [apply Rabs_triang|]. pose proof (IH i ltac:(lia)). pose proof (HB (i + d)%nat ltac:(lia)). lra. }
  intros i j Hi Hj. destruct (Nat.le_ge_cases i j) as [H|H].
  - rewrite Nat.max_r, Nat.min_l by exact H. pose proof (HI (j - i)%nat i ltac:(lia)) as HH. replace (i + (j - i))%nat with j in HH by lia. exact HH.
  - rewrite Nat.max_l, Nat.min_r by exact H. pose proof (HI (i - j)%nat j ltac:(lia)) as HH. replace (j + (i - j))%nat with i in HH by lia.
    rewrite Rabs_minus_sym. exact HH.
Qed.
End EndToEndT.

(** ** The hypotheses are met *)
Example C34_ex_FixedT : forall n, (0 < n)%nat -> INR n <= 2 ^ 900 ->
  good_input n weos 1 wpar (wst n) /\ 0 <= vfrac_safety_fac wpar < 1 /\ 0 < line_search_fac wpar <= 1 /\
  exact_solver gauss /\ pte_max_dpdv wpar <> 0 /\
  (forall m, (m < n)%nat -> tiny <= rho (wst n) m * vfrac (wst n) m).
Proof.
  intros n Hn HB. split; [exact (good_input_witness n Hn HB)|]. split; [exact wsafe|]. split; [exact wfac|].
  split; [exact gauss_exact|]. split; [cbn; lra|].
  intros m _. cbn [rho vfrac wst]. pose proof (tiny_frac n Hn HB). assert (0 < INR n) by (apply lt_0_INR; lia).
  apply Rle_trans with (1 * / INR n); [lra|]. apply Rmult_le_compat_r; [apply Rlt_le, Rinv_0_lt_compat; assumption|]. rewrite S_INR. pose proof (pos_INR m). lra.
Qed.
Print Assumptions C36_FixedT_scaled_step_admissible.
Print Assumptions C46_FixedT_newton_matrix_nonsingular.
Print Assumptions C34_FixedT_returned_state.
Print Assumptions C46_FixedT_volumes_sum.
Print Assumptions C37_FixedT_converged_means_equilibrium.
