(** C47: the Newton matrix assembled by each PTE system is the linearisation of that system's residual, with the sign
    convention of the driver (matrix * step = residual). closure/mixed_cell_models.hpp: Residual and Jacobian of
    PTESolverRhoT, PTESolverPT, PTESolverFixedT, PTESolverFixedP (PTESolverRhoU is in PTE_RhoU_Props). *)
From Coq Require Import ZArith Reals Bool List Lia Lra.
From Flocq Require Import Core.
From Verif Require Import Arith Robust_Model Robust_Proofs Thermo_Spec Thermo_Tools PTE_Driver_Model PTE_Model PTE_Tools PTE_Tools2.
From Verif Require PTE_RhoT_Props PTE_FixedT_Props PTE_FixedP_Props.
Import ListNotations.
Local Open Scope R_scope.

Section Linear.
Variable n : nat.
Variable eos : nat -> meos.
Variable vfrac_total : R.
Variable params : MixParams RArith.

(** ** Fixed temperature: unknowns = volume fractions *)
(** the state after volume-fraction increments x, if every pressure responded linearly with the computed slope *)
Definition ft_linear_response (D : pst) (x : nat -> R) : pst :=
  set_vfrac (fun m => vfrac D m + x m) (set_press (fun m => press D m + dpdv D m * x m) D).
Theorem C47_FixedT_matrix_is_linearisation : forall s x i, (i < n)%nat ->
  let D := ft_Jacobian n eos params s in
  matvec n (jac D) x i = res (ft_Residual n vfrac_total D) i - res (ft_Residual n vfrac_total (ft_linear_response D x)) i.
Proof.
  intros s x i Hi. cbv zeta. pose proof (PTE_FixedT_Props.ft_row0 n eos params s x ltac:(lia)) as J0.
  pose proof (fun r => PTE_FixedT_Props.ft_rowS n eos params s x r ltac:(lia)) as JS. cbv zeta in JS.
  set (D := ft_Jacobian n eos params s) in *.
  destruct (PTE_FixedT_Props.ft_residual n vfrac_total D) as (A0 & AS). destruct (PTE_FixedT_Props.ft_residual n vfrac_total (ft_linear_response D x)) as (B0 & BS). clearbody D.
  cbn [ft_linear_response vfrac press set_vfrac set_press] in B0, BS. rewrite rsum_plus in B0.
  destruct i as [|r].
  - rewrite J0, A0, B0. ring.
  - replace (S r) with (r + 1)%nat by lia. rewrite JS by lia. replace (r + 1)%nat with (1 + r)%nat by lia. rewrite AS, BS by lia.
    cbn [ft_linear_response vfrac press set_vfrac set_press]. replace (r + 1)%nat with (S r) by lia. cbn [Nat.add]. ring.
Qed.

(** ** Fixed pressure: unknowns = volume fractions and the temperature (last) *)
Definition fp_linear_response (D : pst) (x : nat -> R) : pst :=
  set_vfrac (fun m => vfrac D m + x m) (set_Teq (Teq D + x n) (set_press (fun m => press D m + (dpdv D m * x m + dpdT D m * x n)) D)).
Theorem C47_FixedP_matrix_is_linearisation : forall s x i, (i < n + 1)%nat ->
  let D := fp_Jacobian n eos params s in
  matvec (n + 1) (jac D) x i = res (fp_Residual n vfrac_total D) i - res (fp_Residual n vfrac_total (fp_linear_response D x)) i.
Proof.
  intros s x i Hi. cbv zeta. pose proof (PTE_FixedP_Props.fp_rown n eos params s x) as JN. pose proof (PTE_FixedP_Props.fp_row n eos params s x) as JR.
  set (D := fp_Jacobian n eos params s) in *.
  destruct (PTE_FixedP_Props.fp_residual n vfrac_total (Peq D) (uscale D) D eq_refl eq_refl) as (A0 & AS).
  destruct (PTE_FixedP_Props.fp_residual n vfrac_total (Peq D) (uscale D) (fp_linear_response D x) eq_refl eq_refl) as (B0 & BS). clearbody D.
  cbn [fp_linear_response vfrac press set_vfrac set_press set_Teq] in B0, BS. rewrite rsum_plus in B0.
  destruct (Nat.eq_dec i n) as [->|Hne].
  - rewrite JN, A0, B0. ring.
  - rewrite JR, AS, BS by lia. cbn [fp_linear_response vfrac press set_vfrac set_press set_Teq]. ring.
Qed.

(** ** Pressure-temperature: unknowns = temperature, pressure *)
(** finite differences of the EOS's density and energy at fixed pressure/temperature. The second look-up is started from
    the result of the first. *)
Definition pt_dp (s : pst) : R := - Peq s * derivative_eps params.
Definition pt_dT (s : pst) : R := Teq s * derivative_eps params.
Definition pt_atP (s : pst) m := de_pt (eos m) (uscale s * (Peq s + pt_dp s)) (Tnorm s * Teq s) (rho s m) (sie s m).
Definition pt_atT (s : pst) m := de_pt (eos m) (uscale s * Peq s) (Tnorm s * (Teq s + pt_dT s)) (fst (pt_atP s m)) (snd (pt_atP s m)).
Definition pt_drho (s : pst) (x : nat -> R) m : R :=
  ratio (fst (pt_atT s m) - rho s m) (pt_dT s) * x 0%nat + ratio (fst (pt_atP s m) - rho s m) (pt_dp s) * x 1%nat.
Definition pt_du (s : pst) (x : nat -> R) m : R :=
  ratio (ratio (rhobar s m * snd (pt_atT s m)) (uscale s) - u s m) (pt_dT s) * x 0%nat +
  ratio (ratio (rhobar s m * snd (pt_atP s m)) (uscale s) - u s m) (pt_dp s) * x 1%nat.
(** volume fraction rhobar/rho responds with -rhobar/rho^2 times the density change *)
Definition pt_linear_response (s : pst) (x : nat -> R) : pst :=
  set_vfrac (fun m => vfrac s m - ratio (rhobar s m) (rho s m * rho s m) * pt_drho s x m) (set_u (fun m => u s m + pt_du s x m) s).
Theorem C47_PT_matrix_is_linearisation : forall s x i, (i < 2)%nat ->
  let D := pt_Jacobian n eos params s in
  matvec 2 (jac D) x i = res (pt_Residual n vfrac_total s) i - res (pt_Residual n vfrac_total (pt_linear_response s x)) i.
Proof.
  intros s x i Hi. cbv zeta. unfold matvec, pt_Jacobian, pt_Residual, pt_linear_response. cbn [rsum jac set_jac res set_res vfrac u utot set_vfrac set_u].
  rewrite !sum_neumaier_id. fold (pt_dp s) (pt_dT s). fold (pt_atP s). change (fun m : nat => de_pt (eos m) (uscale s * (Peq s + pt_dp s)) (Tnorm s * Teq s) (rho s m) (sie s m)) with (pt_atP s).
  destruct i as [|[|i]]; [| |lia]; cbn [Nat.mul Nat.add upd Nat.eqb]; unfold upd; cbn [Nat.eqb].
  - rewrite rsum_minus.
    rewrite (rsum_ext n (fun m => ratio (rhobar s m) (rho s m * rho s m) * pt_drho s x m)
       (fun m => ratio (rhobar s m) (rho s m * rho s m) * ratio (fst (pt_atT s m) - rho s m) (pt_dT s) * x 0%nat + ratio (rhobar s m) (rho s m * rho s m) * ratio (fst (pt_atP s m) - rho s m) (pt_dp s) * x 1%nat))
       by (intros m _; unfold pt_drho; ring).
    rewrite rsum_plus, !rsum_scal_r. unfold pt_atT, pt_atP. ring.
  - rewrite rsum_plus.
    rewrite (rsum_ext n (pt_du s x)
       (fun m => ratio (ratio (rhobar s m * snd (pt_atT s m)) (uscale s) - u s m) (pt_dT s) * x 0%nat + ratio (ratio (rhobar s m * snd (pt_atP s m)) (uscale s) - u s m) (pt_dp s) * x 1%nat))
       by (intros m _; reflexivity).
    rewrite rsum_plus, !rsum_scal_r. unfold pt_atT, pt_atP. ring.
Qed.

(** ** Density-temperature: unknowns = temperature, and the volume fractions of all materials but one *)
Definition scatter_off (off k N : nat) (g : nat -> R) (r0 : nat -> R) : nat -> R :=
  fst (fold_left (fun '(r, i) m => if (m =? k)%nat then (r, i) else (upd r (off + i) (g m), S i)) (seq 0 N) (r0, 1%nat)).
Lemma scatter_off_spec off k N g r0 : (k < N)%nat ->
  (forall m, (m < N)%nat -> m <> k -> scatter_off off k N g r0 (off + didx k m) = g m) /\
  (forall i, (i <= off \/ off + N <= i)%nat -> scatter_off off k N g r0 i = r0 i).
Proof.
  intros Hk. unfold scatter_off. rewrite (skip_fold k (fun b _ _ => b) (fun b i m => upd b (off + i) (g m)) r0 N). cbn [fst].
  assert (forall M, let r := fold_left (fun b m => if (m =? k)%nat then b else upd b (off + run_idx k m) (g m)) (seq 0 M) r0 in
    (forall m, (m < M)%nat -> m <> k -> r (off + didx k m)%nat = g m) /\ (forall i, (i <= off \/ off + run_idx k M <= i)%nat -> r i = r0 i)) as H.
  { induction M as [|M IH]; cbv zeta; [cbn; split; [intros; lia|reflexivity]|]. rewrite seq_S, fold_left_app. cbn [fold_left plus].
    cbv zeta in IH. set (r := fold_left _ (seq 0 M) r0) in *. clearbody r. destruct IH as (I2 & I3).
    rewrite run_idx_S. destruct (Nat.eqb_spec M k) as [E|E].
    - split; [|exact I3]. intros m Hm Hne. apply I2; lia.
    - assert (1 <= run_idx k M)%nat by (rewrite run_idx_at by exact E; apply didx_pos; exact E). split.
      + intros m Hm Hne. destruct (Nat.eq_dec m M) as [->|HmN].
        * rewrite <- run_idx_at by exact E. apply upd_same.
        * rewrite upd_other; [apply I2; lia|]. rewrite run_idx_at by exact E. intros HH. apply HmN, (didx_inj k m M Hne E); lia.
      + intros i Hi. rewrite upd_other by lia. apply I3. lia. }
  destruct (H N) as (H2 & H3). split; [exact H2|].
  intros i Hi. apply H3. unfold run_idx. destruct (Nat.leb_spec N k); lia.
Qed.
(** finite difference of the energy density with temperature, the step of each material, and the linear response *)
Definition rt_dedT (s : pst) (m : nat) : R :=
  let dT := Teq s * derivative_eps params in
  ratio (rhobar s m * ratio (e_rt (eos m) (rho s m) (Tnorm s * (Teq s + dT))) (uscale s) - u s m) dT.
Definition rt_step (k : nat) (x : nat -> R) (m : nat) : R :=
  if (m =? k)%nat then - rsum (n - 1) (fun j => x (S j)) else x (didx k m).
Definition rt_linear_response (D : pst) (x : nat -> R) : pst :=
  set_press (fun m => press D m + (dpdT D m * x 0%nat + dpdv D m * rt_step (ms D) x m))
  (set_u (fun m => u D m + (rt_dedT D m * x 0%nat + dedv D m * rt_step (ms D) x m)) D).
Lemma rt_jac_entries s : (ms s < n)%nat -> let D := rt_Jacobian n eos params s in let J := jac D in
  J 0%nat = rsum n (rt_dedT D) /\
  (forall m, (m < n)%nat -> m <> ms s -> J (didx (ms s) m) = dedv D m - dedv D (ms s)) /\
  (forall m, (m < n)%nat -> m <> ms s -> J (didx (ms s) m * n)%nat = dpdT D m - dpdT D (ms s) /\
     forall m', (m' < n)%nat -> m' <> ms s -> J (didx (ms s) m * n + didx (ms s) m')%nat = if (m' =? m)%nat then dpdv D m + dpdv D (ms s) else dpdv D (ms s)).
Proof.
  intros Hk. cbv zeta. unfold rt_Jacobian. cbv zeta.
  match goal with |- context [set_jac _ ?s] => set (sD := s) end. match goal with |- context [set_jac ?j sD] => set (J := j) end.
  cbn [jac set_jac dedv dpdT dpdv]. change (dedv (set_jac J sD)) with (dedv sD). change (dpdT (set_jac J sD)) with (dpdT sD). change (dpdv (set_jac J sD)) with (dpdv sD).
  change (rt_dedT (set_jac J sD)) with (rt_dedT s).
  assert (ms sD = ms s) as Ems by reflexivity.
  set (k := ms s) in *.
  set (j0 := upd (map_n (rt_neq n * rt_neq n) (fun _ => 0) (jac sD)) 0 (rsum n (rt_dedT s))) in *.
  set (j1 := scatter k n (fun m => dedv sD m - dedv sD k) j0).
  set (row := fun (a : nat -> R) (i m : nat) => scatter_off (i * n) k n (fun mm => if (mm =? m)%nat then dpdv sD m + dpdv sD k else dpdv sD k) (upd a (i * n + 0) (dpdT sD m - dpdT sD k))).
  assert (J = fst (fold_left (fun '(a, i) m => if (m =? k)%nat then (a, i) else (row a i m, S i)) (seq 0 n) (j1, 1%nat))) as EJ by reflexivity.
  clearbody J. rewrite (skip_fold k (fun b _ _ => b) row j1 n) in EJ. cbn [fst] in EJ.
  destruct (scatter_spec k n (fun m => dedv sD m - dedv sD k) j0 Hk) as (S1 & S2 & S3). fold j1 in S1, S2, S3. clearbody j1.
  assert (forall M, (M <= n)%nat -> let r := fold_left (fun b m => if (m =? k)%nat then b else row b (run_idx k m) m) (seq 0 M) j1 in
    (forall i, (i < n)%nat -> r i = j1 i) /\
    (forall m, (m < M)%nat -> m <> k -> r (didx k m * n)%nat = dpdT sD m - dpdT sD k /\
       forall m', (m' < n)%nat -> m' <> k -> r (didx k m * n + didx k m')%nat = if (m' =? m)%nat then dpdv sD m + dpdv sD k else dpdv sD k)) as H.
  { induction M as [|M IH]; intros HM; cbv zeta; [cbn; split; [reflexivity|intros; lia]|]. rewrite seq_S, fold_left_app. cbn [fold_left plus].
    specialize (IH ltac:(lia)). cbv zeta in IH. set (r := fold_left _ (seq 0 M) j1) in *. clearbody r. destruct IH as (I1 & I2).
    destruct (Nat.eqb_spec M k) as [E|E].
    - split; [exact I1|]. intros m Hm Hne. apply I2; lia.
    - rewrite run_idx_at by exact E. pose proof (didx_pos k M E) as HP.
      unfold row. destruct (scatter_off_spec (didx k M * n) k n (fun mm => if (mm =? M)%nat then dpdv sD M + dpdv sD k else dpdv sD k) (upd r (didx k M * n + 0) (dpdT sD M - dpdT sD k)) Hk) as (G1 & G2).
      set (r' := scatter_off _ _ _ _ _) in *. clearbody r'. split.
      + intros i Hi. rewrite G2 by nia. rewrite upd_other by nia. apply I1. exact Hi.
      + intros m Hm Hne. destruct (Nat.eq_dec m M) as [->|HmM].
        * split; [|exact G1]. rewrite G2 by lia. rewrite Nat.add_0_r. apply upd_same.
        * destruct (I2 m ltac:(lia) Hne) as [A B]. assert (didx k m <> didx k M) as HD by (intros HH; apply didx_inj in HH; auto).
          split.
          -- rewrite G2 by nia. rewrite upd_other by nia. exact A.
          -- intros m' Hm' Hne'. pose proof (didx_lt n k m' Hm' Hk Hne'). pose proof (didx_pos k m' Hne'). rewrite G2 by nia. rewrite upd_other by nia. apply B; assumption. }
  destruct (H n ltac:(lia)) as (H1 & H2). rewrite <- EJ in H1, H2. clear EJ.
  split; [rewrite H1 by lia; rewrite S1; unfold j0; apply upd_same|]. split.
  - intros m Hm Hne. rewrite H1 by (apply didx_lt; assumption). apply S2; assumption.
  - intros m Hm Hne. apply H2; assumption.
Qed.
Lemma skip_sum' k (f : nat -> R) : (k < n)%nat -> rsum n f = f 0%nat + rsum n (fun m => if (m =? k)%nat then 0 else f (didx k m)).
Proof.
  intros Hk. pose proof (PTE_RhoT_Props.skip_sum n) as HS.
  assert (rsum n (fun m => if (m =? k)%nat then 0 else f (didx k m)) = rsum (n - 1) (fun j => f (S j))) as ->.
  { exact (HS (set_ms k (mkPst (fun _ => 0) (fun _ => 0) (fun _ => 0) (fun _ => 0) (fun _ => 0) (fun _ => 0) (fun _ => 0) (fun _ => 0) (fun _ => 0) (fun _ => 0) (fun _ => 0) (fun _ => 0) (fun _ => 0) (fun _ => 0) (fun _ => 0) (fun _ => 0) (fun _ => 0) (fun _ => 0) 0 0 0 0 0 0 0 0 0)) f Hk). }
  replace n with (S (n - 1)) at 1 by lia. apply rsum_shift.
Qed.
Lemma rt_step_sum k x g : (k < n)%nat -> rsum n (fun m => g m * rt_step k x m) = rsum n (fun m => if (m =? k)%nat then 0 else (g m - g k) * x (didx k m)).
Proof.
  intros Hk. assert (rsum (n - 1) (fun j => x (S j)) = rsum n (fun m => if (m =? k)%nat then 0 else x (didx k m))) as EX.
  { pose proof (skip_sum' k x Hk) as H. replace n with (S (n - 1)) in H at 1 by lia. rewrite rsum_shift in H. lra. }
  rewrite (rsum_split n _ k Hk). unfold rt_step at 1. rewrite Nat.eqb_refl, EX.
  rewrite (rsum_ext n (fun m => if (m =? k)%nat then 0 else (g m - g k) * x (didx k m)) (fun m => (if (m =? k)%nat then 0 else g m * rt_step k x m) - g k * (if (m =? k)%nat then 0 else x (didx k m)))).
  - rewrite rsum_minus, rsum_scal. ring.
  - intros m Hm. unfold rt_step. destruct (Nat.eqb_spec m k); ring.
Qed.
Theorem C47_RhoT_matrix_is_linearisation : forall s x i, (ms s < n)%nat -> (i < n)%nat ->
  let D := rt_Jacobian n eos params s in
  matvec n (jac D) x i = res (rt_Residual n D) i - res (rt_Residual n (rt_linear_response D x)) i.
Proof.
  intros s x i Hk Hi. cbv zeta. destruct (rt_jac_entries s Hk) as (J0 & J1 & J2). cbv zeta in J0, J1, J2.
  set (D := rt_Jacobian n eos params s) in *. assert (ms D = ms s) as Ems by reflexivity. clearbody D. rewrite <- Ems in *. set (k := ms D) in *.
  destruct (PTE_RhoT_Props.residual_inv n (utot D) D Hk eq_refl) as (A0 & AS).
  destruct (PTE_RhoT_Props.residual_inv n (utot D) (rt_linear_response D x) Hk eq_refl) as (B0 & BS).
  change (ms (rt_linear_response D x)) with k in BS. fold k in AS.
  change (u (rt_linear_response D x)) with (fun m => u D m + (rt_dedT D m * x 0%nat + dedv D m * rt_step k x m)) in B0.
  change (press (rt_linear_response D x)) with (fun m => press D m + (dpdT D m * x 0%nat + dpdv D m * rt_step k x m)) in BS. cbv beta in BS.
  destruct (Nat.eq_dec i 0) as [->|Hi0].
  - rewrite A0, B0, !rsum_plus. unfold matvec. rewrite (skip_sum' k _ Hk), Nat.mul_0_l. cbn [Nat.add].
    rewrite J0, rsum_scal_r, (rt_step_sum k x (dedv D) Hk).
    rewrite (rsum_ext n (fun m => if (m =? k)%nat then 0 else jac D (didx k m) * x (didx k m)) (fun m => if (m =? k)%nat then 0 else (dedv D m - dedv D k) * x (didx k m))).
    + ring.
    + intros m Hm. destruct (Nat.eqb_spec m k); [reflexivity|]. rewrite J1 by assumption. reflexivity.
  - destruct (didx_surj n k i Hk ltac:(lia)) as (m & Hm & Hne & <-). rewrite AS, BS by assumption.
    unfold matvec. rewrite (skip_sum' k _ Hk), Nat.add_0_r. destruct (J2 m Hm Hne) as [E0 E1]. rewrite E0.
    rewrite (rsum_ext n _ (fun m' => if (m' =? k)%nat then 0 else ((if (m' =? m)%nat then dpdv D m + dpdv D k else dpdv D k) * x (didx k m')))).
    2:{ intros m' Hm'. destruct (Nat.eqb_spec m' k); [reflexivity|]. rewrite E1 by assumption. reflexivity. }
    rewrite (rsum_ext n _ (fun m' => (if (m' =? m)%nat then dpdv D m * x (didx k m) else 0) + dpdv D k * (if (m' =? k)%nat then 0 else x (didx k m')))).
    2:{ intros m' Hm'. destruct (Nat.eqb_spec m' k), (Nat.eqb_spec m' m); subst; try contradiction; ring. }
    rewrite rsum_plus, rsum_scal. rewrite (rsum_single n (fun m' => if (m' =? m)%nat then _ else 0) m Hm).
    2:{ intros m' _ H. destruct (Nat.eqb_spec m' m); [contradiction|reflexivity]. }
    rewrite Nat.eqb_refl.
    assert (rsum n (fun m' => if (m' =? k)%nat then 0 else x (didx k m')) = - rt_step k x k) as ->.
    { unfold rt_step. rewrite Nat.eqb_refl. pose proof (skip_sum' k x Hk) as H. replace n with (S (n - 1)) in H at 1 by lia. rewrite rsum_shift in H. lra. }
    assert (rt_step k x m = x (didx k m)) as -> by (unfold rt_step; destruct (Nat.eqb_spec m k); [contradiction|reflexivity]). ring.
Qed.
End Linear.

(** the hypotheses are only about indices; e.g. three materials with the default choice of excluded material *)
From Verif Require Import PTE_Witness.
Example C47_ex : (ms (wst 3) < 3)%nat. Proof. cbn. lia. Qed.
Print Assumptions C47_FixedT_matrix_is_linearisation.
Print Assumptions C47_FixedP_matrix_is_linearisation.
Print Assumptions C47_PT_matrix_is_linearisation.
Print Assumptions C47_RhoT_matrix_is_linearisation.
