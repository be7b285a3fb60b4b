(** C91: the equilibrium a PTE solver looks for is unique, and any two converged runs agree within their tolerances *)
From Coq Require Import ZArith Reals Bool List Lra Lia Psatz.
From Flocq Require Import Core.
From Coquelicot Require Import Coquelicot.
From Verif Require Import Arith Robust_Model Robust_Proofs Thermo_Spec Thermo_Tools Stability_Spec Equilibrium_Spec Equilibrium_Proofs.
From Verif Require Import PTE_Driver_Model PTE_Model PTE_Tools PTE_Init PTE_Witness PTE_RhoT_Props PTE_PT_Props PTE_FixedT_Props.
Local Open Scope R_scope.

(** ** the equilibrium *)
(** any number of well-behaved materials of any kinds: masses, volume and energy determine temperature, pressure and every density *)
Theorem C91_equilibrium_unique : forall n P E D DT mass V U rho T p rho' T' p', (0 < n)%nat -> (forall m, (m < n)%nat -> 0 < mass m) ->
  (forall m, (m < n)%nat -> well_behaved (P m) (E m) (D m) (DT m)) ->
  (forall m, (m < n)%nat -> D m (rho m) /\ DT m T /\ D m (rho' m) /\ DT m T') ->
  equilibrium n P E mass V U rho T p -> equilibrium n P E mass V U rho' T' p' ->
  T = T' /\ p = p' /\ forall m, (m < n)%nat -> rho m = rho' m.
Proof. exact unique. Qed.
(** given the temperature instead of the energy *)
Theorem C91_fixed_temperature_unique : forall n P E D DT mass V rho rho' T p p', (0 < n)%nat -> (forall m, (m < n)%nat -> 0 < mass m) ->
  (forall m, (m < n)%nat -> well_behaved (P m) (E m) (D m) (DT m)) ->
  (forall m, (m < n)%nat -> D m (rho m) /\ D m (rho' m) /\ DT m T) ->
  (forall m, (m < n)%nat -> P m (rho m) T = p) -> (forall m, (m < n)%nat -> P m (rho' m) T = p') ->
  total n (fun m => mass m / rho m) = V -> total n (fun m => mass m / rho' m) = V ->
  p = p' /\ forall m, (m < n)%nat -> rho m = rho' m.
Proof.
  intros n P E D DT mass V rho rho' T p p' Hn HM HW HD H1 H2 HV HV'.
  assert (HP : forall m, (m < n)%nat -> (forall x, D m x -> 0 < x) /\ (forall a b, D m a -> D m b -> a < b -> P m a T < P m b T)).
  { intros m Hm. pose proof (HW m Hm) as W. split; [apply (proj1 (proj1 W))|]. intros a b. destruct (HD m Hm) as (_ & _ & HT). exact (P_up _ _ _ _ W T a b HT). }
  assert (Ep : p = p').
  { destruct (Rtotal_order p p') as [L|[->|L]]; [|reflexivity|]; exfalso.
    - pose proof (volume_order n P mass rho rho' T p p' D Hn HM HP ltac:(intros m Hm; split; apply HD, Hm) H1 H2 L). lra.
    - pose proof (volume_order n P mass rho' rho T p' p D Hn HM HP ltac:(intros m Hm; split; apply HD, Hm) H2 H1 L). lra. }
  split; [exact Ep|]. intros m Hm. destruct (HP m Hm) as (_ & UP). destruct (HD m Hm) as (D1 & D2 & _). pose proof (H1 m Hm). pose proof (H2 m Hm).
  destruct (Rtotal_order (rho m) (rho' m)) as [L|[L|L]]; [|exact L|]; exfalso; [pose proof (UP _ _ D1 D2 L)|pose proof (UP _ _ D2 D1 L)]; lra.
Qed.
(** given the pressure instead of the energy, for materials that expand on heating *)
Theorem C91_fixed_pressure_unique : forall n P E D DT mass V rho rho' T T' p, (0 < n)%nat -> (forall m, (m < n)%nat -> 0 < mass m) ->
  (forall m, (m < n)%nat -> well_behaved (P m) (E m) (D m) (DT m)) ->
  (forall m, (m < n)%nat -> forall r t t', D m r -> DT m t -> DT m t' -> t < t' -> P m r t < P m r t') ->
  (forall m, (m < n)%nat -> D m (rho m) /\ D m (rho' m) /\ DT m T /\ DT m T') ->
  (forall m, (m < n)%nat -> P m (rho m) T = p) -> (forall m, (m < n)%nat -> P m (rho' m) T' = p) ->
  total n (fun m => mass m / rho m) = V -> total n (fun m => mass m / rho' m) = V ->
  T = T' /\ forall m, (m < n)%nat -> rho m = rho' m.
Proof.
  intros n P E D DT mass V. 
  assert (C : forall rho rho' T T' p, (0 < n)%nat -> (forall m, (m < n)%nat -> 0 < mass m) ->
    (forall m, (m < n)%nat -> well_behaved (P m) (E m) (D m) (DT m)) ->
    (forall m, (m < n)%nat -> forall r t t', D m r -> DT m t -> DT m t' -> t < t' -> P m r t < P m r t') ->
    (forall m, (m < n)%nat -> D m (rho m) /\ D m (rho' m) /\ DT m T /\ DT m T') ->
    (forall m, (m < n)%nat -> P m (rho m) T = p) -> (forall m, (m < n)%nat -> P m (rho' m) T' = p) ->
    total n (fun m => mass m / rho m) = V -> total n (fun m => mass m / rho' m) = V -> T < T' -> False).
  { intros rho rho' T T' p Hn HM HW HX HD H1 H2 HV HV' L.
    assert (LT : forall m, (m < n)%nat -> mass m / rho m < mass m / rho' m).
    { intros m Hm. destruct (HD m Hm) as (D1 & D2 & T1 & T2). pose proof (HW m Hm) as W. destruct W as ((WP & _) & W'). pose proof (WP _ D1). pose proof (WP _ D2). pose proof (HM m Hm).
      assert (rho' m < rho m).
      { destruct (Rlt_dec (rho' m) (rho m)) as [|nl]; [assumption|]. exfalso. pose proof (HX m Hm (rho m) T T' D1 T1 T2 L). rewrite (H1 m Hm) in *.
        assert (P m (rho m) T' <= P m (rho' m) T'); [|rewrite (H2 m Hm) in *; lra].
        destruct (Req_dec (rho m) (rho' m)) as [->|ne]; [lra|]. left. apply (P_up _ _ _ _ (HW m Hm) T'); auto. lra. }
      unfold Rdiv. apply Rmult_lt_compat_l; [assumption|]. apply Rinv_lt_contravar; [apply Rmult_lt_0_compat; assumption|assumption]. }
    destruct n as [|n0]; [lia|]. cbn in HV, HV'. pose proof (LT n0 ltac:(lia)).
    assert (total n0 (fun m => mass m / rho m) <= total n0 (fun m => mass m / rho' m)) by (apply total_le; intros m Hm; left; apply LT; lia). lra. }
  intros rho rho' T T' p Hn HM HW HX HD H1 H2 HV HV'.
  assert (ET : T = T').
  { destruct (Rtotal_order T T') as [L|[->|L]]; [|reflexivity|]; exfalso.
    - eapply (C rho rho'); try eassumption.
    - eapply (C rho' rho); try eassumption. intros m Hm. destruct (HD m Hm) as (D1 & D2 & D3 & D4). auto. }
  split; [exact ET|]. subst T'. apply (C91_fixed_temperature_unique n P E D DT mass V rho rho' T p p); try assumption.
  intros m Hm. destruct (HD m Hm) as (D1 & D2 & D3 & D4). auto.
Qed.
(** the distance between two states of a material is positive unless they are the same *)
Theorem C91_gap_zero : forall P E D DT rho T rho' T', well_behaved P E D DT -> D rho -> DT T -> D rho' -> DT T' ->
  0 <= gap P E rho T rho' T' /\ (gap P E rho T rho' T' = 0 <-> rho = rho' /\ T = T').
Proof.
  intros P E D DT rho T rho' T' W H1 H2 H3 H4.
  destruct (Req_dec rho rho') as [e1|n1]; [destruct (Req_dec T T') as [e2|n2]|].
  - subst. rewrite gap_same. split; [lra|]. tauto.
  - pose proof (gap_pos P E D DT rho T rho' T' W H1 H2 H3 H4 (or_intror n2)). split; [lra|]. split; [intros; lra|tauto].
  - pose proof (gap_pos P E D DT rho T rho' T' W H1 H2 H3 H4 (or_introl n1)). split; [lra|]. split; [intros; lra|tauto].
Qed.
(** two approximate equilibria of the same masses, volume and energy are as close as their tolerances are small *)
Theorem C91_near_equilibria_agree : forall n P E mass V U dp dv du rho T p dp' dv' du' rho' T' p',
  (forall m, (m < n)%nat -> 0 < mass m /\ 0 < rho m /\ 0 < rho' m) -> 0 < T -> 0 < T' -> 0 <= dp -> 0 <= dp' ->
  near_equilibrium n P E mass V U dp dv du rho T p -> near_equilibrium n P E mass V U dp' dv' du' rho' T' p' ->
  total n (fun m => mass m * gap (P m) (E m) (rho m) T (rho' m) T') <=
    Rabs (1 / T - 1 / T') * (du + du') + Rabs (p / T - p' / T') * (dv + dv') + (dp / T + dp' / T') * (2 * V + dv + dv').
Proof. exact near_agree. Qed.

(** ** the solvers *)
Definition P_ (eos : nat -> meos) (m : nat) := p_rt (eos m).
Definition E_ (eos : nat -> meos) (m : nat) := e_rt (eos m).
(** both pressure queries of every material agree *)
Definition same_pressures (n : nat) (eos : nat -> meos) : Prop :=
  forall m r T, (m < n)%nat -> 0 < r -> 0 < T -> p_re (eos m) r (e_rt (eos m) r T) = p_rt (eos m) r T.
Lemma rsum_total n f : rsum n f = total n f.
Proof. induction n as [|n IH]; [reflexivity|]. cbn. rewrite IH. reflexivity. Qed.
Lemma preferred n eos m r T : same_pressures n eos -> (m < n)%nat -> 0 < r -> 0 < T -> GetPressureFromPreferred (eos m) r T (e_rt (eos m) r T) false = p_rt (eos m) r T.
Proof. intros H Hm Hr HT. unfold GetPressureFromPreferred. destruct (pref_e (eos m)); [apply H; assumption|reflexivity]. Qed.

(** a converged density-temperature run is a near equilibrium in which the volume is exact *)
Theorem C91_RhoT_converged_is_near_equilibrium : forall n eos sie_total (params : MixParams RArith) lin s0 st sf,
  good_input n eos 1 params s0 -> good_params n params -> pressure_looked_up n eos s0 -> same_pressures n eos ->
  (forall m, (m < n)%nat -> tiny <= rho s0 m * vfrac s0 m) ->
  @PTESolver RArith pst ratio (RhoT_system n eos 1 sie_total params lin) s0 = (st, sf) -> converged st = true -> slow_convergence_detected st = false ->
  (forall m, (m < n)%nat -> tiny <= vfrac sf m) ->
  let mass m := rho s0 m * vfrac s0 m in
  let etot := total n mass * sie_total in
  let scale := Rmax (Rabs etot) (1 / 100000000000000) in
  exists T p tol, 0 < T /\ 0 <= tol /\ (forall m, (m < n)%nat -> 0 < rho sf m /\ temp sf m = T) /\
    (tol = pte_rel_tolerance_p params * Rabs (total n (fun m => vfrac sf m * press sf m)) \/ tol = pte_abs_tolerance_p params * scale) /\
    near_equilibrium n (P_ eos) (E_ eos) mass 1 etot (2 * tol) 0 (pte_rel_tolerance_e params * scale) (rho sf) T p.
Proof.
  intros n eos sie_total params lin s0 st sf G GP HP SP Hm E HC HS HV. cbv zeta.
  destruct (C34_RhoT_returned_state n eos sie_total params lin s0 st sf G GP HP Hm E) as (SV & R1 & T & HT & R2).
  destruct (C37_RhoT_converged_means_equilibrium n eos sie_total params lin s0 st sf G GP HP Hm E HC HS) as (HE & tol & HTol & HPr). cbv zeta in HE, HTol.
  pose proof (gi_n _ _ _ _ _ G) as Hn. repeat rewrite rsum_total in HE. repeat rewrite rsum_total in HTol.
  assert (PR : forall m, (m < n)%nat -> press sf m = p_rt (eos m) (rho sf m) T).
  { intros m Hm0. destruct (R2 m Hm0) as (_ & E1 & E2). rewrite E2, E1. apply (preferred n); try assumption. apply (R1 m Hm0). }
  assert (T0 : 0 <= tol). { pose proof (HPr 0%nat 0%nat Hn Hn) as H. rewrite Rminus_diag_eq, Rabs_R0 in H by reflexivity. lra. }
  exists T, (press sf 0%nat), tol. refine (conj HT (conj T0 (conj _ (conj HTol _)))).
  - intros m Hm0. split; [apply (R1 m Hm0)|apply (R2 m Hm0)].
  - refine (conj _ (conj _ _)).
    + intros m Hm0. unfold P_. rewrite <- PR by exact Hm0. apply HPr; assumption.
    + rewrite (total_ext n _ (vfrac sf)). { rewrite <- rsum_total, SV, Rminus_diag_eq, Rabs_R0 by reflexivity. lra. }
      intros m Hm0. destruct (R1 m Hm0) as (V1 & V2 & V3). rewrite <- (V3 (HV m Hm0)). field. lra.
    + rewrite Rabs_minus_sym. left. rewrite (total_ext n (fun m => rho s0 m * vfrac s0 m * E_ eos m (rho sf m) T) (fun m => rho s0 m * vfrac s0 m * sie sf m)); [exact HE|]. unfold E_.
      intros m Hm0. destruct (R2 m Hm0) as (_ & -> & _). reflexivity.
Qed.
(** a converged pressure-temperature run is one in which the pressures are exact, if the materials' inversions from pressure and temperature are
    exact at the returned state *)
Definition exact_inversion (n : nat) (eos : nat -> meos) (P T : R) : Prop :=
  forall m r0 e0, (m < n)%nat -> p_rt (eos m) (fst (de_pt (eos m) P T r0 e0)) T = P /\ snd (de_pt (eos m) P T r0 e0) = e_rt (eos m) (fst (de_pt (eos m) P T r0 e0)) T.
Theorem C91_PT_converged_is_near_equilibrium : forall n eos V sie_total (params : MixParams RArith) lin s0 st sf,
  good_input n eos V params s0 -> 0 < line_search_fac params <= 1 ->
  @PTESolver RArith pst ratio (PT_system n eos V sie_total params lin) s0 = (st, sf) -> converged st = true -> slow_convergence_detected st = false ->
  exact_inversion n eos (press sf 0%nat) (temp sf 0%nat) ->
  (forall m, (m < n)%nat -> tiny <= rho sf m) ->
  let mass m := rho s0 m * vfrac s0 m in
  let etot := total n mass * sie_total in
  exists T p, 0 < T /\ (forall m, (m < n)%nat -> 0 < rho sf m /\ temp sf m = T /\ press sf m = p) /\
    near_equilibrium n (P_ eos) (E_ eos) mass V etot 0 (pte_rel_tolerance_v params) (pte_rel_tolerance_e params * Rmax (Rabs etot) (1 / 100000000000000)) (rho sf) T p.
Proof.
  intros n eos V sie_total params lin s0 st sf G P2 E HC HS HX HR. cbv zeta. pose proof (gi_n _ _ _ _ _ G) as Hn. pose proof tiny_pos.
  set (Q := fun m P T r e => exact_inversion n eos P T -> p_rt (eos m) r T = P /\ e = e_rt (eos m) r T).
  assert (HQ : forall m P T r0 e0, (m < n)%nat -> Q m P T (fst (de_pt (eos m) P T r0 e0)) (snd (de_pt (eos m) P T r0 e0))).
  { intros m P T r0 e0 Hm HI. exact (HI m r0 e0 Hm). }
  destruct (C34_PT_returned_state n eos V sie_total params lin Q HQ s0 st sf G P2 E) as (p & T & HT & HA).
  destruct (C37_PT_converged_means_conservation n eos V sie_total params lin Q HQ s0 st sf G P2 E HC HS) as (HV & HE). cbv zeta in HE. repeat rewrite rsum_total in HE. rewrite rsum_total in HV.
  destruct (HA 0%nat Hn) as (A1 & A2 & _). rewrite A1, A2 in HX.
  exists T, p. refine (conj HT (conj _ (conj _ (conj _ _)))).
  - intros m Hm. destruct (HA m Hm) as (B1 & B2 & _). pose proof (HR m Hm). split; [lra|]. split; assumption.
  - intros m Hm. destruct (HA m Hm) as (_ & _ & B & _). destruct (B HX) as (B1 & _). unfold P_. rewrite B1, Rminus_diag_eq, Rabs_R0 by reflexivity. lra.
  - rewrite (total_ext n _ (vfrac sf)). { rewrite Rabs_minus_sym. lra. }
    intros m Hm. destruct (HA m Hm) as (_ & _ & _ & B). pose proof (HR m Hm). rewrite <- B by (rewrite Rabs_right; lra). field. lra.
  - rewrite Rabs_minus_sym. left. rewrite (total_ext n (fun m => rho s0 m * vfrac s0 m * E_ eos m (rho sf m) T) (fun m => rho s0 m * vfrac s0 m * sie sf m)); [exact HE|]. unfold E_.
    intros m Hm. destruct (HA m Hm) as (_ & _ & B & _). destruct (B HX) as (_ & ->). reflexivity.
Qed.
(** the two solvers, started from any guesses with the same masses, volume 1 and total energy, give the same answer up to the tolerances *)
Theorem C91_RhoT_and_PT_agree : forall n eos sie_total (params params' : MixParams RArith) lin lin' s0 s0' st st' sf sf',
  good_input n eos 1 params s0 -> good_params n params -> pressure_looked_up n eos s0 -> same_pressures n eos ->
  (forall m, (m < n)%nat -> tiny <= rho s0 m * vfrac s0 m) ->
  @PTESolver RArith pst ratio (RhoT_system n eos 1 sie_total params lin) s0 = (st, sf) -> converged st = true -> slow_convergence_detected st = false ->
  (forall m, (m < n)%nat -> tiny <= vfrac sf m) ->
  good_input n eos 1 params' s0' -> 0 < line_search_fac params' <= 1 ->
  @PTESolver RArith pst ratio (PT_system n eos 1 sie_total params' lin') s0' = (st', sf') -> converged st' = true -> slow_convergence_detected st' = false ->
  exact_inversion n eos (press sf' 0%nat) (temp sf' 0%nat) -> (forall m, (m < n)%nat -> tiny <= rho sf' m) ->
  (forall m, (m < n)%nat -> rho s0' m * vfrac s0' m = rho s0 m * vfrac s0 m) ->
  let mass m := rho s0 m * vfrac s0 m in
  let scale := Rmax (Rabs (total n mass * sie_total)) (1 / 100000000000000) in
  let T := temp sf 0%nat in let T' := temp sf' 0%nat in
  exists p tol, (tol = pte_rel_tolerance_p params * Rabs (total n (fun m => vfrac sf m * press sf m)) \/ tol = pte_abs_tolerance_p params * scale) /\
    (forall m, (m < n)%nat -> Rabs (p_rt (eos m) (rho sf m) T - p) <= 2 * tol) /\
    total n (fun m => mass m * gap (p_rt (eos m)) (e_rt (eos m)) (rho sf m) T (rho sf' m) T') <=
      Rabs (1 / T - 1 / T') * ((pte_rel_tolerance_e params + pte_rel_tolerance_e params') * scale) +
      Rabs (p / T - press sf' 0%nat / T') * pte_rel_tolerance_v params' + 2 * tol / T * (2 + pte_rel_tolerance_v params').
Proof.
  intros n eos sie_total params params' lin lin' s0 s0' st st' sf sf' G GP HP SP Hm E HC HS HV G' P2' E' HC' HS' HX' HR' EM. cbv zeta.
  destruct (C91_RhoT_converged_is_near_equilibrium n eos sie_total params lin s0 st sf G GP HP SP Hm E HC HS HV) as (T & p & tol & HT & T0 & R1 & HTol & N1). cbv zeta in HTol, N1.
  destruct (C91_PT_converged_is_near_equilibrium n eos 1 sie_total params' lin' s0' st' sf' G' P2' E' HC' HS' HX' HR') as (T' & p' & HT' & R1' & N2). cbv zeta in N2.
  pose proof (gi_n _ _ _ _ _ G) as Hn. destruct (R1 0%nat Hn) as (_ & ET). destruct (R1' 0%nat Hn) as (_ & ET' & EP'). rewrite ET, ET', EP'.
  rewrite (total_ext n (fun m => rho s0' m * vfrac s0' m) (fun m => rho s0 m * vfrac s0 m) EM) in N2.
  assert (N2' : near_equilibrium n (P_ eos) (E_ eos) (fun m => rho s0 m * vfrac s0 m) 1 (total n (fun m => rho s0 m * vfrac s0 m) * sie_total) 0 (pte_rel_tolerance_v params')
     (pte_rel_tolerance_e params' * Rmax (Rabs (total n (fun m => rho s0 m * vfrac s0 m) * sie_total)) (1 / 100000000000000)) (rho sf') T' p').
  { destruct N2 as (A & B & C). refine (conj A (conj _ _)).
    - rewrite (total_ext n (fun m => rho s0 m * vfrac s0 m / rho sf' m) (fun m => rho s0' m * vfrac s0' m / rho sf' m)); [exact B|]. intros m Hm0. rewrite EM by exact Hm0. reflexivity.
    - rewrite (total_ext n (fun m => rho s0 m * vfrac s0 m * E_ eos m (rho sf' m) T') (fun m => rho s0' m * vfrac s0' m * E_ eos m (rho sf' m) T')); [exact C|]. intros m Hm0. rewrite EM by exact Hm0. reflexivity. }
  exists p, tol. split; [exact HTol|]. split; [exact (proj1 N1)|]. pose proof tiny_pos.
  assert (HR : forall m, (m < n)%nat -> 0 < rho s0 m * vfrac s0 m /\ 0 < rho sf m /\ 0 < rho sf' m).
  { intros m Hm0. pose proof (Hm m Hm0). split; [lra|]. split; [apply (R1 m Hm0)|apply (R1' m Hm0)]. }
  pose proof (near_agree _ _ _ _ _ _ _ _ _ _ _ _ _ _ _ _ _ _ HR HT HT' (ltac:(lra) : 0 <= 2 * tol) (Rle_refl 0) N1 N2') as N. unfold P_, E_ in N.
  eapply Rle_trans; [exact N|]. apply Req_le. unfold Rdiv. ring.
Qed.

(** two density-temperature runs from different guesses *)
Theorem C91_RhoT_runs_agree : forall n eos sie_total (params params' : MixParams RArith) lin lin' s0 s0' st st' sf sf',
  good_input n eos 1 params s0 -> good_params n params -> pressure_looked_up n eos s0 -> same_pressures n eos -> (forall m, (m < n)%nat -> tiny <= rho s0 m * vfrac s0 m) ->
  good_input n eos 1 params' s0' -> good_params n params' -> pressure_looked_up n eos s0' -> (forall m, (m < n)%nat -> rho s0' m * vfrac s0' m = rho s0 m * vfrac s0 m) ->
  @PTESolver RArith pst ratio (RhoT_system n eos 1 sie_total params lin) s0 = (st, sf) -> converged st = true -> slow_convergence_detected st = false ->
  @PTESolver RArith pst ratio (RhoT_system n eos 1 sie_total params' lin') s0' = (st', sf') -> converged st' = true -> slow_convergence_detected st' = false ->
  (forall m, (m < n)%nat -> tiny <= vfrac sf m /\ tiny <= vfrac sf' m) ->
  let mass m := rho s0 m * vfrac s0 m in
  let scale := Rmax (Rabs (total n mass * sie_total)) (1 / 100000000000000) in
  let T := temp sf 0%nat in let T' := temp sf' 0%nat in
  exists tol tol', (tol = pte_rel_tolerance_p params * Rabs (total n (fun m => vfrac sf m * press sf m)) \/ tol = pte_abs_tolerance_p params * scale) /\
    (tol' = pte_rel_tolerance_p params' * Rabs (total n (fun m => vfrac sf' m * press sf' m)) \/ tol' = pte_abs_tolerance_p params' * scale) /\
    total n (fun m => mass m * gap (p_rt (eos m)) (e_rt (eos m)) (rho sf m) T (rho sf' m) T') <=
      Rabs (1 / T - 1 / T') * ((pte_rel_tolerance_e params + pte_rel_tolerance_e params') * scale) + 2 * (2 * tol / T + 2 * tol' / T').
Proof.
  intros n eos sie_total params params' lin lin' s0 s0' st st' sf sf' G GP HP SP Hm G' GP' HP' EM E HC HS E' HC' HS' HV. cbv zeta.
  destruct (C91_RhoT_converged_is_near_equilibrium n eos sie_total params lin s0 st sf G GP HP SP Hm E HC HS (fun m H => proj1 (HV m H))) as (T & p & tol & HT & T0 & R1 & HTol & N1). cbv zeta in HTol, N1.
  assert (Hm' : forall m, (m < n)%nat -> tiny <= rho s0' m * vfrac s0' m) by (intros m H; rewrite EM by exact H; apply Hm, H).
  destruct (C91_RhoT_converged_is_near_equilibrium n eos sie_total params' lin' s0' st' sf' G' GP' HP' SP Hm' E' HC' HS' (fun m H => proj2 (HV m H))) as (T' & p' & tol' & HT' & T0' & R1' & HTol' & N2). cbv zeta in HTol', N2.
  pose proof (gi_n _ _ _ _ _ G) as Hn. destruct (R1 0%nat Hn) as (_ & ET). destruct (R1' 0%nat Hn) as (_ & ET'). rewrite ET, ET'.
  rewrite (total_ext n (fun m => rho s0' m * vfrac s0' m) (fun m => rho s0 m * vfrac s0 m) EM) in N2, HTol'.
  exists tol, tol'. refine (conj HTol (conj HTol' _)). pose proof tiny_pos.
  assert (N2' : near_equilibrium n (P_ eos) (E_ eos) (fun m => rho s0 m * vfrac s0 m) 1 (total n (fun m => rho s0 m * vfrac s0 m) * sie_total) (2 * tol') 0
     (pte_rel_tolerance_e params' * Rmax (Rabs (total n (fun m => rho s0 m * vfrac s0 m) * sie_total)) (1 / 100000000000000)) (rho sf') T' p').
  { destruct N2 as (A & B & C). refine (conj A (conj _ _)).
    - rewrite (total_ext n (fun m => rho s0 m * vfrac s0 m / rho sf' m) (fun m => rho s0' m * vfrac s0' m / rho sf' m)); [exact B|]. intros m Hm0. rewrite EM by exact Hm0. reflexivity.
    - rewrite (total_ext n (fun m => rho s0 m * vfrac s0 m * E_ eos m (rho sf' m) T') (fun m => rho s0' m * vfrac s0' m * E_ eos m (rho sf' m) T')); [exact C|]. intros m Hm0. rewrite EM by exact Hm0. reflexivity. }
  assert (HR : forall m, (m < n)%nat -> 0 < rho s0 m * vfrac s0 m /\ 0 < rho sf m /\ 0 < rho sf' m).
  { intros m Hm0. pose proof (Hm m Hm0). split; [lra|]. split; [apply (R1 m Hm0)|apply (R1' m Hm0)]. }
  pose proof (near_agree _ _ _ _ _ _ _ _ _ _ _ _ _ _ _ _ _ _ HR HT HT' (ltac:(lra) : 0 <= 2 * tol) (ltac:(lra) : 0 <= 2 * tol') N1 N2') as N. unfold P_, E_ in N.
  eapply Rle_trans; [exact N|]. apply Req_le. rewrite Rplus_0_r, Rmult_0_r. unfold Rdiv. ring.
Qed.
(** two pressure-temperature runs from different guesses *)
Theorem C91_PT_runs_agree : forall n eos V sie_total (params params' : MixParams RArith) lin lin' s0 s0' st st' sf sf',
  good_input n eos V params s0 -> 0 < line_search_fac params <= 1 -> good_input n eos V params' s0' -> 0 < line_search_fac params' <= 1 ->
  (forall m, (m < n)%nat -> 0 < rho s0 m * vfrac s0 m /\ rho s0' m * vfrac s0' m = rho s0 m * vfrac s0 m) ->
  @PTESolver RArith pst ratio (PT_system n eos V sie_total params lin) s0 = (st, sf) -> converged st = true -> slow_convergence_detected st = false ->
  @PTESolver RArith pst ratio (PT_system n eos V sie_total params' lin') s0' = (st', sf') -> converged st' = true -> slow_convergence_detected st' = false ->
  exact_inversion n eos (press sf 0%nat) (temp sf 0%nat) -> exact_inversion n eos (press sf' 0%nat) (temp sf' 0%nat) ->
  (forall m, (m < n)%nat -> tiny <= rho sf m /\ tiny <= rho sf' m) ->
  let mass m := rho s0 m * vfrac s0 m in
  let scale := Rmax (Rabs (total n mass * sie_total)) (1 / 100000000000000) in
  let T := temp sf 0%nat in let T' := temp sf' 0%nat in let p := press sf 0%nat in let p' := press sf' 0%nat in
  total n (fun m => mass m * gap (p_rt (eos m)) (e_rt (eos m)) (rho sf m) T (rho sf' m) T') <=
    Rabs (1 / T - 1 / T') * ((pte_rel_tolerance_e params + pte_rel_tolerance_e params') * scale) +
    Rabs (p / T - p' / T') * (pte_rel_tolerance_v params + pte_rel_tolerance_v params').
Proof.
  intros n eos V sie_total params params' lin lin' s0 s0' st st' sf sf' G P2 G' P2' EM E HC HS E' HC' HS' HX HX' HR0. cbv zeta.
  destruct (C91_PT_converged_is_near_equilibrium n eos V sie_total params lin s0 st sf G P2 E HC HS HX (fun m H => proj1 (HR0 m H))) as (T & p & HT & R1 & N1). cbv zeta in N1.
  destruct (C91_PT_converged_is_near_equilibrium n eos V sie_total params' lin' s0' st' sf' G' P2' E' HC' HS' HX' (fun m H => proj2 (HR0 m H))) as (T' & p' & HT' & R1' & N2). cbv zeta in N2.
  pose proof (gi_n _ _ _ _ _ G) as Hn. destruct (R1 0%nat Hn) as (_ & ET & EP). destruct (R1' 0%nat Hn) as (_ & ET' & EP'). rewrite ET, ET', EP, EP'.
  assert (EM2 : forall m, (m < n)%nat -> rho s0' m * vfrac s0' m = rho s0 m * vfrac s0 m) by (intros m H; apply (EM m H)).
  rewrite (total_ext n (fun m => rho s0' m * vfrac s0' m) (fun m => rho s0 m * vfrac s0 m) EM2) in N2.
  assert (N2' : near_equilibrium n (P_ eos) (E_ eos) (fun m => rho s0 m * vfrac s0 m) V (total n (fun m => rho s0 m * vfrac s0 m) * sie_total) 0 (pte_rel_tolerance_v params')
     (pte_rel_tolerance_e params' * Rmax (Rabs (total n (fun m => rho s0 m * vfrac s0 m) * sie_total)) (1 / 100000000000000)) (rho sf') T' p').
  { destruct N2 as (A & B & C). refine (conj A (conj _ _)).
    - rewrite (total_ext n (fun m => rho s0 m * vfrac s0 m / rho sf' m) (fun m => rho s0' m * vfrac s0' m / rho sf' m)); [exact B|]. intros m Hm0. rewrite EM2 by exact Hm0. reflexivity.
    - rewrite (total_ext n (fun m => rho s0 m * vfrac s0 m * E_ eos m (rho sf' m) T') (fun m => rho s0' m * vfrac s0' m * E_ eos m (rho sf' m) T')); [exact C|]. intros m Hm0. rewrite EM2 by exact Hm0. reflexivity. }
  assert (HR : forall m, (m < n)%nat -> 0 < rho s0 m * vfrac s0 m /\ 0 < rho sf m /\ 0 < rho sf' m).
  { intros m Hm0. split; [apply (EM m Hm0)|]. split; [apply (R1 m Hm0)|apply (R1' m Hm0)]. }
  pose proof (near_agree _ _ _ _ _ _ _ _ _ _ _ _ _ _ _ _ _ _ HR HT HT' (Rle_refl 0) (Rle_refl 0) N1 N2') as N. unfold P_, E_ in N.
  eapply Rle_trans; [exact N|]. apply Req_le. unfold Rdiv. ring.
Qed.

(** a converged fixed-temperature run: pressures agree and the volumes fill the cell up to the tolerances, at exactly the given temperature *)
Theorem C91_FixedT_converged_is_near_equilibrium : forall n eos V (params : MixParams RArith) lin s0 st sf, good_input n eos V params s0 ->
  0 <= vfrac_safety_fac params < 1 -> 0 < line_search_fac params <= 1 -> 0 <= pte_rel_tolerance_p params -> 0 <= pte_abs_tolerance_p params ->
  (forall m, (m < n)%nat -> tiny <= rho s0 m * vfrac s0 m) ->
  @PTESolver RArith pst ratio (FixedT_system n eos V params lin) s0 = (st, sf) -> converged st = true -> slow_convergence_detected st = false ->
  (forall m, (m < n)%nat -> tiny <= vfrac sf m) ->
  let mass m := rho s0 m * vfrac s0 m in let T := Teq s0 in
  exists tol, 0 <= tol /\
    (tol = pte_rel_tolerance_p params * Rabs (total n (fun m => vfrac sf m * press sf m)) \/ tol = pte_abs_tolerance_p params * ft_uscale n eos V s0) /\
    (forall m, (m < n)%nat -> 0 < rho sf m) /\
    forall U, near_equilibrium n (P_ eos) (E_ eos) mass V U (INR n * tol) (pte_rel_tolerance_v params)
      (Rabs (total n (fun m => mass m * E_ eos m (rho sf m) T) - U)) (rho sf) T (press sf 0%nat).
Proof.
  intros n eos V params lin s0 st sf G P1 P2 A1 A2 Hm E HC HS HV. cbv zeta.
  pose proof (C34_FixedT_returned_state n eos V params lin s0 st sf G P1 P2 Hm E) as R.
  destruct (C37_FixedT_converged_means_equilibrium n eos V params lin s0 st sf G P1 P2 Hm E HC HS) as (HE & tol & HTol & HPr).
  pose proof (gi_n _ _ _ _ _ G) as Hn. rewrite rsum_total in HE, HTol.
  assert (T0 : 0 <= tol).
  { destruct HTol as [-> | ->]; apply Rmult_le_pos; try assumption; [apply Rabs_pos|]. pose proof (ft_uscale_ge n eos V s0). lra. }
  exists tol. refine (conj T0 (conj HTol (conj _ _))).
  - intros m Hm0. apply (R m Hm0).
  - intros U. refine (conj _ (conj _ (Rle_refl _))).
    + intros m Hm0. destruct (R m Hm0) as (_ & _ & _ & _ & _ & E1). unfold P_. rewrite <- E1. eapply Rle_trans; [apply (HPr m 0%nat Hm0 Hn)|].
      apply Rmult_le_compat_r; [exact T0|]. apply le_INR. lia.
    + rewrite (total_ext n _ (vfrac sf)). { rewrite Rabs_minus_sym. left. exact HE. }
      intros m Hm0. destruct (R m Hm0) as (V1 & V2 & V3 & _). rewrite <- (V3 (HV m Hm0)). field. lra.
Qed.
(** two such runs, from any guesses with the same masses, volume and temperature, agree up to the tolerances *)
Theorem C91_FixedT_runs_agree : forall n eos V (params params' : MixParams RArith) lin lin' s0 s0' st st' sf sf',
  good_input n eos V params s0 -> 0 <= vfrac_safety_fac params < 1 -> 0 < line_search_fac params <= 1 -> 0 <= pte_rel_tolerance_p params -> 0 <= pte_abs_tolerance_p params ->
  good_input n eos V params' s0' -> 0 <= vfrac_safety_fac params' < 1 -> 0 < line_search_fac params' <= 1 -> 0 <= pte_rel_tolerance_p params' -> 0 <= pte_abs_tolerance_p params' ->
  (forall m, (m < n)%nat -> tiny <= rho s0 m * vfrac s0 m /\ rho s0' m * vfrac s0' m = rho s0 m * vfrac s0 m) -> Teq s0' = Teq s0 -> 0 < Teq s0 ->
  @PTESolver RArith pst ratio (FixedT_system n eos V params lin) s0 = (st, sf) -> converged st = true -> slow_convergence_detected st = false ->
  @PTESolver RArith pst ratio (FixedT_system n eos V params' lin') s0' = (st', sf') -> converged st' = true -> slow_convergence_detected st' = false ->
  (forall m, (m < n)%nat -> tiny <= vfrac sf m /\ tiny <= vfrac sf' m) ->
  let mass m := rho s0 m * vfrac s0 m in let T := Teq s0 in
  exists tol tol', (tol = pte_rel_tolerance_p params * Rabs (total n (fun m => vfrac sf m * press sf m)) \/ tol = pte_abs_tolerance_p params * ft_uscale n eos V s0) /\
    (tol' = pte_rel_tolerance_p params' * Rabs (total n (fun m => vfrac sf' m * press sf' m)) \/ tol' = pte_abs_tolerance_p params' * ft_uscale n eos V s0') /\
    total n (fun m => mass m * ((p_rt (eos m) (rho sf m) T - p_rt (eos m) (rho sf' m) T) * (1 / rho sf' m - 1 / rho sf m))) <=
      Rabs (press sf 0%nat - press sf' 0%nat) * (pte_rel_tolerance_v params + pte_rel_tolerance_v params') +
      INR n * (tol + tol') * (2 * V + pte_rel_tolerance_v params + pte_rel_tolerance_v params').
Proof.
  intros n eos V params params' lin lin' s0 s0' st st' sf sf' G P1 P2 A1 A2 G' P1' P2' A1' A2' Hm ET HT E HC HS E' HC' HS' HV. cbv zeta.
  destruct (C91_FixedT_converged_is_near_equilibrium n eos V params lin s0 st sf G P1 P2 A1 A2 (fun m H => proj1 (Hm m H)) E HC HS (fun m H => proj1 (HV m H))) as (tol & T0 & HTol & R1 & N1).
  assert (Hm' : forall m, (m < n)%nat -> tiny <= rho s0' m * vfrac s0' m) by (intros m H; rewrite (proj2 (Hm m H)); apply (Hm m H)).
  destruct (C91_FixedT_converged_is_near_equilibrium n eos V params' lin' s0' st' sf' G' P1' P2' A1' A2' Hm' E' HC' HS' (fun m H => proj2 (HV m H))) as (tol' & T0' & HTol' & R1' & N2).
  exists tol, tol'. refine (conj HTol (conj HTol' _)). cbv zeta in N1, N2. rewrite ET in N2. set (T := Teq s0) in *.
  assert (N2' : forall U, near_equilibrium n (P_ eos) (E_ eos) (fun m => rho s0 m * vfrac s0 m) V U (INR n * tol') (pte_rel_tolerance_v params')
     (Rabs (total n (fun m => rho s0 m * vfrac s0 m * E_ eos m (rho sf' m) T) - U)) (rho sf') T (press sf' 0%nat)).
  { intros U. destruct (N2 U) as (B1 & B2 & B3). refine (conj B1 (conj _ (Rle_refl _))).
    rewrite (total_ext n (fun m => rho s0 m * vfrac s0 m / rho sf' m) (fun m => rho s0' m * vfrac s0' m / rho sf' m)); [exact B2|]. intros m H. rewrite (proj2 (Hm m H)). reflexivity. }
  pose proof tiny_pos.
  assert (HR : forall m, (m < n)%nat -> 0 < rho s0 m * vfrac s0 m /\ 0 < rho sf m /\ 0 < rho sf' m).
  { intros m H0. destruct (Hm m H0). split; [lra|]. split; [apply (R1 m H0)|apply (R1' m H0)]. }
  assert (Hn0 : 0 <= INR n) by apply pos_INR.
  pose proof (near_agree n (P_ eos) (E_ eos) _ V 0 _ _ _ _ _ _ _ _ _ _ _ _ HR HT HT (Rmult_le_pos _ _ Hn0 T0) (Rmult_le_pos _ _ Hn0 T0') (N1 0) (N2' 0)) as N.
  assert (GA : forall m, gap (P_ eos m) (E_ eos m) (rho sf m) T (rho sf' m) T = / T * ((p_rt (eos m) (rho sf m) T - p_rt (eos m) (rho sf' m) T) * (1 / rho sf' m - 1 / rho sf m))).
  { intros m. unfold gap, P_. unfold Rdiv. ring. }
  rewrite (total_ext n _ (fun m => / T * (rho s0 m * vfrac s0 m * ((p_rt (eos m) (rho sf m) T - p_rt (eos m) (rho sf' m) T) * (1 / rho sf' m - 1 / rho sf m))))) in N
    by (intros m H0; rewrite GA; ring).
  rewrite total_scal in N. apply (Rmult_le_reg_l (/ T)); [apply Rinv_0_lt_compat; exact HT|]. eapply Rle_trans; [exact N|]. apply Req_le.
  rewrite Rminus_diag_eq, Rabs_R0 by reflexivity. replace (press sf 0%nat / T - press sf' 0%nat / T) with (/ T * (press sf 0%nat - press sf' 0%nat)) by (unfold Rdiv; ring).
  rewrite Rabs_mult, (Rabs_right (/ T)) by (left; apply Rinv_0_lt_compat; exact HT). unfold Rdiv. ring.
Qed.

(** ** the hypotheses can be met: any number of gases in one cell, as the solvers see them *)
Lemma weos_pt m r T : p_rt (weos m) r T = (match m with O => 2 / 5 | S O => 2 / 3 | _ => 1 / 3 end) * r * (match m with O => 1 | S O => 2 | _ => 3 end) * T.
Proof. destruct m as [|[|m]]; reflexivity. Qed.
Example C91_solver_instance : forall n, (0 < n)%nat -> INR n <= 2 ^ 900 -> good_input n weos 1 wpar (wst n) /\ good_params n wpar /\ pressure_looked_up n weos (wst n) /\
  same_pressures n weos /\ (forall P T, 0 < P -> 0 < T -> exact_inversion n weos P T) /\ (forall m, (m < n)%nat -> tiny <= rho (wst n) m * vfrac (wst n) m) /\
  0 <= vfrac_safety_fac wpar < 1 /\ 0 < line_search_fac wpar <= 1 /\ 0 <= pte_rel_tolerance_p wpar /\ 0 <= pte_abs_tolerance_p wpar /\ 0 < Teq (wst n).
Proof.
  intros n Hn HB. destruct (C34_ex_RhoT n Hn HB) as (G & GP & HP & HM). refine (conj G (conj GP (conj HP (conj _ (conj _ (conj HM (conj wsafe (conj wfac _)))))))).
  - intros m r T _ Hr HT. destruct (weos_form m) as (g & c & -> & _). cbn. ring.
  - intros P T HP' HT m r0 e0 _. destruct (weos_form m) as (g & c & -> & Hg & Hc). cbn. split; [field; lra|reflexivity].
  - cbn. repeat split; lra.
Qed.
(** and the gases of that cell are well behaved at every positive density and temperature *)
Example C91_well_behaved_instance : forall m, well_behaved (P_ weos m) (E_ weos m) (fun r => 0 < r) (fun t => 0 < t).
Proof.
  intros m. destruct (weos_form m) as (g & c & E & Hg & Hc). unfold P_, E_. rewrite E. cbn.
  refine (conj _ (conj _ (conj _ (conj _ _)))); [split; intros; lra|split; intros; lra| | |].
  - exists (fun r t => c * ln t - g * c * ln r). intros r T Hr HT. exists c, 0. refine (conj _ (conj _ (conj _ _))).
    + auto_derive; [exact I|ring].
    + auto_derive; [exact I|ring].
    + auto_derive; [exact HT|field; lra].
    + auto_derive; [exact Hr|field; lra].
  - intros r T Hr HT. exists c. split; [|lra]. unfold is_specific_heat. auto_derive; [exact I|ring].
  - intros r T Hr HT. exists (r * (g * c * T)). split; [|repeat apply Rmult_lt_0_compat; lra]. exists (g * c * T). split; [|reflexivity]. auto_derive; [exact I|ring].
Qed.
Print Assumptions C91_equilibrium_unique.
Print Assumptions C91_fixed_temperature_unique.
Print Assumptions C91_fixed_pressure_unique.
Print Assumptions C91_gap_zero.
Print Assumptions C91_near_equilibria_agree.
Print Assumptions C91_RhoT_converged_is_near_equilibrium.
Print Assumptions C91_PT_converged_is_near_equilibrium.
Print Assumptions C91_RhoT_and_PT_agree.
Print Assumptions C91_RhoT_runs_agree.
Print Assumptions C91_PT_runs_agree.
Print Assumptions C91_FixedT_converged_is_near_equilibrium.
Print Assumptions C91_FixedT_runs_agree.
