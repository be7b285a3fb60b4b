(** The state produced by PTESolverBase::InitBase (lemmas used by the per-system properties) *)
From Coq Require Import ZArith Reals Bool List Lia Lra.
From Flocq Require Import Core.
From Verif Require Import Arith Robust_Model Robust_Proofs Thermo_Spec Thermo_Tools PTE_Driver_Model PTE_Model PTE_Tools PTE_Base_Props.
Import ListNotations.
Local Open Scope R_scope.

(** What the caller must provide: at least one material, positive densities and volume fractions summing to vfrac_total,
    no sub-denormal quantities (2^-960), and a positive starting temperature. [admissible_cap]: every material can be
    given a volume fraction of at least 2^-960 without falling below its density of minimum pressure. *)
Record good_input (n : nat) (eos : nat -> meos) (vfrac_total : R) (params : MixParams RArith) (s : pst) : Prop := {
  gi_n : (0 < n)%nat;
  gi_vt : tiny <= vfrac_total;
  gi_rho : forall m, (m < n)%nat -> 0 < rho s m;
  gi_vf : forall m, (m < n)%nat -> 0 < vfrac s m;
  gi_sum : rsum n (vfrac s) = vfrac_total;
  gi_cap : forall m T, (m < n)%nat -> tiny <= safety * ratio (rho s m * vfrac s m) (RhoPmin (eos m) T);
  gi_T : 0 < default_tguess params;
  gi_Tl : 0 < temperature_limit params
}.

Section Init.
Variable n : nat.
Variable eos : nat -> meos.
Variable vfrac_total sie_total : R.
Variable params : MixParams RArith.

Record shape_ok (rb : nat -> R) (s : pst) : Prop := {
  so_rb : forall m, (m < n)%nat -> rhobar s m = rb m;
  so_vf : forall m, (m < n)%nat -> 0 < vfrac s m;
  so_sum : rsum n (vfrac s) = vfrac_total;
  so_mass : forall m, (m < n)%nat -> tiny <= vfrac s m -> rho s m * vfrac s m = rb m;
  so_rho : forall m, (m < n)%nat -> 0 < rb m -> 0 < rho s m
}.
(** the fields the search for a temperature guess leaves alone *)
Definition same_rest (s s' : pst) : Prop :=
  press s' = press s /\ temp s' = temp s /\ uscale s' = uscale s /\ utot s' = utot s /\ rhotot s' = rhotot s /\
  rhobar s' = rhobar s /\ Tnorm s' = Tnorm s /\ Teq s' = Teq s /\ Peq s' = Peq s /\ dx s' = dx s /\ res s' = res s /\ sie s' = sie s /\ u s' = u s /\ ms s' = ms s.
Lemma same_rest_refl s : same_rest s s. Proof. repeat split. Qed.
Lemma same_rest_trans a b c : same_rest a b -> same_rest b c -> same_rest a c.
Proof. unfold same_rest. intuition congruence. Qed.

Lemma fold_max_ge : forall l (f : nat -> R) t, t <= fold_left (fun t m => Rmax t (f m)) l t.
Proof. induction l as [|a l IH]; intros f t; cbn; [lra|]. pose proof (IH f (Rmax t (f a))). pose proof (Rmax_l t (f a)). lra. Qed.
Lemma fold_max_ge' : forall l (f : nat -> R) t, t <= fold_left (fun t m => Rmax (f m) t) l t.
Proof. induction l as [|a l IH]; intros f t; cbn; [lra|]. pose proof (IH f (Rmax (f a) t)). pose proof (Rmax_r (f a) t). lra. Qed.

Lemma tguess_ok rb : (0 < n)%nat -> tiny <= vfrac_total -> 0 < temperature_limit params ->
  (forall m T, (m < n)%nat -> tiny <= safety * ratio (rb m) (RhoPmin (eos m) T)) ->
  forall fuel s Tg s' Tg', shape_ok rb s -> 0 < Tg ->
  tguess_loop n eos vfrac_total params fuel s Tg = (s', Tg') -> shape_ok rb s' /\ 0 < Tg' /\ same_rest s s'.
Proof.
  intros Hn Hvt HTl Hcap. induction fuel as [|f IH]; intros s Tg s' Tg' HS HT E; cbn [tguess_loop] in E.
  { inversion E; subst. auto using same_rest_refl. }
  set (T1 := if iterate_t_guess params then _ else Tg) in E.
  assert (0 < T1) as HT1.
  { unfold T1. destruct (iterate_t_guess params); [|exact HT]. apply Rmin_glb_lt; [exact HTl|].
    pose proof (Rmax_l Tg (newton_T n eos s Tg)). lra. }
  set (T2 := fold_left _ _ T1) in E.
  assert (0 < T2) as HT2 by (pose proof (fold_max_ge' (seq 0 n) (fun m => MinimumTemperature (eos m)) T1); unfold T2; lra).
  clearbody T1 T2. pose proof tiny_pos as HTP. pose proof tiny_lt_1 as HT11.
  assert (forall m, (m < n)%nat -> tiny <= vfrac_max eos T2 (rhobar s) m) as HC.
  { intros m Hm. unfold vfrac_max. apply Rmin_glb; [|lra]. rewrite (so_rb _ _ HS m Hm). apply Hcap. exact Hm. }
  pose proof (C34_SetVfracFromT_sums n eos vfrac_total T2 (rhobar s) (vfrac s) Hn Hvt (so_vf _ _ HS) ltac:(rewrite (so_sum _ _ HS); exact Hvt) HC) as HV.
  destruct (SetVfracFromT n eos vfrac_total T2 (rhobar s) (vfrac s)) as [vf bad]. destruct bad.
  - apply IH in E; [|constructor|lra].
    + destruct E as (E1 & E2 & E3). split; [exact E1|]. split; [exact E2|]. eapply same_rest_trans; [|exact E3]. repeat split.
    + intros m Hm. cbn. apply HS. exact Hm.
    + intros m Hm. cbn. rewrite HV by exact Hm. apply HS. exact Hm.
    + cbn. rewrite (rsum_ext n vf (vfrac s) HV). apply HS.
    + intros m Hm. cbn. rewrite HV by exact Hm. apply HS. exact Hm.
    + apply HS.
  - destruct HV as [V1 V2].
    match type of E with (if _ then _ else (?x, _)) = _ => set (s1 := x) in E end.
    assert (shape_ok rb s1) as HS1.
    { constructor.
      - intros m Hm. cbn. apply HS. exact Hm.
      - intros m Hm. cbn. apply V2. exact Hm.
      - cbn. exact V1.
      - intros m Hm Ht. cbn in *. rewrite mapm_lt by exact Hm. rewrite ratio_mul; [apply HS; exact Hm|].
        rewrite Rabs_right; lra.
      - intros m Hm Hb. cbn. rewrite mapm_lt by exact Hm. rewrite (so_rb _ _ HS m Hm). apply ratio_pos_pos; [exact Hb|]. pose proof (V2 m Hm). lra. }
    assert (same_rest s s1) as HR by (repeat split).
    destruct (existsb _ _).
    + apply IH in E; [|exact HS1|lra]. destruct E as (E1 & E2 & E3). split; [exact E1|]. split; [exact E2|]. eapply same_rest_trans; [exact HR|exact E3].
    + inversion E; subst. auto.
Qed.

Lemma GetTguess_ok s s' Tg' : (0 < n)%nat -> tiny <= vfrac_total -> 0 < temperature_limit params -> 0 < default_tguess params ->
  forall rb, (forall m T, (m < n)%nat -> tiny <= safety * ratio (rb m) (RhoPmin (eos m) T)) -> shape_ok rb s ->
  GetTguess n eos vfrac_total params s = (s', Tg') -> shape_ok rb s' /\ 0 < Tg' /\ same_rest s s'.
Proof.
  intros Hn Hv Hl Hd rb Hc HS E. unfold GetTguess in E. eapply tguess_ok in E; eauto.
  destruct (Rlt_bool 0 (Tnorm s)) eqn:ET.
  - revert ET. case Rlt_bool_spec; [auto|discriminate].
  - pose proof (fold_max_ge (seq 0 n) (temp s) (default_tguess params)). lra.
Qed.

Lemma initrho_ok s : good_input n eos vfrac_total params s -> shape_ok (fun m => rho s m * vfrac s m) (InitRhoBarandRho n s).
Proof.
  intros G. constructor; cbn.
  - intros m Hm. apply mapm_lt. exact Hm.
  - apply G.
  - apply G.
  - reflexivity.
  - intros m Hm _. apply G. exact Hm.
Qed.

(** everything InitBase establishes *)
Record init_ok (s0 s : pst) : Prop := {
  io_shape : shape_ok (fun m => rho s0 m * vfrac s0 m) s;
  io_Tn : 0 < Tnorm s;
  io_temp : forall m, (m < n)%nat -> temp s m = 1;
  io_us : uscale s = Rmax (Rabs (rsum n (fun m => rho s0 m * vfrac s0 m) * sie_total)) (1 / 100000000000000);
  io_rt : rhotot s = rsum n (fun m => rho s0 m * vfrac s0 m);
  io_ut : utot s = ratio (rsum n (fun m => rho s0 m * vfrac s0 m) * sie_total) (uscale s);
  io_sie : forall m, (m < n)%nat -> sie s m = e_rt (eos m) (rho s m) (Tnorm s);
  io_u : forall m, (m < n)%nat -> u s m = sie s m * ratio (rhobar s m) (uscale s);
  io_p : forall m, (m < n)%nat -> press s m =
     if pref_p (eos m) && negb (bad_value (press s0 m)) then ratio (press s0 m) (uscale s)
     else ratio (GetPressureFromPreferred (eos m) (rho s m) (Tnorm s) (sie s m) false) (uscale s)
}.
Lemma InitBase_ok s0 : good_input n eos vfrac_total params s0 -> init_ok s0 (InitBase n eos vfrac_total sie_total params s0).
Proof.
  intros G. unfold InitBase. set (sA := InitRhoBarandRho n s0).
  pose proof (initrho_ok s0 G) as HA. fold sA in HA.
  assert (rhotot sA = rsum n (fun m => rho s0 m * vfrac s0 m)) as ER.
  { unfold sA. cbn. rewrite sum_neumaier_id. apply rsum_mapm. }
  set (us := Rmax (Rabs (rhotot sA * sie_total)) (1 / 100000000000000)).
  set (sB := set_utot (ratio (rhotot sA * sie_total) (uscale (set_uscale us sA))) (set_uscale us sA)).
  cbv zeta. change (uscale (set_uscale us sA)) with us.
  destruct (GetTguess n eos vfrac_total params sB) as [s1 Tg] eqn:EG.
  cbv beta iota.
  assert (shape_ok (fun m => rho s0 m * vfrac s0 m) sB) as HB by (constructor; apply HA).
  destruct (GetTguess_ok _ _ _ (gi_n _ _ _ _ _ G) (gi_vt _ _ _ _ _ G) (gi_Tl _ _ _ _ _ G) (gi_T _ _ _ _ _ G) _ (fun m T Hm => gi_cap _ _ _ _ _ G m T Hm) HB EG) as (H1 & H2 & H3).
  destruct H3 as (P1 & P2 & P3 & P4 & P5 & P6 & _).
  change (press sB) with (press s0) in P1. change (uscale sB) with us in P3.
  change (utot sB) with (ratio (rhotot sA * sie_total) us) in P4. change (rhotot sB) with (rhotot sA) in P5.
  assert (us = Rmax (Rabs (rsum n (fun m => rho s0 m * vfrac s0 m) * sie_total)) (1 / 100000000000000)) as EU by (unfold us; rewrite ER; reflexivity).
  clear EG HB. constructor.
  - constructor; cbn; apply H1.
  - exact H2.
  - intros m Hm. cbn. apply mapm_lt. exact Hm.
  - cbn. rewrite P3. exact EU.
  - cbn. rewrite P5. exact ER.
  - cbn. rewrite P4, P3, ER. reflexivity.
  - intros m Hm. cbn. apply mapm_lt. exact Hm.
  - intros m Hm. cbn. apply mapm_lt. exact Hm.
  - intros m Hm. cbn. rewrite mapm_lt by exact Hm. cbn. rewrite P1, P3. reflexivity.
Qed.
Lemma us_pos s0 s : init_ok s0 s -> 1 / 100000000000000 <= uscale s.
Proof. intros H. rewrite (io_us _ _ H). apply Rmax_r. Qed.
End Init.
