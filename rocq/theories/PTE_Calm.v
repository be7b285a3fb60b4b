(** When the caller's volume fractions and temperature guess are already admissible, InitBase keeps them: a computation
    rule for the initial guess, used by the concrete executions (non-vacuity examples and counterexamples).
    closure/mixed_cell_models.hpp:388-407, 424-581, 627-662. *)
From Coq Require Import ZArith Reals Bool List Lia Lra.
From Flocq Require Import Core.
From Verif Require Import Arith Robust_Model Robust_Proofs Thermo_Spec Thermo_Tools PTE_Driver_Model PTE_Model PTE_Tools PTE_Base_Props PTE_Init PTE_Tools2.
Import ListNotations.
Local Open Scope R_scope.

Section Calm.
Variable n : nat.
Variable eos : nat -> meos.
Variable vfrac_total sie_total : R.
Variable params : MixParams RArith.

Lemma sweeps_calm vmax : forall fuel vf, (forall m, (m < n)%nat -> vf m <= vmax m) -> forall m, (m < n)%nat -> sweeps n fuel vmax vf m = vf m.
Proof.
  destruct fuel as [|f]; intros vf H m Hm; [reflexivity|]. cbn [sweeps].
  assert (forall k, (k < n)%nat -> sweep_dv vmax vf k = 0) as HZ.
  { intros k Hk. unfold sweep_dv. rewrite Rmin_right by (apply H; exact Hk). ring. }
  rewrite (rsum_ext n _ (fun _ => 0) HZ), rsum_zero, Rabs_R0, Rlt_bool_true by (unfold min_dv; lra).
  rewrite mapm_lt by exact Hm. rewrite HZ by exact Hm. ring.
Qed.
Lemma normalize_calm vf : tiny <= vfrac_total -> rsum n vf = vfrac_total -> forall m, (m < n)%nat -> NormalizeVfrac n vfrac_total vf m = vf m.
Proof.
  intros Ht HS m Hm. pose proof tiny_pos. unfold NormalizeVfrac. rewrite sum_neumaier_id, HS. cbv zeta. rewrite mapm_lt by exact Hm.
  rewrite ratio_abs by (rewrite Rabs_right; lra). field. lra.
Qed.
Lemma setvfrac_calm T rb vf : tiny <= vfrac_total -> rsum n vf = vfrac_total -> (forall m, (m < n)%nat -> 0 < vf m <= vfrac_max eos T rb m) ->
  exists vf', SetVfracFromT n eos vfrac_total T rb vf = (vf', false) /\ forall m, (m < n)%nat -> vf' m = vf m.
Proof.
  intros Ht HS Hc. unfold SetVfracFromT. set (vf0 := mapm n _ vf).
  assert (forall m, (m < n)%nat -> vf0 m = vf m) as E0.
  { intros m Hm. unfold vf0. rewrite mapm_lt by exact Hm. rewrite Rle_bool_false; [reflexivity|apply Hc; exact Hm]. }
  rewrite Rlt_bool_false.
  2:{ rewrite <- HS. apply rsum_le. intros m Hm. apply Hc. exact Hm. }
  eexists. split; [reflexivity|]. intros m Hm.
  assert (rsum n vf0 = vfrac_total) as S0 by (rewrite (rsum_ext n vf0 vf E0); exact HS).
  pose proof (normalize_calm vf0 Ht S0) as N0. set (v1 := NormalizeVfrac n vfrac_total vf0) in *. clearbody v1.
  assert (forall k, (k < n)%nat -> sweeps n n (vfrac_max eos T rb) v1 k = v1 k) as N1.
  { apply sweeps_calm. intros k Hk. rewrite N0, E0 by exact Hk. apply Hc. exact Hk. }
  rewrite normalize_calm; [rewrite N1, N0, E0 by exact Hm; reflexivity|exact Ht| |exact Hm].
  rewrite <- S0. apply rsum_ext. intros k Hk. rewrite N1, N0 by exact Hk. reflexivity.
Qed.
Lemma fold_max_calm : forall l (f : nat -> R) t, (forall m, In m l -> f m <= t) -> fold_left (fun t m => Rmax (f m) t) l t = t.
Proof.
  induction l as [|a l IH]; intros f t H; [reflexivity|]. cbn [fold_left]. rewrite Rmax_right by (apply H; left; reflexivity).
  apply IH. intros m Hm. apply H. right. exact Hm.
Qed.
Lemma existsb_seq_false_intro (f : nat -> bool) N : (forall i, (i < N)%nat -> f i = false) -> existsb f (seq 0 N) = false.
Proof.
  intros H. apply not_true_iff_false. intros E. apply existsb_exists in E. destruct E as (x & Hx & E). apply in_seq in Hx. rewrite H in E by lia. discriminate.
Qed.
(** a guess temperature Tg that is kept: at least every material's minimum temperature, at most the limit, and hot enough
    to hold the energy (so that the guess iteration, which only heats, leaves it alone) *)
Record calm (s0 : pst) (Tg : R) : Prop := {
  cm_in : good_input n eos vfrac_total params s0;
  cm_vf : forall m, (m < n)%nat -> tiny <= vfrac s0 m;
  cm_T : Tnorm s0 = Tg; cm_T0 : 0 < Tg; cm_Tl : Tg <= temperature_limit params;
  cm_Tm : forall m, (m < n)%nat -> MinimumTemperature (eos m) <= Tg;
  cm_cap : forall m, (m < n)%nat -> vfrac s0 m <= vfrac_max eos Tg (fun m => rho s0 m * vfrac s0 m) m;
  cm_rp : forall m, (m < n)%nat -> RhoPmin (eos m) Tg <= rho s0 m;
  cm_md : forall m, (m < n)%nat -> rho s0 m <= MaximumDensity (eos m);
  cm_pp : forall m, (m < n)%nat -> GetSieCvFromTAndPreferred (eos m) (rho s0 m) (press s0 m) Tg = (e_rt (eos m) (rho s0 m) Tg, cv_rt (eos m) (rho s0 m) Tg);
  cm_cv : forall m, (m < n)%nat -> 0 <= cv_rt (eos m) (rho s0 m) Tg;
  cm_e : rsum n (fun m => rho s0 m * vfrac s0 m) * sie_total <= rsum n (fun m => rho s0 m * vfrac s0 m * e_rt (eos m) (rho s0 m) Tg)
}.
Lemma InitBase_calm s0 Tg : calm s0 Tg -> let s := InitBase n eos vfrac_total sie_total params s0 in
  Tnorm s = Tg /\ forall m, (m < n)%nat -> vfrac s m = vfrac s0 m /\ rho s m = rho s0 m.
Proof.
  intros C. cbv zeta. unfold InitBase. set (sA := InitRhoBarandRho n s0). cbv zeta.
  assert (forall m, (m < n)%nat -> rhobar sA m = rho s0 m * vfrac s0 m) as Erb by (intros m Hm; cbn; apply mapm_lt; exact Hm).
  assert (rhotot sA = rsum n (fun m => rho s0 m * vfrac s0 m)) as Ert by (cbn; rewrite sum_neumaier_id; apply rsum_mapm).
  set (us := Rmax (Rabs (rhotot sA * sie_total)) (1 / 100000000000000)).
  assert (tiny <= Rabs us) as Hus.
  { pose proof (Rmax_r (Rabs (rhotot sA * sie_total)) (1 / 100000000000000)). fold us in H. pose proof tiny_e14. pose proof tiny_pos. rewrite Rabs_right; lra. }
  change (uscale (set_uscale us sA)) with us. set (sB := set_utot _ _).
  assert (rhobar sB = rhobar sA /\ vfrac sB = vfrac s0 /\ rho sB = rho s0 /\ Tnorm sB = Tg /\ press sB = press s0) as (F1 & F2 & F3 & F4 & F5).
  { repeat split. apply (cm_T _ _ C). }
  assert (utot sB * uscale sB = rhotot sA * sie_total) as Fu by (change (ratio (rhotot sA * sie_total) us * us = rhotot sA * sie_total); apply ratio_mul; exact Hus).
  assert (GetTguess n eos vfrac_total params sB = tguess_loop n eos vfrac_total params 3 sB Tg) as EG.
  { unfold GetTguess. rewrite F4, Rlt_bool_true by apply (cm_T0 _ _ C). reflexivity. }
  rewrite EG. clear EG. cbn [tguess_loop].
  assert (Rmax Tg (newton_T n eos sB Tg) = Tg) as EN.
  { apply Rmax_left. unfold newton_T. rewrite Fu, F1, F3, F5.
    assert (forall m, (m < n)%nat -> GetSieCvFromTAndPreferred (eos m) (Rmin (rho s0 m) (MaximumDensity (eos m))) (press s0 m) Tg = (e_rt (eos m) (rho s0 m) Tg, cv_rt (eos m) (rho s0 m) Tg)) as EP.
    { intros m Hm. rewrite Rmin_left by (apply (cm_md _ _ C); exact Hm). apply (cm_pp _ _ C m Hm). }
    rewrite (rsum_ext n _ (fun m => rho s0 m * vfrac s0 m * e_rt (eos m) (rho s0 m) Tg)) by (intros m Hm; rewrite (EP m Hm), (Erb m Hm); reflexivity).
    rewrite (rsum_ext n (fun m => rhobar sA m * _) (fun m => rho s0 m * vfrac s0 m * cv_rt (eos m) (rho s0 m) Tg)) by (intros m Hm; rewrite (EP m Hm), (Erb m Hm); reflexivity).
    match goal with |- Tg - ?x <= Tg => assert (0 <= x); [|lra] end. apply ratio_pos_nonneg; [rewrite Ert; pose proof (cm_e _ _ C); lra|].
    apply rsum_nonneg. intros m Hm. apply Rmult_le_pos; [|apply (cm_cv _ _ C m Hm)]. apply Rlt_le, Rmult_lt_0_compat; [apply (gi_rho _ _ _ _ _ (cm_in _ _ C) m Hm)|apply (gi_vf _ _ _ _ _ (cm_in _ _ C) m Hm)]. }
  rewrite EN, Rmin_right by apply (cm_Tl _ _ C).
  assert ((if iterate_t_guess params then Tg else Tg) = Tg) as -> by (destruct (iterate_t_guess params); reflexivity).
  rewrite fold_max_calm by (intros m Hm; apply in_seq in Hm; apply (cm_Tm _ _ C); lia).
  destruct (setvfrac_calm Tg (rhobar sB) (vfrac sB) (gi_vt _ _ _ _ _ (cm_in _ _ C)) (gi_sum _ _ _ _ _ (cm_in _ _ C))) as (vf & EV & HV).
  { intros m Hm. rewrite F1, F2. split; [apply (gi_vf _ _ _ _ _ (cm_in _ _ C) m Hm)|]. pose proof (cm_cap _ _ C m Hm) as HH. unfold vfrac_max in *. rewrite Erb by exact Hm. exact HH. }
  rewrite EV. cbv beta iota.
  set (sC := set_rho _ _).
  assert (forall m, (m < n)%nat -> rho sC m = rho s0 m) as ER.
  { intros m Hm. unfold sC. cbn [rho set_rho]. rewrite mapm_lt by exact Hm. change (rhobar (set_vfrac vf sB)) with (rhobar sB). change (vfrac (set_vfrac vf sB)) with vf.
    rewrite HV, F2, F1, Erb by exact Hm. pose proof (cm_vf _ _ C m Hm). pose proof tiny_pos. rewrite ratio_abs by (rewrite Rabs_right; lra). field. lra. }
  rewrite existsb_seq_false_intro.
  2:{ intros m Hm. apply Rlt_bool_false. rewrite ER by exact Hm. apply (cm_rp _ _ C m Hm). }
  cbv beta iota. split; [reflexivity|]. intros m Hm. split; [exact (eq_trans (HV m Hm) ltac:(rewrite F2; reflexivity))|apply ER; exact Hm].
Qed.
End Calm.
