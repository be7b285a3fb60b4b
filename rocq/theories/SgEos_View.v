(** The outputs of one cell in terms of the scratch row after the solve. *)
From Coq Require Import ZArith Reals Bool List Lia Lra FunctionalExtensionality.
From Flocq Require Import Core.
From Verif Require Import Arith Robust_Model RootFinding_Model PTE_Driver_Model PTE_Model PTE_Tools SgEos_Model SgEos_Spec SgEos_Proofs.
Import ListNotations.
Local Open Scope R_scope.

Section View.
Variable nmat : nat.
Variable eos_offsets : nat -> nat.
Variable cutoff : R.
Variable c : cell.
Notation part := (takes_part nmat cutoff c).
Notation np := (length (parts part nmat)).
Notation init := (init_fun nmat eos_offsets cutoff).

Record after_init (t s p : R) (c1 : cell) (r1 : row) (l : loc) : Prop := {
  ai_np : l_npte l = np;
  ai_mass : l_mass_sum l = total nmat c;
  ai_vs : l_vfrac_sum l = over_parts nmat part (fraction nmat c);
  ai_fm : f_mass c1 = map_n nmat (fraction nmat c) (f_mass c);
  ai_fvol : f_vol c1 = map_n nmat (f_mass c) (f_vol c);
  ai_fie : f_ie c1 = map_n nmat (fun m => c_sie c * f_mass c m * s) (f_ie c);
  ai_same : c_press c1 = c_press c /\ c_pmax c1 = c_pmax c /\ c_vol c1 = c_vol c /\ c_spvol c1 = c_spvol c /\ c_sie c1 = c_sie c /\ c_temp c1 = c_temp c;
  ai_opt : f_bmod c1 = f_bmod c /\ f_dpde c1 = f_dpde c /\ f_cv c1 = f_cv c;
  ai_mats : forall j, (j < np)%nat -> r_mats r1 j = nth j (parts part nmat) 0%nat;
  ai_idxs : forall j, (j < np)%nat -> r_idxs r1 j = (eos_offsets (nth j (parts part nmat) 0%nat) - 1)%nat;
  ai_vf : forall j, (j < np)%nat -> r_vfrac r1 j = fraction nmat c (nth j (parts part nmat) 0%nat);
  ai_rho : forall j, (j < np)%nat -> r_rho r1 j = fraction nmat c (nth j (parts part nmat) 0%nat) / c_spvol c / fraction nmat c (nth j (parts part nmat) 0%nat);
  ai_temp : forall j, (j < np)%nat -> r_temp r1 j = c_temp c * ev2k * t;
  ai_press : forall j, (j < np)%nat -> r_press r1 j = c_press c * p;
  ai_sie : forall j, (j < np)%nat -> r_sie r1 j = c_sie c * fraction nmat c (nth j (parts part nmat) 0%nat) * s
}.
Lemma init_view t s p r c1 r1 l : init t s p c r = (c1, r1, l) -> after_init t s p c1 r1 l.
Proof.
  unfold init_fun. cbv zeta. change (rsum nmat (f_mass c)) with (total nmat c).
  change (fun m => f_mass c m / total nmat c) with (fraction nmat c).
  set (fm := map_n nmat (fraction nmat c) (f_mass c)).
  destruct (select nmat eos_offsets cutoff fm r) as [[n mats] idxs] eqn:E. apply select_spec in E. cbv zeta in E. destruct E as (E1 & E2 & _).
  rewrite (parts_ext (fun m => Rlt_bool cutoff (fm m)) part nmat) in E1, E2 by (intros m Hm; unfold fm; rewrite map_n_lt by exact Hm; reflexivity).
  assert (forall j, (j < np)%nat -> fm (mats j) = fraction nmat c (nth j (parts part nmat) 0%nat)) as HF.
  { intros j Hj. destruct (E2 j ltac:(lia)) as [-> _]. unfold fm. apply map_n_lt. apply parts_nth. exact Hj. }
  intros H. injection H as <- <- <-. subst n.
  constructor; cbn [l_npte l_mass_sum l_vfrac_sum f_mass f_vol f_ie c_press c_pmax c_vol c_spvol c_sie c_temp f_bmod f_dpde f_cv r_mats r_idxs r_sie r_vfrac r_temp r_press r_rho]; try tauto; try reflexivity.
  - unfold over_parts. rewrite <- rsum_parts. apply rsum_ext. intros j Hj. rewrite map_n_lt, HF by exact Hj. reflexivity.
  - intros j Hj. apply (E2 j Hj).
  - intros j Hj. apply (E2 j Hj).
  - intros j Hj. rewrite map_n_lt, HF by exact Hj. reflexivity.
  - intros j Hj. rewrite !map_n_lt, HF by exact Hj. reflexivity.
  - intros j Hj. rewrite map_n_lt by exact Hj. reflexivity.
  - intros j Hj. rewrite map_n_lt by exact Hj. reflexivity.
  - intros j Hj. rewrite map_n_lt, HF by exact Hj. reflexivity.
Qed.

End View.

Section Final.
Variable nmat : nat.
Variable eos : nat -> seos.
Variable eos_offsets : nat -> nat.
Variable o : opts.
Variable c : cell.
Variable part : nat -> bool.
Notation rk := (rank part).
Notation np := (length (parts part nmat)).
Notation eosm := (eos_of eos eos_offsets).
Hypothesis mass_ne : total nmat c <> 0.
(** what the final functor relies on *)
Record ready (c1 : cell) (r1 : row) (l : loc) : Prop := {
  rd_np : l_npte l = np;
  rd_mass : l_mass_sum l = total nmat c;
  rd_fm : f_mass c1 = map_n nmat (fraction nmat c) (f_mass c);
  rd_same : c_press c1 = c_press c /\ c_pmax c1 = c_pmax c /\ c_temp c1 = c_temp c;
  rd_opt : f_bmod c1 = f_bmod c /\ f_dpde c1 = f_dpde c /\ f_cv c1 = f_cv c;
  rd_mats : forall j, (j < np)%nat -> r_mats r1 j = nth j (parts part nmat) 0%nat;
  rd_idxs : forall j, (j < np)%nat -> r_idxs r1 j = (eos_offsets (nth j (parts part nmat) 0%nat) - 1)%nat
}.
(** the material states held in row [r] *)
Definition row_state (r : row) : mstate :=
  mkMS (fun m => r_vfrac r (rk m)) (fun m => r_rho r (rk m)) (fun m => r_temp r (rk m)) (fun m => r_press r (rk m)) (fun m => r_sie r (rk m)).
Lemma nth_at m : (m < nmat)%nat -> part m = true -> nth (rk m) (parts part nmat) 0%nat = m /\ (rk m < np)%nat.
Proof. intros H1 H2. split; [apply nth_rank; assumption|apply rank_lt; assumption]. Qed.

Lemma final_view c1 r1 l tf sf pf si r2 : ready c1 r1 l -> r_mats r2 = r_mats r1 -> r_idxs r2 = r_idxs r1 ->
  let c' := pmax_fun (final_fun nmat eos o tf sf pf (set_cell_sie si c1) r2 l) in
  let q := row_state r2 in
  averaged nmat eos eos_offsets o part c c' q /\ others_untouched nmat part c c' /\
  c_vol c' = c_vol c1 /\ c_spvol c' = c_spvol c1 /\
  (pf = 1 -> c_press c' = over_parts nmat part (fun m => q_P q m * q_vf q m)) /\ (pf = 0 -> c_press c' = c_press c) /\
  (tf = 1 -> c_temp c' = over_parts nmat part (fun m => q_T q m * q_vf q m) / ev2k) /\ (tf = 0 -> c_temp c' = c_temp c) /\
  (sf = 0 -> c_sie c' = si) /\
  (forall m, (m < nmat)%nat -> part m = false -> f_vol c' m = f_vol c1 m /\ f_ie c' m = f_ie c1 m).
Proof.
  intros A EM EI. cbv zeta.
  assert (forall j, (j < np)%nat -> r_mats r2 j = nth j (parts part nmat) 0%nat) as HM by (rewrite EM; apply (rd_mats _ _ _ A)).
  assert (forall j, (j < np)%nat -> r_idxs r2 j = (eos_offsets (nth j (parts part nmat) 0%nat) - 1)%nat) as HI by (rewrite EI; apply (rd_idxs _ _ _ A)).
  assert (forall g h, (forall m, (m < nmat)%nat -> part m = true -> g (rk m) = h m) -> rsum np g = over_parts nmat part h) as HS.
  { intros g h H. rewrite rsum_rank. apply rsum_ext. intros m Hm. destruct (part m) eqn:E; [apply H; assumption|reflexivity]. }
  assert (forall m, (m < nmat)%nat -> part m = true -> r_mats r2 (rk m) = m /\ r_idxs r2 (rk m) = (eos_offsets m - 1)%nat) as HR.
  { intros m H1 H2. destruct (nth_at m H1 H2) as [E1 E2]. rewrite HM, HI, E1 by exact E2. split; reflexivity. }
  assert (forall f old m, (m < nmat)%nat -> part m = true -> scatter_to np (r_mats r2) f old m = f (rk m)) as HSc.
  { intros f old m H1 H2. destruct (nth_at m H1 H2) as [E1 E2]. destruct (HR m H1 H2) as [E3 _]. rewrite <- E3 at 1. apply scatter_at; [|exact E2].
    intros i j Hi Hj. rewrite !HM by assumption. intros E. apply (proj1 (NoDup_nth (parts part nmat) 0%nat) (parts_nodup part nmat)); assumption. }
  assert (forall f old m, (m < nmat)%nat -> part m = false -> scatter_to np (r_mats r2) f old m = old m) as HSn.
  { intros f old m H1 H2. apply scatter_not. intros i Hi. rewrite HM by exact Hi. intros E. destruct (parts_nth part nmat i Hi) as [_ H3]. congruence. }
  assert (forall m, (m < nmat)%nat -> f_mass c1 m * l_mass_sum l = f_mass c m) as Hfm.
  { intros m Hm. rewrite (rd_fm _ _ _ A), (rd_mass _ _ _ A), map_n_lt by exact Hm. unfold fraction. field. exact mass_ne. }
  assert (forall m, (m < nmat)%nat -> f_mass c1 m = fraction nmat c m) as Hfr.
  { intros m Hm. rewrite (rd_fm _ _ _ A), map_n_lt by exact Hm. reflexivity. }
  destruct (rd_same _ _ _ A) as (S1 & S2 & S6). destruct (rd_opt _ _ _ A) as (O1 & O2 & O3).
  unfold pmax_fun, final_fun, set_cell_sie. cbv zeta. rewrite (rd_np _ _ _ A).
  cbn [c_press c_pmax c_vol c_spvol c_sie c_temp c_bmod c_dpde c_cv f_mass f_vol f_ie f_bmod f_dpde f_cv].
  set (pr := (if Req_bool pf 1 then 0 else c_press c1) + _). split; [|split; [|split; [|split; [|split; [|split; [|split; [|split; [|split]]]]]]]].
  - constructor; cbn [c_press c_pmax c_vol c_spvol c_sie c_temp c_bmod c_dpde c_cv f_mass f_vol f_ie f_bmod f_dpde f_cv row_state q_vf q_rho q_T q_P q_e].
    + apply HS. intros m H1 H2. destruct (HR m H1 H2) as [_ ->]. unfold eos_of. ring.
    + apply HS. intros m H1 H2. destruct (HR m H1 H2) as [_ ->]. unfold eos_of. ring.
    + apply HS. intros m H1 H2. destruct (HR m H1 H2) as [-> ->]. rewrite Hfr by exact H1. unfold eos_of. ring.
    + rewrite S2. unfold Rmax. case Rlt_bool_spec; intros H; destruct (Rle_dec (c_pmax c) pr); try reflexivity; lra.
    + intros m. unfold map_n at 1. destruct (Nat.ltb_spec m nmat); [apply Hfm; assumption|]. rewrite (rd_fm _ _ _ A). apply map_n_ge. assumption.
    + intros m H1 H2. rewrite HSc by assumption. reflexivity.
    + intros m H1 H2. rewrite HSc by assumption. destruct (HR m H1 H2) as [-> _]. rewrite Rmult_assoc, Hfm by exact H1. ring.
    + intros m H1 H2 H3. unfold do_frac_bmod. rewrite H3, HSc by assumption. destruct (HR m H1 H2) as [_ ->]. reflexivity.
    + intros m H1 H2 H3. unfold do_frac_dpde. rewrite H3, HSc by assumption. destruct (HR m H1 H2) as [_ ->]. reflexivity.
    + intros m H1 H2 H3 H4. unfold do_frac_cv. rewrite H4, HSc by assumption. destruct (HR m H1 H2) as [_ ->]. reflexivity.
    + split; [unfold do_frac_bmod; intros ->; exact O1|unfold do_frac_dpde; intros ->; exact O2].
  - intros m H1 H2. cbn [f_bmod f_dpde f_cv]. rewrite <- O1, <- O2, <- O3. split; [|split].
    + destruct (do_frac_bmod o); [apply HSn; assumption|reflexivity].
    + destruct (do_frac_dpde o); [apply HSn; assumption|reflexivity].
    + destruct (do_frac_cv o); [apply HSn; assumption|reflexivity].
  - reflexivity.
  - reflexivity.
  - intros ->. unfold pr. rewrite Req_bool_true by reflexivity. rewrite Rplus_0_l. apply HS. intros m H1 H2. cbn [row_state q_P q_vf]. ring.
  - intros ->. unfold pr. rewrite Req_bool_false by lra. rewrite (rsum_ext _ _ (fun _ => 0)), rsum_zero by (intros; ring). rewrite S1. ring.
  - intros ->. rewrite Req_bool_true by reflexivity. rewrite Rplus_0_l. f_equal. apply HS. intros m H1 H2. cbn [row_state q_T q_vf]. ring.
  - intros ->. rewrite Req_bool_false by lra. rewrite (rsum_ext _ _ (fun _ => 0)), rsum_zero by (intros; ring). rewrite S6. ring.
  - intros ->. rewrite Req_bool_false by lra. rewrite (rsum_ext _ _ (fun _ => 0)), rsum_zero by (intros; ring). ring.
  - intros m H1 H2. rewrite !HSn by assumption. split; reflexivity.
Qed.
End Final.
