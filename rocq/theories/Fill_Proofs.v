(** Generic lemmas about the shared FillEos body *)
From Coq Require Import Reals Bool Lra Lia.
From Verif Require Import Thermo_Spec Fill_Model.
Local Open Scope R_scope.
Section Fill.
Variable DE : R -> R -> R * R.
Variables ET RP Pq Tq Bq Cq : R -> R -> R.
Notation F := (fill_std DE ET RP Pq Tq Bq Cq).
Lemma fill_std_ok m o s s' : mode_of o m ->
  match m with InRhoSie => True
   | InRhoTemp => Tq (s_rho s) (ET (s_rho s) (s_temp s)) = s_temp s
   | InPressTemp => let (r, e) := DE (s_press s) (s_temp s) in Pq r e = s_press s /\ Tq r e = s_temp s
   | InRhoPress => Pq (s_rho s) (RP (s_rho s) (s_press s)) = s_press s end ->
  F o s = Some s' -> fill_ok Tq Pq Cq Bq m o s s'.
Proof.
  destruct o as [fr ft fs fp fc fb]; destruct s as [r t e p c b]. unfold mode_of. cbn [f_rho f_sie f_temp f_press s_rho s_temp s_press].
  destruct m; unfold fill_std, cond_upd.
  - intros (-> & ->) _. cbn. destruct ft, fp, fc, fb; cbn; intros H; injection H as <-;
    unfold fill_ok, fill_frame, fill_values; cbn; repeat split; auto; discriminate.
  - intros (-> & -> & -> & ->) HH. cbn. destruct fc, fb; cbn; intros H; injection H as <-;
    unfold fill_ok, fill_frame, fill_values; cbn; repeat split; auto; discriminate.
  - intros (-> & -> & -> & ->) HH. cbn [andb orb f_rho f_sie f_press f_temp f_bmod f_cv s_press s_temp].
    destruct (DE p t) as [r1 e1]. destruct HH. destruct fc, fb; cbn; intros HH; injection HH as <-;
    unfold fill_ok, fill_frame, fill_values; cbn; repeat split; auto; discriminate.
  - intros (-> & -> & -> & ->) HH. cbn. destruct fc, fb; cbn; intros H; injection H as <-;
    unfold fill_ok, fill_frame, fill_values; cbn; repeat split; auto; discriminate.
Qed.
Lemma fill_std_total m o s : mode_of o m -> exists s', F o s = Some s'.
Proof.
  destruct o as [fr ft fs fp fc fb]. unfold fill_std, mode_of.
  destruct m; cbn [f_rho f_sie f_temp f_press]; intros Hm; intuition (subst; cbn; eauto).
  all: destruct ft, fp; cbn; eauto.
Qed.
(** fewer than two inputs: refused, as long as the energy is among the requested quantities *)
Lemma fill_std_refuses o s : (inputs o < 2)%nat -> f_sie o = true -> F o s = None.
Proof.
  destruct o as [[] [] [] [] fc fb]; unfold inputs, fill_std; cbn; intros H E; try reflexivity; try discriminate; lia.
Qed.
(** only the energy given: accepted, density not filled *)
Lemma fill_std_silent o s : f_rho o = true -> f_sie o = false -> exists s', F o s = Some s' /\ s_rho s' = s_rho s.
Proof.
  destruct o as [fr ft fs fp fc fb]. cbn. intros -> ->. unfold fill_std, cond_upd. cbn.
  destruct ft, fp, fc, fb; cbn; eexists; (split; [reflexivity|]); reflexivity.
Qed.
End Fill.
