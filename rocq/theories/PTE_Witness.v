(** Concrete instances used to show that the hypotheses of the PTE theorems are satisfiable:
    a linear solver that is exact for every nonsingular matrix (Gaussian elimination), and a two-gas cell. *)
From Coq Require Import ZArith Reals Bool List Lia Lra.
From Flocq Require Import Core.
From Verif Require Import Arith Robust_Model Robust_Proofs Thermo_Spec Thermo_Tools PTE_Driver_Model PTE_Model PTE_Tools PTE_Base_Props PTE_Init PTE_Tools2.
Import ListNotations.
Local Open Scope R_scope.

(** ** Gaussian elimination of the last column *)
Definition skp (i0 i : nat) : nat := if (i <? i0)%nat then i else S i.
Definition pivot (N : nat) (a : nat -> nat -> R) : option nat := find (fun i => negb (Req_bool (a i N) 0)) (seq 0 (S N)).
Fixpoint gauss2 (N : nat) (a : nat -> nat -> R) (b : nat -> R) : nat -> R :=
  match N with
  | O => fun _ => 0
  | S k =>
    match pivot k a with
    | None => fun _ => 0
    | Some i0 =>
      let f i := a i k / a i0 k in
      let x := gauss2 k (fun i j => a (skp i0 i) j - f (skp i0 i) * a i0 j) (fun i => b (skp i0 i) - f (skp i0 i) * b i0) in
      upd x k ((b i0 - rsum k (fun j => a i0 j * x j)) / a i0 k)
    end
  end.
Lemma pivot_some N a i0 : pivot N a = Some i0 -> (i0 <= N)%nat /\ a i0 N <> 0.
Proof.
  intros H. apply find_some in H. destruct H as [H1 H2]. apply in_seq in H1. split; [lia|].
  revert H2. case Req_bool_spec; [discriminate|auto].
Qed.
Lemma pivot_none N a : pivot N a = None -> forall i, (i <= N)%nat -> a i N = 0.
Proof.
  intros H i Hi. pose proof (find_none _ _ H i ltac:(apply in_seq; lia)) as H1. cbv beta in H1. revert H1.
  case Req_bool_spec; [auto|discriminate].
Qed.
Lemma skp_onto i0 k i : (i0 <= k)%nat -> (i <= k)%nat -> i = i0 \/ exists i', (i' < k)%nat /\ skp i0 i' = i.
Proof.
  intros H1 H2. destruct (Nat.eq_dec i i0) as [->|N]; [left; reflexivity|]. right. unfold skp.
  destruct (Nat.ltb_spec i i0).
  - exists i. split; [lia|]. destruct (Nat.ltb_spec i i0); lia.
  - exists (i - 1)%nat. split; [lia|]. destruct (Nat.ltb_spec (i - 1) i0); lia.
Qed.
Lemma skp_le i0 k i : (i < k)%nat -> (skp i0 i <= k)%nat.
Proof. unfold skp. destruct (Nat.ltb_spec i i0); lia. Qed.
Lemma fld1 r p : p <> 0 -> r + p * (- r / p) = 0. Proof. intros. field. assumption. Qed.
Lemma fld2 r p q : p <> 0 -> q / p * r + q * (- r / p) = 0. Proof. intros. field. assumption. Qed.
Lemma fld3 r p b : p <> 0 -> r + p * ((b - r) / p) = b. Proof. intros. field. assumption. Qed.
Lemma fld4 r p q b c : p <> 0 -> c - q / p * b + q / p * r + q * ((b - r) / p) = c. Proof. intros. field. assumption. Qed.
Lemma gauss2_ok : forall N a, (forall x, (forall i, (i < N)%nat -> rsum N (fun j => a i j * x j) = 0) -> forall j, (j < N)%nat -> x j = 0) ->
  forall b i, (i < N)%nat -> rsum N (fun j => a i j * gauss2 N a b j) = b i.
Proof.
  induction N as [|k IH]; intros a HA b i Hi; [lia|]. cbn [gauss2].
  destruct (pivot k a) as [i0|] eqn:EP.
  2:{ exfalso. pose proof (pivot_none _ _ EP) as H0. pose proof (HA (fun j => if (j =? k)%nat then 1 else 0)) as H. cbv beta in H.
      assert (forall i, (i < S k)%nat -> rsum (S k) (fun j => a i j * (if (j =? k)%nat then 1 else 0)) = 0) as H1.
      { intros r Hr. cbn [rsum]. rewrite (rsum_ext k _ (fun _ => 0)).
        - rewrite Nat.eqb_refl, H0 by lia. rewrite rsum_zero. ring.
        - intros j Hj. destruct (Nat.eqb_spec j k); [lia|ring]. }
      specialize (H H1 k ltac:(lia)). rewrite Nat.eqb_refl in H. lra. }
  destruct (pivot_some _ _ _ EP) as [Hi0 HP]. set (f := fun r => a r k / a i0 k).
  set (a' := fun r j => a (skp i0 r) j - f (skp i0 r) * a i0 j). set (b' := fun r => b (skp i0 r) - f (skp i0 r) * b i0).
  assert (forall r j, a' r j = a (skp i0 r) j - f (skp i0 r) * a i0 j) as Ea' by reflexivity.
  assert (forall x r, rsum k (fun j => a' r j * x j) = rsum k (fun j => a (skp i0 r) j * x j) - f (skp i0 r) * rsum k (fun j => a i0 j * x j)) as HR.
  { intros x r. rewrite <- rsum_scal. rewrite <- rsum_minus. apply rsum_ext. intros j _. rewrite Ea'. ring. }
  set (x := gauss2 k a' b'). set (xk := (b i0 - rsum k (fun j => a i0 j * x j)) / a i0 k).
  assert (forall r, (r < k)%nat -> rsum k (fun j => a' r j * x j) = b' r) as HX.
  { intros r Hr. unfold x. apply IH; [|exact Hr]. intros y Hy j Hj.
    set (z := upd y k (- rsum k (fun j => a i0 j * y j) / a i0 k)).
    assert (forall r, (r < k)%nat -> rsum k (fun j => a (skp i0 r) j * y j) = f (skp i0 r) * rsum k (fun j => a i0 j * y j)) as Hy'.
    { intros q Hq. pose proof (Hy q Hq) as H. rewrite HR in H. lra. }
    assert (z j = 0) as Hz.
    { apply HA; [|lia]. intros q Hq. cbn [rsum]. replace (z k) with (- rsum k (fun j => a i0 j * y j) / a i0 k) by (unfold z; rewrite upd_same; reflexivity).
      rewrite (rsum_ext k _ (fun j => a q j * y j)) by (intros p Hp; unfold z; rewrite upd_other by lia; reflexivity).
      destruct (skp_onto i0 k q Hi0 ltac:(lia)) as [E|(q' & Hq' & E)].
      - subst q. apply fld1. exact HP.
      - subst q. rewrite Hy' by exact Hq'. unfold f. apply fld2. exact HP. }
    unfold z in Hz. rewrite upd_other in Hz by lia. exact Hz. }
  cbn [rsum]. rewrite upd_same. rewrite (rsum_ext k _ (fun j => a i j * x j)) by (intros p Hp; rewrite upd_other by lia; reflexivity).
  fold xk. destruct (skp_onto i0 k i Hi0 ltac:(lia)) as [E|(q & Hq & E)].
  - subst i. unfold xk. apply fld3. exact HP.
  - subst i. pose proof (HX q Hq) as H. rewrite HR in H. unfold b' in H.
    replace (rsum k (fun j => a (skp i0 q) j * x j)) with (b (skp i0 q) - f (skp i0 q) * b i0 + f (skp i0 q) * rsum k (fun j => a i0 j * x j)) by lra.
    unfold xk, f. apply fld4. exact HP.
Qed.
Definition gauss (N : nat) (a b : nat -> R) : nat -> R := gauss2 N (fun i j => a (i * N + j)%nat) b.
Theorem gauss_exact : exact_solver gauss.
Proof. intros N a b _ HA i Hi. unfold matvec, gauss. apply gauss2_ok with (a := fun i j => a (i * N + j)%nat); assumption. Qed.

(** ** Two ideal gases, three ideal gases... in one cell *)
Definition wgas (gm1 cv : R) : meos := {|
  RhoPmin := fun _ => 0; MaximumDensity := 10 ^ 100; MinimumTemperature := 0; MinimumPressure := 0;
  MaximumPressureAtTemperature := fun _ => 10 ^ 100;
  e_rt := fun _ T => cv * T; p_rt := fun r T => gm1 * r * cv * T; p_re := fun r e => gm1 * r * e; t_re := fun _ e => e / cv;
  cv_rt := fun _ _ => cv; cv_re := fun _ _ => cv; de_pt := fun P T _ _ => (P / (gm1 * cv * T), cv * T);
  pref_e := false; pref_p := false |}.
Definition weos (m : nat) : meos := match m with O => wgas (2 / 5) 1 | S O => wgas (2 / 3) 2 | _ => wgas (1 / 3) 3 end.
Definition wst (n : nat) : pst := {|
  rho := fun m => INR (S m); vfrac := fun _ => / INR n; sie := fun _ => 1; temp := fun _ => 300; press := fun _ => 0; u := fun _ => 0; rhobar := fun _ => 0; dx := fun _ => 0;
  res := fun _ => 0; jac := fun _ => 0; dpdv := fun _ => 0; dedv := fun _ => 0; dpdT := fun _ => 0; dtdv := fun _ => 0;
  dpde := fun _ => 0; dtde := fun _ => 0; vtmp := fun _ => 0; utmp := fun _ => 0; Teq := 300; Ttmp := 0; Peq := 1; Ptmp := 0;
  Tnorm := 300; uscale := 0; utot := 0; rhotot := 0; ms := 0 |}.
Definition wpar : MixParams RArith := default_params RArith.
Lemma wsafe : 0 <= vfrac_safety_fac wpar < 1. Proof. cbn. lra. Qed.
Lemma wfac : 0 < line_search_fac wpar <= 1. Proof. cbn. lra. Qed.
Lemma weos_form m : exists g c, weos m = wgas g c /\ 0 < g <= 1 /\ 1 <= c.
Proof.
  destruct m as [|[|m]]; cbn; [exists (2 / 5), 1|exists (2 / 3), 2|exists (1 / 3), 3]; (split; [reflexivity|lra]).
Qed.
Lemma tiny_frac n : (0 < n)%nat -> INR n <= 2 ^ 900 -> tiny <= / INR n.
Proof.
  intros Hn H. assert (0 < INR n) by (apply lt_0_INR; lia). apply Rle_trans with (/ (2 ^ 900)).
  - unfold tiny. replace (/ 2 ^ 900) with (bpow radix2 (-900)); [apply bpow_le; lia|].
    change (-900)%Z with (- (900))%Z. rewrite bpow_opp. f_equal. rewrite (bpow_powerRZ radix2 900). cbn [IZR radix2 radix_val powerRZ Pos.to_nat]. f_equal.
  - apply Rinv_le_contravar; assumption.
Qed.
Lemma good_input_witness n : (0 < n)%nat -> INR n <= 2 ^ 900 -> good_input n weos 1 wpar (wst n).
Proof.
  intros Hn Hbig. assert (0 < INR n) as HI by (apply lt_0_INR; lia). pose proof tiny_lt_1 as T1. pose proof tiny_pos as TP.
  pose proof (tiny_frac n Hn Hbig) as TF.
  constructor; cbn [rho vfrac wst].
  - exact Hn.
  - lra.
  - intros m _. apply lt_0_INR. lia.
  - intros m _. apply Rinv_0_lt_compat. exact HI.
  - assert (forall c k, rsum k (fun _ => c) = INR k * c) as Hc.
    { intros c k. induction k as [|k IH]; cbn [rsum]; [cbn; ring|]. rewrite IH, S_INR. ring. }
    rewrite Hc. field. lra.
  - intros m T _. destruct (weos_form m) as (g & c & -> & _). cbn [RhoPmin wgas].
    assert (0 < INR (S m) * / INR n) by (apply Rmult_lt_0_compat; [apply lt_0_INR; lia|apply Rinv_0_lt_compat; exact HI]).
    assert (tiny <= INR (S m) * / INR n) as H1.
    { apply Rle_trans with (1 * / INR n); [lra|]. apply Rmult_le_compat_r; [apply Rlt_le, Rinv_0_lt_compat; exact HI|]. rewrite S_INR. pose proof (pos_INR m). lra. }
    set (x := INR (S m) * / INR n) in *. clearbody x.
    unfold ratio. rewrite Rabs_R0, Rle_bool_false by exact TP. unfold ratio_exact.
    assert (ratio_denominator 0 = SMALL) as -> by (unfold ratio_denominator, sgn; rewrite Rle_bool_true by lra; ring).
    pose proof SMALL_pos as S0. assert (SMALL < 1 / 2) as S1.
    { apply Rlt_le_trans with (1 := SMALL_lt_ulp). apply Rle_trans with (bpow radix2 (-1)); [apply bpow_le; lia|cbn; lra]. }
    apply Rle_trans with (9 / 10 * (x * 2)); [lra|]. unfold safety. apply Rmult_le_compat_l; [lra|]. unfold Rdiv. apply Rmult_le_compat_l; [lra|].
    apply Rmult_le_reg_r with SMALL; [exact S0|]. rewrite Rinv_l by lra. lra.
  - cbn. lra.
  - cbn. lra.
Qed.
