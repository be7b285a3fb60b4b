(** Property theorems C75: the tables sesame2spiner writes hold the values and derivatives of the material. *)
From Coq Require Import ZArith Reals List Bool Lra Lia.
From Coquelicot Require Import Coquelicot.
From Verif Require Import Thermo_Spec Sesame_Model Sesame_Spec.
Import ListNotations.
Local Open Scope R_scope.

(** ** Flat packs *)
Definition grid2 (xs ys : list R) (g : R -> R -> R) : list R := flat_map (fun x => map (g x) ys) xs.
Lemma grid2_length xs ys g : List.length (grid2 xs ys g) = (List.length xs * List.length ys)%nat.
Proof. unfold grid2. induction xs as [|x r IH]; [reflexivity|]. cbn [flat_map List.length Nat.mul]. rewrite app_length, map_length, IH. reflexivity. Qed.
Lemma grid2_nth xs ys g j i : (j < List.length xs)%nat -> (i < List.length ys)%nat ->
  at2 (List.length ys) j i (grid2 xs ys g) = g (nth j xs 0) (nth i ys 0).
Proof.
  unfold at2, grid2. revert j. induction xs as [|x r IH]; intros j Hj Hi; [cbn in Hj; lia|]. cbn [flat_map]. destruct j as [|j].
  - cbn [Nat.mul Nat.add]. rewrite app_nth1 by (rewrite map_length; exact Hi).
    rewrite (nth_indep _ 0 (g x 0)) by (rewrite map_length; exact Hi). apply map_nth.
  - rewrite app_nth2 by (rewrite map_length; cbn [Nat.mul]; lia). rewrite map_length.
    replace (S j * List.length ys + i - List.length ys)%nat with (j * List.length ys + i)%nat by (cbn [Nat.mul]; lia).
    apply IH; [cbn in Hj; lia|exact Hi].
Qed.
Lemma map2_app {A B C} (f : A -> B -> C) a a' b b' : List.length a = List.length b -> map2 f (a ++ a') (b ++ b') = (map2 f a b ++ map2 f a' b')%list.
Proof. revert b. induction a as [|x a IH]; intros [|y b] L; try discriminate L; [reflexivity|]. cbn. rewrite IH by (injection L; auto). reflexivity. Qed.
Lemma grid2_map2 xs ys f g h : map2 f (grid2 xs ys g) (grid2 xs ys h) = grid2 xs ys (fun x y => f (g x y) (h x y)).
Proof.
  unfold grid2. induction xs as [|x r IH]; [reflexivity|]. cbn [flat_map]. rewrite map2_app by (rewrite !map_length; reflexivity). rewrite IH. f_equal.
  clear. induction ys as [|y ys IH]; [reflexivity|]. cbn. rewrite IH. reflexivity.
Qed.
Lemma first_grid xs ys f : flat_first xs ys f = grid2 xs ys (fun x _ => f x).
Proof. reflexivity. Qed.
Lemma second_grid xs ys f : flat_second xs ys f = grid2 xs ys (fun _ y => f y).
Proof. reflexivity. Qed.

(** ** Chain rules *)
Lemma partial_x f x y a b : differentiable_pt_lim f x y a b -> is_derive (fun r => f r y) x a.
Proof.
  intros H. apply is_derive_Reals.
  assert (K := derivable_pt_lim_comp_2d f (fun r => r) (fun _ => y) x a b 1 0 H (derivable_pt_lim_id x) (derivable_pt_lim_const y x)).
  replace a with (a * 1 + b * 0) by ring. exact K.
Qed.
Lemma partial_y f x y a b : differentiable_pt_lim f x y a b -> is_derive (fun t => f x t) y b.
Proof.
  intros H. apply is_derive_Reals.
  assert (K := derivable_pt_lim_comp_2d f (fun _ => x) (fun t => t) y a b 0 1 H (derivable_pt_lim_const x y) (derivable_pt_lim_id y)).
  replace b with (a * 0 + b * 1) by ring. exact K.
Qed.
Lemma inverse_slopes m rho T : right_at m rho T ->
  T_r m rho (E m rho T) + T_e m rho (E m rho T) * E_r m rho T = 0 /\ T_e m rho (E m rho T) * E_t m rho T = 1.
Proof.
  intros [DP DE DT INV]. split.
  - assert (K := derivable_pt_lim_comp_2d (Tm m) (fun r => r) (fun r => E m r T) rho _ _ 1 (E_r m rho T) DT (derivable_pt_lim_id rho)).
    assert (DE1 : derivable_pt_lim (fun r => E m r T) rho (E_r m rho T)) by (apply is_derive_Reals, (partial_x _ _ _ _ _ DE)).
    specialize (K DE1). cbn beta in K.
    assert (C : derivable_pt_lim (fun r => Tm m r (E m r T)) rho 0).
    { apply is_derive_Reals. apply is_derive_ext with (fun _ : R => T); [intros t; symmetry; apply INV|]. apply is_derive_Reals, derivable_pt_lim_const. }
    assert (Q := uniqueness_limite _ _ _ _ K C). lra.
  - assert (K := derivable_pt_lim_comp_2d (Tm m) (fun _ => rho) (fun t => E m rho t) T _ _ 0 (E_t m rho T) DT (derivable_pt_lim_const rho T)).
    assert (DE1 : derivable_pt_lim (fun t => E m rho t) T (E_t m rho T)) by (apply is_derive_Reals, (partial_y _ _ _ _ _ DE)).
    specialize (K DE1). cbn beta in K.
    assert (C : derivable_pt_lim (fun t => Tm m rho (E m rho t)) T 1).
    { apply is_derive_Reals. apply is_derive_ext with (fun t : R => t); [intros t; symmetry; apply INV|]. apply is_derive_Reals, derivable_pt_lim_id. }
    assert (Q := uniqueness_limite _ _ _ _ K C). lra.
Qed.
(** the pressure as a function of density and energy *)
Definition P_of_E (m : material_eos) (rho e : R) : R := P m rho (Tm m rho e).
Lemma P_of_E_slopes m rho T : right_at m rho T -> let e := E m rho T in
  is_derive (fun r => P_of_E m r e) rho (P_r m rho T + P_t m rho T * T_r m rho e) /\ is_derive (fun x => P_of_E m rho x) e (P_t m rho T * T_e m rho e).
Proof.
  intros [DP DE DT INV] e. assert (IT : Tm m rho e = T) by apply INV. split; apply is_derive_Reals; unfold P_of_E.
  - assert (K := derivable_pt_lim_comp_2d (P m) (fun r => r) (fun r => Tm m r e) rho (P_r m rho T) (P_t m rho T) 1 (T_r m rho e)).
    cbn beta in K. rewrite IT in K. specialize (K DP (derivable_pt_lim_id rho)).
    assert (X : derivable_pt_lim (fun r => Tm m r e) rho (T_r m rho e)) by (apply is_derive_Reals, (partial_x _ _ _ _ _ DT)).
    specialize (K X). replace (P_r m rho T + P_t m rho T * T_r m rho e) with (P_r m rho T * 1 + P_t m rho T * T_r m rho e) by ring. exact K.
  - assert (K := derivable_pt_lim_comp_2d (P m) (fun _ => rho) (fun x => Tm m rho x) e (P_r m rho T) (P_t m rho T) 0 (T_e m rho e)).
    cbn beta in K. rewrite IT in K. specialize (K DP (derivable_pt_lim_const rho e)).
    assert (X : derivable_pt_lim (fun x => Tm m rho x) e (T_e m rho e)) by (apply is_derive_Reals, (partial_y _ _ _ _ _ DT)).
    specialize (K X). replace (P_t m rho T * T_e m rho e) with (P_r m rho T * 0 + P_t m rho T * T_e m rho e) by ring. exact K.
Qed.
Lemma modulus m rho T : rho <> 0 -> right_at m rho T -> let e := E m rho T in
  is_bulk_modulus (P_of_E m) rho e (rho * P_r m rho T + P_t m rho T / E_t m rho T * (P m rho T / rho - rho * E_r m rho T)).
Proof.
  intros R0 RA e. destruct (P_of_E_slopes m rho T RA) as [A B]. exists (P_r m rho T + P_t m rho T * T_r m rho e), (P_t m rho T * T_e m rho e).
  split; [exact A|]. split; [exact B|]. destruct (inverse_slopes m rho T RA) as [I1 I2]. fold e in I1, I2.
  assert (ET : E_t m rho T <> 0) by (intros Z; rewrite Z in I2; lra).
  assert (TE : T_e m rho e = / E_t m rho T) by (apply (Rmult_eq_reg_r (E_t m rho T)); [rewrite I2; field; exact ET|exact ET]).
  assert (TR : T_r m rho e = - (T_e m rho e * E_r m rho T)) by lra. rewrite TR, TE.
  unfold P_of_E, e. rewrite (ra_inv _ _ _ RA). field. split; assumption.
Qed.
Lemma scale_max x : 10 ^ 10 * Rmax (x / 10 ^ 10) 0 = Rmax x 0.
Proof. rewrite <- RmaxRmult by lra. f_equal; [field; lra|ring]. Qed.

(** ** C75 *)
(** what a table entry should be at density rho, temperature T and energy e = e(rho,T), in the user's units: pressure, isentropic bulk modulus
    (clipped at zero), and the slopes of P(rho,e) and T(rho,e) *)
Record right_entry (m : material_eos) (rho T : R) (b : boxes) : Prop := {
  re_P : bP b = P m rho T;
  re_bMod : exists B, is_bulk_modulus (P_of_E m) rho (E m rho T) B /\ bMod b = Rmax B 0;
  re_dPdRho : is_derive (fun r => P_of_E m r (E m rho T)) rho (bdPdRho b);
  re_dPdE : is_derive (fun x => P_of_E m rho x) (E m rho T) (bdPdE b);
  re_dTdRho : is_derive (fun r => Tm m r (E m rho T)) rho (bdTdRho b);
  re_dTdE : is_derive (fun x => Tm m rho x) (E m rho T) (bdTdE b);
  re_dEdRho : is_derive (fun r => E m r T) rho (bdEdRho b)
}.
Section Tables.
Variables (m : material_eos) (tP tT tE : etable).
Hypothesis V : eospac_view m tP tT tE.
Theorem C75_density_temperature_table : forall rhos Ts j i, (j < List.length rhos)%nat -> (i < List.length Ts)%nat ->
  let rho := nth j rhos 0 in let T := nth i Ts 0 in rho <> 0 -> right_at m rho T ->
  let b := eosDataOfRhoT tP tT tE rhos Ts j i in
  right_entry m rho T b /\ bX b = E m rho T /\ is_derive (fun t => E m rho t) T (bdEdT b).
Proof.
  intros rhos Ts j i Hj Hi rho T R0 RA b.
  assert (VP := ev_P _ _ _ _ V). assert (VE := ev_E _ _ _ _ V). assert (VT := ev_T _ _ _ _ V).
  assert (EQ : b = mkBoxes (P m rho T) (E m rho T) (Rmax (rho * P_r m rho T + P_t m rho T / E_t m rho T * (P m rho T / rho - rho * E_r m rho T)) 0)
     (P_r m rho T + P_t m rho T * T_r m rho (E m rho T)) (P_t m rho T * T_e m rho (E m rho T)) (T_r m rho (E m rho T)) (T_e m rho (E m rho T))
     (E_r m rho T) (E_t m rho T)).
  { destruct (inverse_slopes m rho T RA) as [_ I2]. assert (ET : E_t m rho T <> 0) by (intros Z; rewrite Z in I2; lra).
    unfold b, eosDataOfRhoT. cbv zeta. unfold val, d_x, d_y. rewrite first_grid, second_grid, !grid2_map2, !grid2_nth by assumption.
    fold rho T. cbn beta. unfold densityToSesame, temperatureToSesame.
    destruct (VP rho T) as (-> & -> & ->). destruct (VE rho T) as (-> & -> & ->).
    destruct (VT rho (E m rho T / 10 ^ 10)) as (_ & -> & ->). replace (10 ^ 10 * (E m rho T / 10 ^ 10)) with (E m rho T) by (field; lra).
    unfold pressureFromSesame, sieFromSesame, bulkModulusFromSesame, temperatureFromSesame, sieToSesame, getBulkModulus. f_equal; try (field; lra).
    rewrite <- (scale_max (rho * P_r m rho T + P_t m rho T / E_t m rho T * (P m rho T / rho - rho * E_r m rho T))). do 2 f_equal. field. repeat split; try assumption; lra. }
  rewrite EQ. cbn [bX bdEdT]. destruct (P_of_E_slopes m rho T RA) as [A B]. destruct RA as [DP DE DT INV] eqn:X. split; [|split; [reflexivity|apply (partial_y _ _ _ _ _ DE)]].
  constructor; cbn [bP bMod bdPdRho bdPdE bdTdRho bdTdE bdEdRho].
  - reflexivity.
  - eexists. split; [apply (modulus m rho T R0 RA)|reflexivity].
  - exact A.
  - exact B.
  - apply (partial_x _ _ _ _ _ DT).
  - apply (partial_y _ _ _ _ _ DT).
  - apply (partial_x _ _ _ _ _ DE).
Qed.
Theorem C75_density_energy_table : forall rhos sies j i T, (j < List.length rhos)%nat -> (i < List.length sies)%nat ->
  let rho := nth j rhos 0 in nth i sies 0 = E m rho T -> rho <> 0 -> right_at m rho T ->
  let b := eosDataOfRhoSie tP tT tE rhos sies j i in right_entry m rho T b /\ bX b = T.
Proof.
  intros rhos sies j i T Hj Hi rho He R0 RA b.
  assert (VP := ev_P _ _ _ _ V). assert (VE := ev_E _ _ _ _ V). assert (VT := ev_T _ _ _ _ V).
  assert (EQ : b = mkBoxes (P m rho T) T (Rmax (rho * P_r m rho T + P_t m rho T / E_t m rho T * (P m rho T / rho - rho * E_r m rho T)) 0)
     (P_r m rho T + P_t m rho T * T_r m rho (E m rho T)) (P_t m rho T * T_e m rho (E m rho T)) (T_r m rho (E m rho T)) (T_e m rho (E m rho T))
     (E_r m rho T) 0).
  { destruct (inverse_slopes m rho T RA) as [_ I2]. assert (ET : E_t m rho T <> 0) by (intros Z; rewrite Z in I2; lra).
    unfold b, eosDataOfRhoSie. cbv zeta. unfold val, d_x, d_y. rewrite first_grid, second_grid, !grid2_map2, !grid2_nth by assumption.
    fold rho. rewrite He. cbn beta. unfold densityToSesame, temperatureFromSesame, sieToSesame.
    destruct (VT rho (/ 10 ^ 10 * E m rho T)) as (-> & -> & ->). replace (10 ^ 10 * (/ 10 ^ 10 * E m rho T)) with (E m rho T) by (field; lra).
    rewrite (ra_inv _ _ _ RA). destruct (VP rho T) as (-> & -> & ->). destruct (VE rho T) as (_ & -> & ->).
    unfold pressureFromSesame, sieFromSesame, bulkModulusFromSesame, getBulkModulus. f_equal; try (field; lra).
    rewrite <- (scale_max (rho * P_r m rho T + P_t m rho T / E_t m rho T * (P m rho T / rho - rho * E_r m rho T))). do 2 f_equal. field. repeat split; try assumption; lra. }
  rewrite EQ. cbn [bX]. split; [|reflexivity]. destruct (P_of_E_slopes m rho T RA) as [A B]. destruct RA as [DP DE DT INV] eqn:X.
  constructor; cbn [bP bMod bdPdRho bdPdE bdTdRho bdTdE bdEdRho].
  - reflexivity.
  - eexists. split; [apply (modulus m rho T R0 RA)|reflexivity].
  - exact A.
  - exact B.
  - apply (partial_x _ _ _ _ _ DT).
  - apply (partial_y _ _ _ _ _ DT).
  - apply (partial_x _ _ _ _ _ DE).
Qed.
(** The cold curves are the values and slopes at zero temperature; their bulk modulus is rho dP/drho along the cold curve, clipped at zero. *)
Theorem C75_cold_curves : forall rhos i, (i < List.length rhos)%nat ->
  let rho := nth i rhos 0 in right_at m rho 0 ->
  let '(p, e, b, dp, de) := eosColdCurves tP tE rhos i in
  p = P m rho 0 /\ e = E m rho 0 /\ is_derive (fun r => P m r 0) rho dp /\ is_derive (fun r => E m r 0) rho de /\ b = Rmax (rho * dp) 0.
Proof.
  intros rhos i Hi rho RA.
  assert (VP := ev_P _ _ _ _ V). assert (VE := ev_E _ _ _ _ V).
  unfold eosColdCurves. cbv zeta.
  assert (N : forall f, nth i (map2 f (map densityToSesame rhos) (map (fun _ => temperatureToSesame 0) rhos)) 0 = f rho 0).
  { intros f. unfold rho. clear - Hi. revert i Hi. induction rhos as [|r rs IH]; intros i Hi; [cbn in Hi; lia|]. destruct i as [|i]; [reflexivity|].
    cbn. apply IH. cbn in Hi. lia. }
  assert (N1 : nth i (map densityToSesame rhos) 0 = rho).
  { unfold densityToSesame. rewrite map_id. reflexivity. }
  unfold val, d_x. rewrite !N, N1. destruct (VP rho 0) as (-> & -> & _). destruct (VE rho 0) as (-> & -> & _).
  unfold pressureFromSesame, sieFromSesame, bulkModulusFromSesame, getBulkModulus.
  assert (S1 : forall x, 10 ^ 10 * (x / 10 ^ 10) = x) by (intros x; field; lra). rewrite !S1. destruct RA as [DP DE DT INV].
  split; [reflexivity|]. split; [reflexivity|]. split; [apply (partial_x _ _ _ _ _ DP)|]. split; [apply (partial_x _ _ _ _ _ DE)|].
  rewrite <- (scale_max (rho * P_r m rho 0)). do 2 f_equal. unfold Rdiv. ring.
Qed.
End Tables.
(** The mass fraction of phase k stored at (j, i) is that of phase k at density j and temperature i. *)
Lemma blocks_nth {A} (f : nat -> list A) n len d k q : (forall p, List.length (f p) = len) -> (k < n)%nat -> (q < len)%nat ->
  forall s, nth (k * len + q) (flat_map f (seq s n)) d = nth q (f (s + k)%nat) d.
Proof.
  intros L. revert k. induction n as [|n IH]; intros k Hk Hq s; [lia|]. cbn [seq flat_map]. destruct k as [|k].
  - cbn [Nat.mul Nat.add]. rewrite app_nth1 by (rewrite L; exact Hq). rewrite Nat.add_0_r. reflexivity.
  - rewrite app_nth2 by (rewrite L; cbn [Nat.mul]; lia). rewrite L.
    replace (S k * len + q - len)%nat with (k * len + q)%nat by (cbn [Nat.mul]; lia). rewrite IH by lia. f_equal. f_equal. lia.
Qed.
Theorem C75_mass_fractions : forall M nph rhos Ts j i k, (j < List.length rhos)%nat -> (i < List.length Ts)%nat -> (k < nph)%nat ->
  eosMassFraction M nph rhos Ts j i k = M k (nth j rhos 0) (nth i Ts 0).
Proof.
  intros M nph rhos Ts j i k Hj Hi Hk. unfold eosMassFraction. cbv zeta. rewrite first_grid, second_grid.
  rewrite (blocks_nth _ nph (List.length rhos * List.length Ts)%nat).
  - rewrite grid2_map2. change (nth (j * List.length Ts + i) ?l 0) with (at2 (List.length Ts) j i l). rewrite Nat.add_0_l. apply grid2_nth; assumption.
  - intros p. rewrite grid2_map2, grid2_length. reflexivity.
  - exact Hk.
  - apply Nat.lt_le_trans with (S j * List.length Ts)%nat; [cbn [Nat.mul]; lia|]. apply Nat.mul_le_mono_r. lia.
Qed.

(** ** A gas with gamma - 1 = 2/3 and cv = 1e7, and EOSPAC's view of it *)
Definition gas : material_eos := mkMEos (fun r t => 2 / 3 * 10 ^ 7 * r * t) (fun _ t => 10 ^ 7 * t) (fun _ e => e / 10 ^ 7)
  (fun r t => 2 / 3 * 10 ^ 7 * t) (fun r t => 2 / 3 * 10 ^ 7 * r) (fun _ _ => 0) (fun _ _ => 10 ^ 7) (fun _ _ => 0) (fun _ _ => / 10 ^ 7).
Definition gas_P : etable := mkET (fun r t => P gas r t / 10 ^ 10) (fun r t => P_r gas r t / 10 ^ 10) (fun r t => P_t gas r t / 10 ^ 10).
Definition gas_E : etable := mkET (fun r t => E gas r t / 10 ^ 10) (fun r t => E_r gas r t / 10 ^ 10) (fun r t => E_t gas r t / 10 ^ 10).
Definition gas_T : etable := mkET (fun r e => Tm gas r (10 ^ 10 * e)) (fun r e => T_r gas r (10 ^ 10 * e)) (fun r e => 10 ^ 10 * T_e gas r (10 ^ 10 * e)).
Lemma prod_diff c x y : differentiable_pt_lim (fun r t => c * r * t) x y (c * y) (c * x).
Proof.
  intros eps. assert (Hd : 0 < eps / (Rabs c + 1)) by (apply Rdiv_lt_0_compat; [apply cond_pos|assert (K := Rabs_pos c); lra]).
  exists (mkposreal _ Hd). cbn [pos]. intros u v Hu Hv.
  replace (c * u * v - c * x * y - (c * y * (u - x) + c * x * (v - y))) with (c * ((u - x) * (v - y))) by ring. rewrite !Rabs_mult.
  assert (C := Rabs_pos c). assert (U := Rabs_pos (u - x)). assert (W := Rabs_pos (v - y)). assert (M1 := Rmax_l (Rabs (u - x)) (Rabs (v - y))).
  assert (M2 := Rmax_r (Rabs (u - x)) (Rabs (v - y))). set (M := Rmax _ _) in *.
  apply Rle_trans with ((Rabs c + 1) * Rabs (u - x) * M).
  - rewrite Rmult_assoc. apply Rmult_le_compat; try lra; [apply Rmult_le_pos; assumption|]. apply Rmult_le_compat_l; assumption.
  - apply Rmult_le_compat_r; [lra|]. apply Rlt_le in Hu. apply (Rmult_le_compat_l (Rabs c + 1)) in Hu; [|lra].
    replace ((Rabs c + 1) * (eps / (Rabs c + 1))) with (pos eps) in Hu by (field; lra). exact Hu.
Qed.
Lemma lin_diff c x y : differentiable_pt_lim (fun _ t => c * t) x y 0 c.
Proof.
  intros eps. exists (mkposreal 1 Rlt_0_1). intros u v _ _. replace (c * v - c * y - (0 * (u - x) + c * (v - y))) with 0 by ring. rewrite Rabs_R0.
  apply Rmult_le_pos; [apply Rlt_le, cond_pos|]. eapply Rle_trans; [apply Rabs_pos|apply Rmax_l].
Qed.
Example C75_gas : eospac_view gas gas_P gas_T gas_E /\ forall rho T, right_at gas rho T.
Proof.
  split; [constructor; intros; repeat split|]. intros rho T. constructor; cbn [P E Tm P_r P_t E_r E_t T_r T_e gas].
  - apply prod_diff.
  - apply lin_diff.
  - apply differentiable_pt_lim_ext with (fun _ t => / 10 ^ 7 * t); [|apply lin_diff]. exists (mkposreal 1 Rlt_0_1). intros u v _ _. unfold Rdiv. ring.
  - intros r t. field.
Qed.
(** Two densities and two energies: the entry at (1, 0) *)
Example C75_gas_entry : right_entry gas 2 300 (eosDataOfRhoSie gas_P gas_T gas_E [1; 2] [300 * 10 ^ 7; 400 * 10 ^ 7] 1 0).
Proof.
  destruct C75_gas as [V RA]. apply (C75_density_energy_table gas gas_P gas_T gas_E V [1; 2] [300 * 10 ^ 7; 400 * 10 ^ 7] 1 0 300); cbn [List.length nth]; try lia; try lra.
  - cbn [E gas]. ring.
  - apply RA.
Qed.
Print Assumptions C75_density_temperature_table.
Print Assumptions C75_density_energy_table.
Print Assumptions C75_cold_curves.
Print Assumptions C75_mass_fractions.
