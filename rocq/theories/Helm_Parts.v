(** Lemmas about the radiation and ion parts of Helm_Model, their sum with the electrons, and the temperature search. *)
From Coq Require Import ZArith Reals Bool List Lra Lia.
From Flocq Require Import Core.
From Coquelicot Require Import Coquelicot.
From Verif Require Import Arith Robust_Model RootFinding_Model RootFinding_Proofs RootFinding_Props Hermite_Model Hermite_Proofs Thermo_Spec Thermo_Tools.
From Verif Require Import Spiner_Spec Spiner_Props Helm_Model Helm_Proofs.
Import ListNotations.
Local Open Scope R_scope.

(* equation at type R *)
Ltac eqR := match goal with |- @eq _ ?x ?y => change (@eq R x y) end.

(** ** radiation *)
Definition radF (rho T : R) : vec5 * vec5 * vec5 :=
  (mk5 (PREFACTOR * T ^ 4) 0 (4 * PREFACTOR * T ^ 3) 0 0,
   mk5 (3 * PREFACTOR * T ^ 4 / rho) (- (3 * PREFACTOR * T ^ 4) / (rho * rho)) (12 * PREFACTOR * T ^ 3 / rho) 0 0,
   mk5 (4 * PREFACTOR * T ^ 3 / rho) (- (4 * PREFACTOR * T ^ 3) / (rho * rho)) (12 * PREFACTOR * T ^ 2 / rho) 0 0).
Lemma rad_eq rho T : tiny < rho -> tiny < T -> rad rho T = radF rho T.
Proof.
  intros Hr HT. pose proof tiny_pos. unfold rad, radF. cbv zeta. rewrite !ratio_pos by lra. generalize PREFACTOR. intros a.
  assert (rho <> 0) by lra. assert (T <> 0) by lra.
  f_equal; [f_equal|]; f_equal; field; try lra; try (split; lra).
Qed.
Lemma der_T4 c T : is_derive (fun t => c * t ^ 4) T (c * (4 * T ^ 3)).
Proof. auto_derive; [exact I|]. simpl. ring. Qed.
Lemma der_T3 c T : is_derive (fun t => c * t ^ 3) T (c * (3 * T ^ 2)).
Proof. auto_derive; [exact I|]. simpl. ring. Qed.
Lemma der_inv c x : x <> 0 -> is_derive (fun r => c / r) x (- c / (x * x)).
Proof. intros Hx. auto_derive; [exact Hx|]. field. exact Hx. Qed.
(** the three arrays hold a value and its four partial derivatives *)
Lemma rad_partials rho T A Z : tiny < rho -> tiny < T ->
  partials (fun r t _ _ => fst (fst (rad r t))) rho T A Z /\ partials (fun r t _ _ => snd (fst (rad r t))) rho T A Z /\
  partials (fun r t _ _ => snd (rad r t)) rho T A Z.
Proof.
  intros Hr HT. pose proof tiny_pos as P0.
  assert (LR : locally rho (fun r => rad r T = radF r T)) by (generalize (loc_gt _ _ Hr); apply loc_imp; intros; apply rad_eq; assumption).
  assert (LT : locally T (fun t => rad rho t = radF rho t)) by (generalize (loc_gt _ _ HT); apply loc_imp; intros; apply rad_eq; assumption).
  assert (N : rho <> 0) by lra.
  unfold partials. rewrite !(rad_eq rho T) by assumption. unfold radF. cbn [fst snd VAL DDR DDT DDA DDZ].
  refine (conj (conj _ (conj _ (conj _ _))) (conj (conj _ (conj _ (conj _ _))) (conj _ (conj _ (conj _ _))))); try apply der_const.
  - apply (derive_loc _ (fun r => PREFACTOR * T ^ 4)); [|apply der_const]. generalize LR; apply loc_imp; intros y ->; reflexivity.
  - apply (derive_loc _ (fun t => PREFACTOR * t ^ 4)); [|eapply der_eq; [apply der_T4|ring]]. generalize LT; apply loc_imp; intros y ->; reflexivity.
  - apply (derive_loc _ (fun r => (3 * PREFACTOR * T ^ 4) / r)); [|apply der_inv, N]. generalize LR; apply loc_imp; intros y ->; reflexivity.
  - apply (derive_loc _ (fun t => 3 * PREFACTOR / rho * t ^ 4)); [|eapply der_eq; [apply der_T4|generalize (T ^ 3); intros; field; exact N]].
    generalize LT; apply loc_imp; intros y ->. unfold radF. cbn [fst snd VAL]. unfold Rdiv. ring.
  - apply (derive_loc _ (fun r => (4 * PREFACTOR * T ^ 3) / r)); [|apply der_inv, N]. generalize LR; apply loc_imp; intros y ->; reflexivity.
  - apply (derive_loc _ (fun t => 4 * PREFACTOR / rho * t ^ 3)); [|eapply der_eq; [apply der_T3|generalize (T ^ 2); intros; field; exact N]].
    generalize LT; apply loc_imp; intros y ->. unfold radF. cbn [fst snd VAL]. unfold Rdiv. ring.
Qed.

(** ** ions: Y particles per unit mass *)
Definition ionF (rho T Y y : R) : vec5 * vec5 * vec5 :=
  (mk5 (KBNA * Y * rho * T) (KBNA * Y * T) (KBNA * Y * rho) (- (KBNA * Y * Y * rho * T)) 0,
   mk5 (15 / 10 * KBNA * Y * T) 0 (15 / 10 * KBNA * Y) (- (15 / 10 * KBNA * Y * Y * T)) 0,
   mk5 (KBNA * Y * (25 / 10 + y)) (- (KBNA * Y / rho)) (15 / 10 * KBNA * Y / T) (- (KBNA * Y * Y * y)) 0).
Lemma ion_eq rho T Y y : tiny < rho -> tiny < T ->
  (let '(xni, dxnidd, dxnida) := GetMassFractions rho Y in ion rho T y Y xni dxnidd dxnida) = ionF rho T Y y.
Proof.
  intros Hr HT. pose proof tiny_pos. unfold GetMassFractions, ion, ionF. cbv zeta. rewrite !ratio_pos by lra.
  unfold KBNA. generalize KB NA. intros k n.
  assert (rho <> 0) by lra. assert (T <> 0) by lra.
  f_equal; [f_equal|]; f_equal; field; try lra; try (split; lra).
Qed.
(** particles per unit mass: nuclei, or nuclei and free electrons of a non-degenerate ionised gas *)
Definition Ypart (o : options) (A Z : R) : R := if (IONIZED o && DEGENERATE o) || negb (IONIZED o) then / A else (Z + 1) / A.
Definition ypart (o : options) (rho T A Z : R) : R :=
  (if (IONIZED o && DEGENERATE o) || negb (IONIZED o) then ywot_of rho A
   else ratio (ln (ratio A (Z + 1) * ratio A (Z + 1) * sqrt (ratio A (Z + 1)))) (rho * NA)) + LSWOT15 * (log10 T / log10 (exp 1)).
Definition small_A (A Z : R) : Prop := tiny < A /\ 0 < Z /\ tiny < A / (Z + 1).
Lemma ions_part_eq o rho T A Z : tiny < rho -> tiny < T -> small_A A Z -> ions_part o rho T A Z = ionF rho T (Ypart o A Z) (ypart o rho T A Z).
Proof.
  intros Hr HT (HA & HZ & HAZ). pose proof tiny_pos. pose proof tiny_lt_1. unfold ions_part, Ypart, ypart.
  destruct ((IONIZED o && DEGENERATE o) || negb (IONIZED o)).
  - rewrite ytot_eq by exact HA. apply ion_eq; assumption.
  - cbv zeta. assert (E : ratio 1 (ratio A (Z + 1)) = (Z + 1) / A). { rewrite (ratio_pos A) by lra. rewrite ratio_pos by lra. field. split; lra. }
    rewrite E. apply ion_eq; assumption.
Qed.

(** ** the sum, when there are no Coulomb corrections *)
Definition good (o : options) (rho T A Z : R) : Prop :=
  tiny < rho /\ tiny < T /\ small_A A Z /\ (GAS o && DEGENERATE o = true -> inside rho T A Z).
Lemma good_rho o rho T A Z : good o rho T A Z -> locally rho (fun r => good o r T A Z).
Proof.
  intros (Hr & HT & HA & HI). destruct (GAS o && DEGENERATE o) eqn:E.
  - generalize (loc_and _ _ _ (loc_gt _ _ Hr) (inside_rho _ _ _ _ (HI eq_refl))). apply loc_imp. intros y (A1 & A2).
    exact (conj A1 (conj HT (conj HA (fun _ => A2)))).
  - generalize (loc_gt _ _ Hr). apply loc_imp. intros y A1. refine (conj A1 (conj HT (conj HA (fun K => _)))). rewrite E in K. discriminate.
Qed.
Lemma good_T o rho T A Z : good o rho T A Z -> locally T (fun t => good o rho t A Z).
Proof.
  intros (Hr & HT & HA & HI). destruct (GAS o && DEGENERATE o) eqn:E.
  - generalize (loc_and _ _ _ (loc_gt _ _ HT) (inside_T _ _ _ _ (HI eq_refl))). apply loc_imp. intros y (A1 & A2).
    exact (conj Hr (conj A1 (conj HA (fun _ => A2)))).
  - generalize (loc_gt _ _ HT). apply loc_imp. intros y A1. refine (conj Hr (conj A1 (conj HA (fun K => _)))). rewrite E in K. discriminate.
Qed.
Definition no_coul (o : options) : Prop := GAS o && DEGENERATE o && COUL o = false.
Definition Rpart (o : options) (rho T : R) : vec5 * vec5 * vec5 := if RAD o then radF rho T else zeros.
Definition Ipart (o : options) (rho T A Z : R) : vec5 * vec5 * vec5 := if GAS o then ionF rho T (Ypart o A Z) (ypart o rho T A Z) else zeros.
Definition Epart (o : options) (tb : table) (b : bool) (rho T A Z : R) : eout :=
  if GAS o && DEGENERATE o then elec tb b rho T A Z else mkEout zero5 zero5 zero5 zero5 zero5.
Lemma add5_0 v : add5 v zero5 = v.
Proof. destruct v as [v1 v2 v3 v4 v5]. unfold add5, zero5. cbn [VAL DDR DDT DDA DDZ]. rewrite !Rplus_0_r. reflexivity. Qed.
Lemma parts_eq0 tb o rho T A Z b : no_coul o -> tiny < rho -> tiny < T -> small_A A Z ->
  parts tb o rho T A Z b =
  mkHout (add5 (add5 (fst (fst (Rpart o rho T))) (fst (fst (Ipart o rho T A Z)))) (pele (Epart o tb b rho T A Z)))
         (add5 (add5 (snd (fst (Rpart o rho T))) (snd (fst (Ipart o rho T A Z)))) (eele (Epart o tb b rho T A Z)))
         (add5 (add5 (snd (Rpart o rho T)) (snd (Ipart o rho T A Z))) (sele (Epart o tb b rho T A Z)))
         (etaele (Epart o tb b rho T A Z)) (xne (Epart o tb b rho T A Z)).
Proof.
  intros NC Hr HT HA. unfold no_coul in NC. unfold parts. rewrite NC. rewrite rad_eq, ions_part_eq by assumption.
  unfold Rpart, Ipart, Epart, elec. destruct (RAD o), (GAS o), (DEGENERATE o); cbn [andb]; unfold radF, ionF, zeros;
    cbn [fst snd]; rewrite ?add5_0; reflexivity.
Qed.
Lemma parts_eq tb o rho T A Z b : no_coul o -> good o rho T A Z ->
  parts tb o rho T A Z b =
  mkHout (add5 (add5 (fst (fst (Rpart o rho T))) (fst (fst (Ipart o rho T A Z)))) (pele (Epart o tb b rho T A Z)))
         (add5 (add5 (snd (fst (Rpart o rho T))) (snd (fst (Ipart o rho T A Z)))) (eele (Epart o tb b rho T A Z)))
         (add5 (add5 (snd (Rpart o rho T)) (snd (Ipart o rho T A Z))) (sele (Epart o tb b rho T A Z)))
         (etaele (Epart o tb b rho T A Z)) (xne (Epart o tb b rho T A Z)).
Proof. intros NC (Hr & HT & HA & _). apply parts_eq0; assumption. Qed.
Ltac loc_parts L := generalize L; apply loc_imp; let y := fresh "y" in intros y ?Hy; rewrite parts_eq by assumption; reflexivity.
Section Sum.
Variables (tb : table) (o : options) (rho T A Z : R).
Hypothesis NC : no_coul o.
Hypothesis G : good o rho T A Z.
Let N : rho <> 0. Proof. destruct G as (K & _). pose proof tiny_pos. lra. Qed.
Let NT : T <> 0. Proof. destruct G as (_ & K & _). pose proof tiny_pos. lra. Qed.
Lemma R_pT : is_derive (fun t => VAL (fst (fst (Rpart o rho t)))) T (DDT (fst (fst (Rpart o rho T)))).
Proof. unfold Rpart. destruct (RAD o); cbn [radF zeros fst snd VAL DDT zero5]; [|apply der_const]. eapply der_eq; [apply der_T4|ring]. Qed.
Lemma R_pr : is_derive (fun r => VAL (fst (fst (Rpart o r T)))) rho (DDR (fst (fst (Rpart o rho T)))).
Proof. unfold Rpart. destruct (RAD o); cbn [radF zeros fst snd VAL DDR zero5]; apply der_const. Qed.
Lemma R_eT : is_derive (fun t => VAL (snd (fst (Rpart o rho t)))) T (DDT (snd (fst (Rpart o rho T)))).
Proof.
  unfold Rpart. destruct (RAD o); cbn [radF zeros fst snd VAL DDT zero5]; [|apply der_const].
  apply (is_derive_ext (V := R_NormedModule) (fun t => 3 * PREFACTOR / rho * t ^ 4)); [intros t; unfold Rdiv; eqR; ring|].
  eapply der_eq; [apply der_T4|]. generalize (T ^ 3). intros. field. exact N.
Qed.
Lemma R_er : is_derive (fun r => VAL (snd (fst (Rpart o r T)))) rho (DDR (snd (fst (Rpart o rho T)))).
Proof. unfold Rpart. destruct (RAD o); cbn [radF zeros fst snd VAL DDR zero5]; [apply der_inv, N|apply der_const]. Qed.
Lemma I_pT : is_derive (fun t => VAL (fst (fst (Ipart o rho t A Z)))) T (DDT (fst (fst (Ipart o rho T A Z)))).
Proof. unfold Ipart. destruct (GAS o); cbn [ionF zeros fst snd VAL DDT zero5]; [|apply der_const]. auto_derive; [exact I|ring]. Qed.
Lemma I_pr : is_derive (fun r => VAL (fst (fst (Ipart o r T A Z)))) rho (DDR (fst (fst (Ipart o rho T A Z)))).
Proof. unfold Ipart. destruct (GAS o); cbn [ionF zeros fst snd VAL DDR zero5]; [|apply der_const]. auto_derive; [exact I|ring]. Qed.
Lemma I_eT : is_derive (fun t => VAL (snd (fst (Ipart o rho t A Z)))) T (DDT (snd (fst (Ipart o rho T A Z)))).
Proof. unfold Ipart. destruct (GAS o); cbn [ionF zeros fst snd VAL DDT zero5]; [|apply der_const]. auto_derive; [exact I|ring]. Qed.
Lemma I_er : is_derive (fun r => VAL (snd (fst (Ipart o r T A Z)))) rho (DDR (snd (fst (Ipart o rho T A Z)))).
Proof. unfold Ipart. destruct (GAS o); cbn [ionF zeros fst snd VAL DDR zero5]; apply der_const. Qed.
Lemma E_in : GAS o && DEGENERATE o = true -> inside rho T A Z. Proof. exact (proj2 (proj2 (proj2 G))). Qed.
Lemma E_pT : is_derive (fun t => VAL (pele (Epart o tb false rho t A Z))) T (DDT (pele (Epart o tb false rho T A Z))).
Proof. unfold Epart. generalize E_in. destruct (GAS o && DEGENERATE o); intros H; [apply elec_p_T, H; reflexivity|apply der_const]. Qed.
Lemma E_eT : is_derive (fun t => VAL (eele (Epart o tb false rho t A Z))) T (DDT (eele (Epart o tb false rho T A Z))).
Proof. unfold Epart. generalize E_in. destruct (GAS o && DEGENERATE o); intros H; [apply elec_partials_e, H; reflexivity|apply der_const]. Qed.
Lemma E_er : is_derive (fun r => VAL (eele (Epart o tb false r T A Z))) rho (DDR (eele (Epart o tb false rho T A Z))).
Proof. unfold Epart. generalize E_in. destruct (GAS o && DEGENERATE o); intros H; [apply elec_partials_e, H; reflexivity|apply der_const]. Qed.
Definition eslope : R := if GAS o && DEGENERATE o then slope tb rho T A Z else 0.
Lemma E_pr : is_derive (fun r => VAL (pele (Epart o tb false r T A Z))) rho eslope.
Proof. unfold Epart, eslope. generalize E_in. destruct (GAS o && DEGENERATE o); intros H; [apply elec_p_rho, H; reflexivity|apply der_const]. Qed.

Lemma tot_eT : is_derive (fun t => VAL (he (parts tb o rho t A Z false))) T (DDT (he (parts tb o rho T A Z false))).
Proof.
  rewrite parts_eq by assumption. eapply derive_loc; [loc_parts (good_T _ _ _ _ _ G)|]. cbn [he add5 DDT VAL].
  apply (der_plus (fun t => VAL (snd (fst (Rpart o rho t))) + VAL (snd (fst (Ipart o rho t A Z)))) (fun t => VAL (eele (Epart o tb false rho t A Z)))); [|exact E_eT].
  apply (der_plus (fun t => VAL (snd (fst (Rpart o rho t)))) (fun t => VAL (snd (fst (Ipart o rho t A Z))))); [exact R_eT|exact I_eT].
Qed.
Lemma tot_er : is_derive (fun r => VAL (he (parts tb o r T A Z false))) rho (DDR (he (parts tb o rho T A Z false))).
Proof.
  rewrite parts_eq by assumption. eapply derive_loc; [loc_parts (good_rho _ _ _ _ _ G)|]. cbn [he add5 DDR VAL].
  apply (der_plus (fun r => VAL (snd (fst (Rpart o r T))) + VAL (snd (fst (Ipart o r T A Z)))) (fun r => VAL (eele (Epart o tb false r T A Z)))); [|exact E_er].
  apply (der_plus (fun r => VAL (snd (fst (Rpart o r T)))) (fun r => VAL (snd (fst (Ipart o r T A Z))))); [exact R_er|exact I_er].
Qed.
Lemma tot_pT : is_derive (fun t => VAL (hp (parts tb o rho t A Z false))) T (DDT (hp (parts tb o rho T A Z false))).
Proof.
  rewrite parts_eq by assumption. eapply derive_loc; [loc_parts (good_T _ _ _ _ _ G)|]. cbn [hp add5 DDT VAL].
  apply (der_plus (fun t => VAL (fst (fst (Rpart o rho t))) + VAL (fst (fst (Ipart o rho t A Z)))) (fun t => VAL (pele (Epart o tb false rho t A Z)))); [|exact E_pT].
  apply (der_plus (fun t => VAL (fst (fst (Rpart o rho t)))) (fun t => VAL (fst (fst (Ipart o rho t A Z))))); [exact R_pT|exact I_pT].
Qed.
Lemma tot_pr : is_derive (fun r => VAL (hp (parts tb o r T A Z false))) rho
  (DDR (hp (parts tb o rho T A Z false)) + (eslope - DDR (pele (Epart o tb false rho T A Z)))).
Proof.
  rewrite parts_eq by assumption. eapply derive_loc; [loc_parts (good_rho _ _ _ _ _ G)|]. cbn [hp add5 DDR VAL].
  eapply der_eq.
  - apply (der_plus (fun r => VAL (fst (fst (Rpart o r T))) + VAL (fst (fst (Ipart o r T A Z)))) (fun r => VAL (pele (Epart o tb false r T A Z)))); [|exact E_pr].
    apply (der_plus (fun r => VAL (fst (fst (Rpart o r T)))) (fun r => VAL (fst (fst (Ipart o r T A Z))))); [exact R_pr|exact I_pr].
  - ring.
Qed.
(** energy and pressure belong together: rho^2 dE/drho = P - T dP/dT *)
Lemma tot_consistent : rho * rho * DDR (he (parts tb o rho T A Z false)) =
  VAL (hp (parts tb o rho T A Z false)) - T * DDT (hp (parts tb o rho T A Z false)).
Proof.
  rewrite parts_eq by assumption. cbn [hp he add5 DDR DDT VAL].
  assert (E1 : rho * rho * DDR (snd (fst (Rpart o rho T))) = VAL (fst (fst (Rpart o rho T))) - T * DDT (fst (fst (Rpart o rho T)))).
  { unfold Rpart. destruct (RAD o); cbn [radF zeros fst snd VAL DDR DDT zero5]; [field; exact N|ring]. }
  assert (E2 : rho * rho * DDR (snd (fst (Ipart o rho T A Z))) = VAL (fst (fst (Ipart o rho T A Z))) - T * DDT (fst (fst (Ipart o rho T A Z)))).
  { unfold Ipart. destruct (GAS o); cbn [ionF zeros fst snd VAL DDR DDT zero5]; ring. }
  assert (E3 : DDR (eele (Epart o tb false rho T A Z)) * (rho * rho) = VAL (pele (Epart o tb false rho T A Z)) - T * DDT (pele (Epart o tb false rho T A Z))).
  { unfold Epart. generalize E_in. destruct (GAS o && DEGENERATE o); intros H; [apply elec_energy_pressure, H; reflexivity|cbn; ring]. }
  transitivity (rho * rho * DDR (snd (fst (Rpart o rho T))) + rho * rho * DDR (snd (fst (Ipart o rho T A Z))) + DDR (eele (Epart o tb false rho T A Z)) * (rho * rho)); [ring|].
  rewrite E1, E2, E3. ring.
Qed.
(** what the root finders see is the energy *)
Lemma only_e_VAL : VAL (e_only tb o rho A Z T) = VAL (he (parts tb o rho T A Z false)) /\ DDT (e_only tb o rho A Z T) = DDT (he (parts tb o rho T A Z false)).
Proof.
  unfold e_only. rewrite !parts_eq by assumption. cbn [he add5 VAL DDT]. unfold Epart. generalize E_in.
  destruct (GAS o && DEGENERATE o); intros H; [|split; reflexivity]. destruct (elec_only_e tb rho T A Z (H eq_refl)) as (-> & ->). split; reflexivity.
Qed.
End Sum.

(** ** continuity of the energy on the closed temperature range *)
Lemma index_low lo hi n x : lo < hi -> (2 <= n)%nat -> x <= lo -> index lo hi n x = 0%nat.
Proof.
  intros H Hn Hx. unfold index. assert (D := dx_pos lo hi n H Hn).
  assert (Q : (x - lo) / ((hi - lo) / (INR n - 1)) <= 0).
  { apply Rmult_le_reg_r with ((hi - lo) / (INR n - 1)); [exact D|]. unfold Rdiv at 1. rewrite Rmult_assoc, Rinv_l by (apply Rgt_not_eq; exact D). lra. }
  assert (Z0 : (Ztrunc ((x - lo) / ((hi - lo) / (INR n - 1))) <= 0)%Z).
  { rewrite Ztrunc_ceil by exact Q. rewrite <- (Zceil_IZR 0). apply Zceil_le, Q. }
  rewrite Z.max_l; [reflexivity|]. lia.
Qed.
Definition closed (rho A Z : R) : Prop := rhoMin < rho < rhoMax /\ tiny < A /\ 0 < Z /\ rhoMin < rho * (Z / A) < rhoMax.
Lemma elec_E_eq tb rho T A Z : closed rho A Z -> 0 < T ->
  VAL (eele (elec tb true rho T A Z)) =
  Z / A * F5 (tf tb) 0 0 (rho * (Z / A)) (Rmax TMin T) + T * (- F5 (tf tb) 0 1 (rho * (Z / A)) (Rmax TMin T)) * (Z / A).
Proof.
  intros ((R1 & R2) & HA & HZ & (D1 & D2)) HT. pose proof rhoMin_pos as P. pose proof TMin_pos as PT.
  unfold elec, electrons. unfold De_of at 1, lDe_of. unfold De_of. rewrite !ye_eq by exact HA.
  rewrite (Rmin_right rhoMax (Rmax rhoMin (rho * (Z / A)))), (Rmax_right rhoMin (rho * (Z / A))) by (rewrite ?Rmax_right; lra).
  assert (L1 : lRhoMin <= log10 (rho * (Z / A))). { rewrite <- (log10_pow10 lRhoMin), rhoMin_pow. apply log10_le; lra. }
  assert (L2 : log10 (rho * (Z / A)) <= lRhoMax). { rewrite <- (log10_pow10 lRhoMax), rhoMax_pow. apply log10_le; lra. }
  rewrite (Rmin_right lRhoMax (Rmax lRhoMin (log10 (rho * (Z / A))))), (Rmax_right lRhoMin (log10 (rho * (Z / A)))) by (rewrite ?Rmax_right; lra).
  rewrite pow10_log10 by lra. change (index lRhoMin lRhoMax NRHO (log10 (rho * (Z / A)))) with (isel (rho * (Z / A))).
  assert (J : index lTMin lTMax NTEMP (log10 T) = jsel (Rmax TMin T)).
  { unfold jsel. destruct (Rle_lt_dec TMin T) as [L|L]; [rewrite Rmax_right by lra; reflexivity|]. rewrite Rmax_left by lra.
    assert (l3 : log10 TMin = lTMin) by (rewrite <- TMin_pow; apply log10_pow10).
    rewrite !index_low; try reflexivity; try (unfold lTMin, lTMax; lra); try (unfold NTEMP; lia).
    all: rewrite <- l3; apply log10_le; lra. }
  rewrite J. set (M := Rmax TMin T) in *. assert (HM : TMin <= M) by apply Rmax_l.
  assert (X1 : Rmax 0 ((T - T_ (jsel M)) * (1 / (T_ (S (jsel M)) - T_ (jsel M)))) = (M - T_ (jsel M)) / dT (jsel M)).
  { destruct (jsel_spec M) as (_ & J1 & _); [rewrite T_0; lra|]. pose proof (Tnode_lt (jsel M) (S (jsel M)) ltac:(lia)) as TL.
    unfold dT. assert (I1 : 0 < 1 / (T_ (S (jsel M)) - T_ (jsel M))) by (apply Rdiv_lt_0_compat; lra).
    destruct (Rle_lt_dec TMin T) as [L|L].
    - assert (M = T) by (unfold M; apply Rmax_right; lra). rewrite Rmax_right; [rewrite H; unfold Rdiv; ring|]. apply Rmult_le_pos; lra.
    - assert (EM : M = TMin) by (unfold M; apply Rmax_left; lra).
      assert (E0 : jsel M = 0%nat).
      { rewrite EM. unfold jsel. apply index_low; [unfold lTMin, lTMax; lra|unfold NTEMP; lia|]. rewrite <- TMin_pow, log10_pow10. lra. }
      rewrite E0 in *. rewrite T_0 in *. rewrite EM. unfold Rdiv at 2. rewrite Rmax_left by nra. ring. }
  assert (X2 : Rmax 0 ((rho * (Z / A) - rho_ (isel (rho * (Z / A)))) * (1 / (rho_ (S (isel (rho * (Z / A)))) - rho_ (isel (rho * (Z / A))))))
               = (rho * (Z / A) - rho_ (isel (rho * (Z / A)))) / dR (isel (rho * (Z / A)))).
  { destruct (isel_spec (rho * (Z / A))) as (_ & J1 & _); [rewrite rho_0; lra|].
    pose proof (rnode_lt (isel (rho * (Z / A))) (S (isel (rho * (Z / A)))) ltac:(lia)).
    unfold dR. rewrite Rmax_right; [unfold Rdiv; ring|]. apply Rmult_le_pos; [lra|]. left. apply Rdiv_lt_0_compat; lra. }
  cbv zeta. rewrite X1, X2. reflexivity.
Qed.
Lemma F5_contT t od ot d T : (od <= 2)%nat -> (ot <= 1)%nat -> TMin <= T -> continuous (fun T => F5 t od ot d (Rmax TMin T)) T.
Proof.
  intros Ho Ht HT. set (i := isel d). unfold F5. fold i.
  set (pc := fun (o j : nat) (T : R) => interp5 (corners t j i) od o (dR i) ((d - rho_ i) / dR i) (dT j) ((T - T_ j) / dT j)).
  rewrite <- T_0 in *. apply (pieces_cont T_ 99 (pc ot) (pc (S ot)) jsel).
  - exact Tnode_lt.
  - exact jsel_spec.
  - intros k x _. unfold pc. apply interp5_dt; [apply dT_nz | exact Ht].
  - intros k _. unfold pc. unfold dT at 2 4 6 8. rewrite !frac_1, !frac_0 by (pose proof (Tnode_lt k (S k) ltac:(lia)); lra).
    split; apply interp5_glue_t; try apply dT_nz; try lia; intros; reflexivity.
  - exact HT.
Qed.
Lemma elec_E_cont tb rho T A Z : closed rho A Z -> TMin <= T -> continuous (fun t => VAL (eele (elec tb true rho t A Z))) T.
Proof.
  intros C HT. pose proof TMin_pos.
  apply (cont_loc _ (fun T => Z / A * F5 (tf tb) 0 0 (rho * (Z / A)) (Rmax TMin T) + T * (- F5 (tf tb) 0 1 (rho * (Z / A)) (Rmax TMin T)) * (Z / A))).
  - generalize (loc_gt 0 T ltac:(lra)). apply loc_imp. intros y Hy. rewrite elec_E_eq by assumption. reflexivity.
  - assert (C0 := F5_contT (tf tb) 0 0 (rho * (Z / A)) T ltac:(lia) ltac:(lia) HT). assert (C1 := F5_contT (tf tb) 0 1 (rho * (Z / A)) T ltac:(lia) ltac:(lia) HT).
    apply (continuous_plus (V := R_NormedModule) (fun T => Z / A * F5 (tf tb) 0 0 (rho * (Z / A)) (Rmax TMin T)) (fun T => T * (- F5 (tf tb) 0 1 (rho * (Z / A)) (Rmax TMin T)) * (Z / A))).
    + apply (continuous_mult (K := R_AbsRing) (fun _ => Z / A)); [apply continuous_const|exact C0].
    + apply (continuous_mult (K := R_AbsRing) (fun T => T * (- F5 (tf tb) 0 1 (rho * (Z / A)) (Rmax TMin T))) (fun _ => Z / A)); [|apply continuous_const].
      apply (continuous_mult (K := R_AbsRing) (fun T => T) (fun T => - F5 (tf tb) 0 1 (rho * (Z / A)) (Rmax TMin T))); [apply continuous_id|].
      apply (continuous_opp (V := R_NormedModule) (fun T => F5 (tf tb) 0 1 (rho * (Z / A)) (Rmax TMin T))). exact C1.
Qed.

Lemma TMin_tiny : tiny < TMin.
Proof. pose proof tiny_lt_1. unfold TMin. lra. Qed.
Lemma energy_cont tb o rho A Z T : no_coul o -> tiny < rho -> small_A A Z -> (GAS o && DEGENERATE o = true -> closed rho A Z) -> TMin <= T ->
  continuous (fun t => VAL (e_only tb o rho A Z t)) T.
Proof.
  intros NC Hr HA HC HT. pose proof TMin_tiny as TT. unfold e_only.
  apply (cont_loc _ (fun t => VAL (snd (fst (Rpart o rho t))) + VAL (snd (fst (Ipart o rho t A Z))) + VAL (eele (Epart o tb true rho t A Z)))).
  - generalize (loc_gt tiny T ltac:(lra)). apply loc_imp. intros t Ht. rewrite parts_eq0 by assumption. reflexivity.
  - apply (continuous_plus (V := R_NormedModule) (fun t => VAL (snd (fst (Rpart o rho t))) + VAL (snd (fst (Ipart o rho t A Z))))
             (fun t => VAL (eele (Epart o tb true rho t A Z)))).
    + apply (continuous_plus (V := R_NormedModule) (fun t => VAL (snd (fst (Rpart o rho t)))) (fun t => VAL (snd (fst (Ipart o rho t A Z))))).
      * unfold Rpart. destruct (RAD o); eapply derive_cont; cbn [radF zeros fst snd VAL zero5]; [|apply der_const].
        apply (is_derive_ext (V := R_NormedModule) (fun t => 3 * PREFACTOR / rho * t ^ 4)); [intros t; unfold Rdiv; eqR; ring|]. apply der_T4.
      * unfold Ipart. destruct (GAS o); eapply derive_cont; cbn [ionF zeros fst snd VAL zero5]; [|apply der_const]. auto_derive; [exact I|reflexivity].
    + unfold Epart. destruct (GAS o && DEGENERATE o); [apply elec_E_cont; [apply HC; reflexivity|exact HT]|apply continuous_const].
Qed.

(** ** the temperature search *)
Lemma nr_false_loop f e a b tol : a <= b -> forall left it g x n q,
  a <= g <= b -> @nr_loop RArith left it f e a b tol g = (x, n, q) ->
  match q with
  | NRConverged => a <= x <= b /\ Rabs (fst (f x) - e) < Rabs (tol * e)
  | NRBound => (x = a - (fst (f a) - e) / snd (f a) /\ x <= a /\ Rabs (tol * e) <= Rabs (fst (f a) - e)) \/
               (x = b - (fst (f b) - e) / snd (f b) /\ b <= x /\ Rabs (tol * e) <= Rabs (fst (f b) - e))
  | NRMaxIter => True
  end.
Proof.
  intros Hab. induction left as [|k IH]; intros it g x n q Hg H.
  - cbn [nr_loop] in H. injection H as _ _ <-. exact I.
  - rewrite nr_loop_S in H. destruct (f g) as [yg df] eqn:Ef. cbn [num add sub mul div ltb leb absn RArith] in H. cbv zeta in H.
    destruct (Rlt_bool_spec (Rabs (yg - e)) (Rabs (tol * e))) as [L|L].
    { injection H as <- _ <-. rewrite Ef. cbn [fst]. exact (conj Hg L). }
    destruct (orb (andb (Rle_bool (g - (yg - e) / df) a) (Rle_bool g a)) (andb (Rle_bool b (g - (yg - e) / df)) (Rle_bool b g))) eqn:B.
    { injection H as <- _ <-. apply orb_prop in B. destruct B as [B|B]; apply andb_prop in B; destruct B as (B1 & B2); apply Rleb_true in B1; apply Rleb_true in B2.
      - left. assert (g = a) by lra. subst g. rewrite Ef. cbn [fst snd]. exact (conj eq_refl (conj B1 L)).
      - right. assert (g = b) by lra. subst g. rewrite Ef. cbn [fst snd]. exact (conj eq_refl (conj B1 L)). }
    apply (IH _ _ _ _ _ (clamp_R _ _ _ Hab) H).
Qed.
Definition TMax : R := 10 ^ 13.
Lemma TMax_pow : pow10 lTMax = TMax.
Proof. unfold lTMax, TMax. rewrite <- pow10_nat. f_equal. simpl. ring. Qed.
Lemma TMin_TMax : TMin < TMax.
Proof. unfold TMin, TMax. lra. Qed.
(** the temperature before it is clamped to the table *)
Definition T_search (tb : table) (o : options) (junk rho e : R) (l : lambda) : R :=
  let abar := l_abar l in let zbar := l_zbar l in
  let ni := ratio 1 abar * rho * NA in
  let ne := zbar * ni in
  if RAD o || DEGENERATE o || COUL o then
    let g := match l_lT l with Some v => v | None => junk end in
    let lTguess := if in_lT g then g else let g2 := lTAnalytic rho e ni ne in if in_lT g2 then g2 else 8 in
    let Tguess := pow10 lTguess in
    if NEWTON o then
      match @newton_raphson RArith (fun T : R => (VAL (e_only tb o rho abar zbar T), DDT (e_only tb o rho abar zbar T))) e Tguess
              (pow10 lTMin) (pow10 lTMax) HELM_EOS_EPS false with
      | (SUCCESS, T, _) => T
      | _ => T_regula tb o rho e abar zbar ni ne Tguess
      end
    else T_regula tb o rho e abar zbar ni ne Tguess
  else pow10 (lTAnalytic rho e ni (if IONIZED o then ne else 0)).
Lemma lT_found_eq tb o junk rho e l : lT_found tb o junk rho e l =
  let lT := log10 (T_search tb o junk rho e l) in let lT := if Rlt_bool lT lTMin then lTMin else lT in if Rlt_bool lTMax lT then lTMax else lT.
Proof. reflexivity. Qed.
Definition clampT (T : R) : R := Rmin TMax (Rmax TMin T).
Lemma found_clamp tb o junk rho e l : 0 < T_search tb o junk rho e l -> pow10 (lT_found tb o junk rho e l) = clampT (T_search tb o junk rho e l).
Proof.
  intros H. rewrite lT_found_eq. set (T := T_search tb o junk rho e l) in *. clearbody T. cbv zeta.
  pose proof TMin_TMax as TM. pose proof TMin_pos as TP. unfold clampT.
  assert (l3 : log10 TMin = lTMin) by (rewrite <- TMin_pow; apply log10_pow10).
  assert (l13 : log10 TMax = lTMax) by (rewrite <- TMax_pow; apply log10_pow10).
  destruct (Rlt_bool_spec (log10 T) lTMin) as [L|L].
  - cbv iota. rewrite Rlt_bool_false by (unfold lTMin, lTMax; lra). rewrite TMin_pow.
    assert (T < TMin). { destruct (Rle_lt_dec TMin T) as [K|K]; [exfalso|exact K]. apply (log10_le _ _ TP) in K. lra. }
    rewrite Rmax_left, Rmin_right by lra. reflexivity.
  - assert (TMin <= T). { destruct (Rle_lt_dec TMin T) as [K|K]; [exact K|exfalso]. apply (log10_lt _ _ H) in K. lra. }
    rewrite Rmax_right by lra. destruct (Rlt_bool_spec lTMax (log10 T)) as [M|M].
    + assert (TMax < T). { destruct (Rle_lt_dec T TMax) as [K|K]; [exfalso|exact K]. apply (log10_le _ _ H) in K. lra. }
      rewrite Rmin_left by lra. apply TMax_pow.
    + assert (T <= TMax). { destruct (Rle_lt_dec T TMax) as [K|K]; [exact K|exfalso]. apply log10_lt in K; lra. }
      rewrite Rmin_right by lra. apply pow10_log10, H.
Qed.
Lemma found_range tb o junk rho e l : TMin <= pow10 (lT_found tb o junk rho e l) <= TMax.
Proof.
  rewrite <- TMin_pow, <- TMax_pow. rewrite lT_found_eq. cbv zeta. generalize (log10 (T_search tb o junk rho e l)). intros x.
  destruct (Rlt_bool_spec x lTMin) as [L|L].
  - cbv iota. rewrite Rlt_bool_false by (unfold lTMin, lTMax; lra). split; apply pow10_le; unfold lTMin, lTMax; lra.
  - destruct (Rlt_bool_spec lTMax x) as [M|M]; split; apply pow10_le; unfold lTMin, lTMax in *; lra.
Qed.
Lemma in_lT_range g : in_lT g = true -> TMin <= pow10 g <= TMax.
Proof. unfold in_lT. intros H. apply andb_prop in H. destruct H as (A & B). apply Rleb_true in A. apply Rleb_true in B. rewrite <- TMin_pow, <- TMax_pow. split; apply pow10_le; assumption. Qed.
Lemma guess_range g g2 : TMin <= pow10 (if in_lT g then g else if in_lT g2 then g2 else 8) <= TMax.
Proof.
  destruct (in_lT g) eqn:A; [apply in_lT_range, A|]. destruct (in_lT g2) eqn:B; [apply in_lT_range, B|].
  rewrite <- TMin_pow, <- TMax_pow. split; apply pow10_le; unfold lTMin, lTMax; lra.
Qed.
(** regula falsi from some guess in the table range reports failure *)
Definition rf_gave_up (f : R -> R) (e : R) : Prop :=
  exists guess x n, TMin <= guess <= TMax /\ @regula_falsi RArith f e guess TMin TMax ROOT_THRESH ROOT_THRESH = RFDone FAIL x n.
Lemma thresh_pos : 0 <= ROOT_THRESH.
Proof. unfold ROOT_THRESH. left. apply Rinv_0_lt_compat, pow_lt. lra. Qed.
Lemma T_regula_spec tb o rho e A Z ni ne g : TMin <= g <= TMax ->
  let f := fun T => VAL (e_only tb o rho A Z T) in
  continuous_on f TMin TMax -> f TMin <= e <= f TMax ->
  encloses_root f e TMin TMax ROOT_THRESH (T_regula tb o rho e A Z ni ne g) \/
  (rf_gave_up f e /\ T_regula tb o rho e A Z ni ne g = pow10 (lTAnalytic rho e ni (if IONIZED o then ne else 0))).
Proof.
  intros Hg f HC HB. unfold T_regula. rewrite TMin_pow, TMax_pow.
  assert (S : (f TMin - e) * (f TMax - e) <= 0) by nra.
  destruct (rf_some f e g TMin TMax ROOT_THRESH thresh_pos Hg S) as (st & x & n & E).
  change (@regula_falsi RArith (fun T : R => VAL (e_only tb o rho A Z T)) e g TMin TMax ROOT_THRESH ROOT_THRESH)
    with (@regula_falsi RArith f e g TMin TMax ROOT_THRESH ROOT_THRESH). rewrite E. destruct st.
  - left. exact (rf_root_near f e g TMin TMax ROOT_THRESH ROOT_THRESH x n Hg thresh_pos thresh_pos HC (split_bracket _ _ _ S) E).
  - right. split; [|reflexivity]. exists g, (Some x), n. exact (conj Hg E).
Qed.
Lemma search_spec tb o junk rho e l :
  let f := fun T => VAL (e_only tb o rho (l_abar l) (l_zbar l) T) in
  RAD o || DEGENERATE o || COUL o = true ->
  continuous_on f TMin TMax -> f TMin <= e <= f TMax ->
  0 < DDT (e_only tb o rho (l_abar l) (l_zbar l) TMin) -> 0 < DDT (e_only tb o rho (l_abar l) (l_zbar l) TMax) ->
  (TMin <= T_search tb o junk rho e l <= TMax /\ Rabs (f (T_search tb o junk rho e l) - e) <= / 10 ^ 10 * Rabs e) \/
  encloses_root f e TMin TMax ROOT_THRESH (T_search tb o junk rho e l) \/
  (rf_gave_up f e /\ T_search tb o junk rho e l = pow10 (lTAnalytic rho e (ratio 1 (l_abar l) * rho * NA) (if IONIZED o then l_zbar l * (ratio 1 (l_abar l) * rho * NA) else 0))).
Proof.
  intros f HO HC HB D1 D2. unfold T_search. rewrite HO. cbv zeta.
  set (ni := ratio 1 (l_abar l) * rho * NA). set (ne := l_zbar l * ni).
  set (g := pow10 _). assert (Hg : TMin <= g <= TMax) by (unfold g; apply guess_range). clearbody g.
  pose proof TMin_TMax as TM.
  destruct (NEWTON o); [|right; apply T_regula_spec; assumption].
  set (F := fun T : R => (VAL (e_only tb o rho (l_abar l) (l_zbar l) T), DDT (e_only tb o rho (l_abar l) (l_zbar l) T))).
  rewrite TMin_pow, TMax_pow.
  unfold newton_raphson. destruct (@nr_loop RArith NEWTON_RAPHSON_NITER_MAX 0 F e TMin TMax HELM_EOS_EPS g) as [[x n] q] eqn:E.
  assert (K := nr_false_loop F e TMin TMax HELM_EOS_EPS ltac:(lra) _ _ _ _ _ _ Hg E). clear E.
  assert (TE : forall y, Rabs (HELM_EOS_EPS * e) = y -> y = / 10 ^ 10 * Rabs e).
  { intros y <-. rewrite Rabs_mult. f_equal. apply Rabs_pos_eq. unfold HELM_EOS_EPS. left. apply Rinv_0_lt_compat, pow_lt. lra. }
  destruct q.
  - left. destruct K as (K1 & K2). split; [exact K1|]. rewrite <- (TE _ eq_refl). left. exact K2.
  - left. destruct K as [(K1 & K2 & K3)|(K1 & K2 & K3)]; unfold F in K1, K3; cbn [fst snd] in K1, K3.
    + change (VAL (e_only tb o rho (l_abar l) (l_zbar l) TMin)) with (f TMin) in K1, K3.
      assert (E0 : f TMin = e).
      { apply Rle_antisym; [apply HB|]. destruct (Rle_lt_dec e (f TMin)) as [Q|Q]; [exact Q|exfalso].
        assert ((f TMin - e) / DDT (e_only tb o rho (l_abar l) (l_zbar l) TMin) < 0); [|lra].
        unfold Rdiv. assert (0 < / DDT (e_only tb o rho (l_abar l) (l_zbar l) TMin)) by (apply Rinv_0_lt_compat, D1). nra. }
      rewrite E0 in K1. unfold Rdiv in K1. replace (TMin - (e - e) * / DDT (e_only tb o rho (l_abar l) (l_zbar l) TMin)) with TMin in K1 by ring.
      rewrite K1. split; [lra|]. rewrite E0. rewrite Rminus_diag_eq, Rabs_R0 by reflexivity.
      apply Rmult_le_pos; [left; apply Rinv_0_lt_compat, pow_lt; lra|apply Rabs_pos].
    + change (VAL (e_only tb o rho (l_abar l) (l_zbar l) TMax)) with (f TMax) in K1, K3.
      assert (E0 : f TMax = e).
      { apply Rle_antisym; [|apply HB]. destruct (Rle_lt_dec (f TMax) e) as [Q|Q]; [exact Q|exfalso].
        assert (0 < (f TMax - e) / DDT (e_only tb o rho (l_abar l) (l_zbar l) TMax)); [|lra].
        apply Rdiv_lt_0_compat; lra. }
      rewrite E0 in K1. unfold Rdiv in K1. replace (TMax - (e - e) * / DDT (e_only tb o rho (l_abar l) (l_zbar l) TMax)) with TMax in K1 by ring.
      rewrite K1. split; [lra|]. rewrite E0. rewrite Rminus_diag_eq, Rabs_R0 by reflexivity.
      apply Rmult_le_pos; [left; apply Rinv_0_lt_compat, pow_lt; lra|apply Rabs_pos].
  - right. apply T_regula_spec; assumption.
Qed.
