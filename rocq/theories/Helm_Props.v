(** C68-C70: the Helmholtz EOS. *)
From Coq Require Import ZArith Reals Bool List Lra Lia FunctionalExtensionality.
From Flocq Require Import Core.
From Coquelicot Require Import Coquelicot.
From Verif Require Import Arith Robust_Model RootFinding_Model RootFinding_Proofs Thermo_Spec Thermo_Tools Spiner_Spec Spiner_Props.
From Verif Require Import Helm_Spec Helm_Model Helm_Proofs Helm_Parts Helm_Coul Helm_Read.
Import ListNotations.
Local Open Scope R_scope.

(** ** C68: table file and arrays *)
(** the file is nine numbers per grid point for the free energy, then four per point for the pressure slope, the chemical potential and
    the electron number density; density varies fastest *)
Theorem C68_table_file :
  forall file : list R,
    ((length file < (101 * 271) * 21)%nat -> InitDataFile file = None) /\
    (((101 * 271) * 21 <= length file)%nat -> exists tb, InitDataFile file = Some tb /\
       forall i j, (i < 271)%nat -> (j < 101)%nat ->
       (tf tb 0 0 j i = nth ((j * 271 + i) * 9 + 0) file 0 /\ tf tb 1 0 j i = nth ((j * 271 + i) * 9 + 1) file 0 /\
        tf tb 0 1 j i = nth ((j * 271 + i) * 9 + 2) file 0 /\ tf tb 2 0 j i = nth ((j * 271 + i) * 9 + 3) file 0 /\
        tf tb 0 2 j i = nth ((j * 271 + i) * 9 + 4) file 0 /\ tf tb 1 1 j i = nth ((j * 271 + i) * 9 + 5) file 0 /\
        tf tb 2 1 j i = nth ((j * 271 + i) * 9 + 6) file 0 /\ tf tb 1 2 j i = nth ((j * 271 + i) * 9 + 7) file 0 /\
        tf tb 2 2 j i = nth ((j * 271 + i) * 9 + 8) file 0) /\
       (forall t off, (t = tp tb /\ off = ((101 * 271) * 9)%nat) \/ (t = te tb /\ off = ((101 * 271) * 13)%nat) \/ (t = tx tb /\ off = ((101 * 271) * 17)%nat) ->
        t 0%nat 0%nat j i = nth (off + ((j * 271 + i) * 4 + 0)) file 0 /\ t 1%nat 0%nat j i = nth (off + ((j * 271 + i) * 4 + 1)) file 0 /\
        t 0%nat 1%nat j i = nth (off + ((j * 271 + i) * 4 + 2)) file 0 /\ t 1%nat 1%nat j i = nth (off + ((j * 271 + i) * 4 + 3)) file 0)).
Proof.
  intros file. unfold InitDataFile. generalize SetTables_spec. generalize (101 * 271)%nat. intros N Spec.
  destruct (Spec 9%nat file) as (A1 & A2).
  destruct (Nat.le_gt_cases (N * 9) (length file)) as [L1|L1]; [|rewrite (A1 L1); split; [reflexivity|intros K; exfalso; lia]].
  destruct (A2 L1) as (a & Ea & Va). rewrite Ea. set (r1 := skipn (N * 9) file).
  assert (N1 : length r1 = (length file - N * 9)%nat) by apply skipn_length.
  destruct (Spec 4%nat r1) as (B1 & B2).
  destruct (Nat.le_gt_cases (N * 4) (length r1)) as [L2|L2]; [|rewrite (B1 L2); split; [reflexivity|intros K; exfalso; lia]].
  destruct (B2 L2) as (b & Eb & Vb). rewrite Eb. set (r2 := skipn (N * 4) r1).
  assert (N2 : length r2 = (length r1 - N * 4)%nat) by apply skipn_length.
  destruct (Spec 4%nat r2) as (C1 & C2).
  destruct (Nat.le_gt_cases (N * 4) (length r2)) as [L3|L3]; [|rewrite (C1 L3); split; [reflexivity|intros K; exfalso; lia]].
  destruct (C2 L3) as (c & Ec & Vc). rewrite Ec. set (r3 := skipn (N * 4) r2).
  assert (N3 : length r3 = (length r2 - N * 4)%nat) by apply skipn_length.
  destruct (Spec 4%nat r3) as (D1 & D2).
  destruct (Nat.le_gt_cases (N * 4) (length r3)) as [L4|L4]; [|rewrite (D1 L4); split; [reflexivity|intros K; exfalso; lia]].
  destruct (D2 L4) as (d & Ed & Vd). rewrite Ed.
  split; [intros K; exfalso; lia|]. intros _. eexists. split; [reflexivity|]. intros i j Hi Hj. cbn [tf tp te tx].
  split.
  - repeat split; (rewrite Va by (cbn [slot9]; lia)); reflexivity.
  - assert (S2 : forall m, nth m r2 0 = nth (N * 13 + m) file 0).
    { intros m. unfold r2, r1. rewrite !nth_skip. f_equal. lia. }
    assert (S3 : forall m, nth m r3 0 = nth (N * 17 + m) file 0).
    { intros m. unfold r3. rewrite nth_skip, S2. f_equal. lia. }
    intros t off [(-> & ->) | [(-> & ->) | (-> & ->)]].
    + repeat split; (rewrite Vb by (cbn [slot4]; lia)); unfold r1; rewrite nth_skip; reflexivity.
    + repeat split; (rewrite Vc by (cbn [slot4]; lia)); rewrite S2; reflexivity.
    + repeat split; (rewrite Vd by (cbn [slot4]; lia)); rewrite S3; reflexivity.
Qed.
Lemma nth_repeat_lt (x d : R) : forall m n, (n < m)%nat -> nth n (repeat x m) d = x.
Proof. induction m as [|m IH]; intros n H; [lia|]. destruct n as [|n]; [reflexivity|]. cbn. apply IH. lia. Qed.
Example C68_table_file_nonvacuous : forall x, exists tb, InitDataFile (repeat x ((101 * 271) * 21)) = Some tb /\ tf tb 2 1 100 270 = x /\ tx tb 1 1 0 0 = x.
Proof.
  intros x. destruct (C68_table_file (repeat x ((101 * 271) * 21))) as (_ & H). destruct (H ltac:(rewrite repeat_length; reflexivity)) as (tb & E & V).
  exists tb. split; [exact E|]. split.
  - destruct (V 270%nat 100%nat ltac:(lia) ltac:(lia)) as ((_ & _ & _ & _ & _ & _ & K & _) & _). rewrite K. apply nth_repeat_lt. lia.
  - destruct (V 0%nat 0%nat ltac:(lia) ltac:(lia)) as (_ & K). destruct (K (tx tb) ((101 * 271) * 17)%nat) as (_ & _ & _ & K4); [right; right; split; reflexivity|].
    rewrite K4. apply nth_repeat_lt. lia.
Qed.

(** at a grid point the interpolated free energy and its derivatives are the numbers of the table, so the electron energy, entropy and
    pressure there are those of the table *)
Theorem C68_electrons_at_grid_point :
  forall tb i j A Z, tiny < A -> 0 < Z -> (0 < i < 270)%nat -> (0 < j <= 100)%nat ->
    let rho := rho_ i * (A / Z) in let T := T_ j in
    rhoMin < rho < rhoMax ->
    let el := electrons tb rho (log10 T) (ye_of A Z) (ytot_of A) (De_of rho A Z) (lDe_of rho A Z) false in
    VAL (pele el) = rho_ i * rho_ i * tf tb 1 0 j i /\
    VAL (eele el) = Z / A * (tf tb 0 0 j i - T * tf tb 0 1 j i) /\ DDT (eele el) = - (Z / A) * (T * tf tb 0 2 j i) /\
    VAL (sele el) = - (Z / A) * tf tb 0 1 j i.
Proof.
  intros tb i j A Z HA HZ Hi Hj rho T HR el. pose proof tiny_pos.
  assert (D : rho * (Z / A) = rho_ i) by (unfold rho; field; lra).
  assert (I : inside rho T A Z).
  { split; [exact HR|]. split; [unfold T; rewrite <- T_0; apply Tnode_lt; lia|]. split; [exact HA|]. split; [exact HZ|]. rewrite D. split.
    - rewrite <- rho_0. apply rnode_lt. lia.
    - rewrite <- rhoMax_pow. unfold rho_. apply pow10_lt. unfold node, lRhoMin, lRhoMax, NRHO.
      assert (INR i < 270) by (replace 270 with (INR 270) by (simpl; ring); apply lt_INR; lia). simpl (INR 271 - 1). lra. }
  change el with (elec tb false rho T A Z). rewrite (elec_eq _ _ _ _ _ _ I). unfold elecF. cbv zeta. cbn [pele eele sele VAL DDT]. rewrite D.
  unfold T. rewrite !F5_node by lia. repeat split; ring.
Qed.
Example C68_electrons_at_grid_point_nonvacuous : rhoMin < rho_ 100 * (2 / 1) < rhoMax.
Proof.
  unfold rho_, rhoMin, rhoMax. assert (E : node lRhoMin lRhoMax NRHO 100 = -2) by (unfold node, lRhoMin, lRhoMax, NRHO; simpl; lra). rewrite E.
  replace (-2) with (- INR 2) by (simpl; ring). rewrite pow10_neg, pow10_nat. lra.
Qed.

(** radiation: pressure, energy and entropy are values with their partial derivatives, and obey the first law *)
Theorem C68_radiation :
  forall rho T A Z, tiny < rho -> tiny < T ->
    partials (fun r t _ _ => fst (fst (rad r t))) rho T A Z /\ partials (fun r t _ _ => snd (fst (rad r t))) rho T A Z /\
    partials (fun r t _ _ => snd (rad r t)) rho T A Z /\
    first_law (fun r t => VAL (snd (rad r t))) (fun r t => VAL (snd (fst (rad r t)))) (fun r t => VAL (fst (fst (rad r t)))) rho T /\
    VAL (snd (fst (rad rho T))) = 3 * VAL (fst (fst (rad rho T))) / rho.
Proof.
  intros rho T A Z Hr HT. pose proof tiny_pos. destruct (rad_partials rho T A Z Hr HT) as (H1 & H2 & H3).
  split; [exact H1|]. split; [exact H2|]. split; [exact H3|]. split.
  - destruct H2 as (E1 & E2 & _). destruct H3 as (S1 & S2 & _). exists (DDT (snd (fst (rad rho T)))), (DDR (snd (fst (rad rho T)))).
    refine (conj E2 (conj E1 (conj _ _))).
    + eapply der_eq; [exact S2|]. rewrite rad_eq by assumption. cbn [radF fst snd DDT]. field. lra.
    + eapply der_eq; [exact S1|]. rewrite rad_eq by assumption. cbn [radF fst snd DDR VAL]. field. lra.
  - rewrite rad_eq by assumption. cbn [radF fst snd VAL]. field. lra.
Qed.

(** electrons inside the table: energy, entropy, chemical potential and (where it does not fall with density) number density are values with
    their partial derivatives; the pressure array too if the tabulated slope is the slope of the tabulated free energy; first law *)
Theorem C68_electrons :
  forall tb rho T A Z, inside rho T A Z ->
    let el r t a z := electrons tb r (log10 t) (ye_of a z) (ytot_of a) (De_of r a z) (lDe_of r a z) false in
    partials (fun r t a z => eele (el r t a z)) rho T A Z /\ partials (fun r t a z => sele (el r t a z)) rho T A Z /\
    partials (fun r t a z => etaele (el r t a z)) rho T A Z /\
    (0 < DDR (xne (el rho T A Z)) -> partials (fun r t a z => xne (el r t a z)) rho T A Z) /\
    (is_derive (fun r => VAL (pele (el r T A Z))) rho (DDR (pele (el rho T A Z))) -> partials (fun r t a z => pele (el r t a z)) rho T A Z) /\
    first_law (fun r t => VAL (sele (el r t A Z))) (fun r t => VAL (eele (el r t A Z))) (fun r t => VAL (pele (el r t A Z))) rho T.
Proof.
  intros tb rho T A Z H. change (let el r t a z := elec tb false r t a z in
    partials (fun r t a z => eele (el r t a z)) rho T A Z /\ partials (fun r t a z => sele (el r t a z)) rho T A Z /\
    partials (fun r t a z => etaele (el r t a z)) rho T A Z /\
    (0 < DDR (xne (el rho T A Z)) -> partials (fun r t a z => xne (el r t a z)) rho T A Z) /\
    (is_derive (fun r => VAL (pele (el r T A Z))) rho (DDR (pele (el rho T A Z))) -> partials (fun r t a z => pele (el r t a z)) rho T A Z) /\
    first_law (fun r t => VAL (sele (el r t A Z))) (fun r t => VAL (eele (el r t A Z))) (fun r t => VAL (pele (el r t A Z))) rho T). cbv zeta.
  pose proof tiny_pos. assert (HT : 0 < T) by (destruct H as (_ & K & _); pose proof TMin_pos; lra).
  assert (HR : 0 < rho) by (destruct H as (K & _); pose proof rhoMin_pos; lra).
  split; [apply elec_partials_e, H|]. split; [apply elec_partials_s, H|]. split; [apply elec_partials_eta, H|]. split; [|split].
  - intros P. apply elec_partials_ne; [exact H|]. rewrite elec_eq in P by exact H. unfold elecF in P. cbv zeta in P. cbn [xne DDR] in P.
    destruct (Rle_lt_dec 0 (F3 (tx tb) 1 0 (rho * (Z / A)) T)) as [L|L]; [exact L|exfalso]. rewrite Rmax_left in P by lra. lra.
  - intros D. apply elec_partials_p; [exact H|]. assert (D2 := elec_p_rho tb rho T A Z H). apply is_derive_unique in D. apply is_derive_unique in D2.
    rewrite <- D, <- D2. reflexivity.
  - destruct (elec_partials_e tb rho T A Z H) as (E1 & E2 & _). destruct (elec_partials_s tb rho T A Z H) as (S1 & S2 & _).
    destruct (elec_entropy tb rho T A Z H) as (Q1 & Q2).
    exists (DDT (eele (elec tb false rho T A Z))), (DDR (eele (elec tb false rho T A Z))).
    refine (conj E2 (conj E1 (conj _ _))).
    + eapply der_eq; [exact S2|]. rewrite <- Q1. field. lra.
    + eapply der_eq; [exact S1|]. rewrite <- Q2. field. lra.
Qed.
Example C68_electrons_nonvacuous : inside 100 (10 ^ 6) 2 1.
Proof. unfold inside, rhoMin, rhoMax, TMin. pose proof tiny_lt_1. repeat split; lra. Qed.

(** ** C69: the queries *)
(** the electron part of the pressure rises with density as the pressure-slope table says (see C71 for what happens otherwise) *)
Definition slope_table_agrees (tb : table) (rho T A Z : R) : Prop :=
  let el r := electrons tb r (log10 T) (ye_of A Z) (ytot_of A) (De_of r A Z) (lDe_of r A Z) false in
  is_derive (fun r => VAL (pele (el r))) rho (DDR (pele (el rho))).
Section Queries.
Variables (tb : table) (o : options) (junk : R) (u : fstate) (l : lambda).
Variables (E P : R -> R -> R).
(** E and P are the energy and pressure queries *)
Hypothesis HE : forall r t, InternalEnergyFromDensityTemperature tb o junk u r t l = Some (E r t).
Hypothesis HP : forall r t, PressureFromDensityTemperature tb o junk u r t l = Some (P r t).
Let A := l_abar l. Let Z := l_zbar l.
Lemma E_is r t : E r t = VAL (he (parts tb o r t A Z false)).
Proof. assert (K := HE r t). unfold InternalEnergyFromDensityTemperature, got, FillEos, ask in K. cbn in K. injection K as K. symmetry. exact K. Qed.
Lemma P_is r t : P r t = VAL (hp (parts tb o r t A Z false)).
Proof. assert (K := HP r t). unfold PressureFromDensityTemperature, got, FillEos, ask in K. cbn in K. injection K as K. symmetry. exact K. Qed.
Lemma cv_is r t c : SpecificHeatFromDensityTemperature tb o junk u r t l = Some c -> c = DDT (he (parts tb o r t A Z false)).
Proof. intros K. unfold SpecificHeatFromDensityTemperature, got, FillEos, ask in K. cbn in K. injection K as K. symmetry. exact K. Qed.
Lemma B_is r t b : BulkModulusFromDensityTemperature tb o junk u r t l = Some b ->
  b = Rmax EPS (VAL (hp (parts tb o r t A Z false)) * Gamma1 r t (hp (parts tb o r t A Z false)) (he (parts tb o r t A Z false))).
Proof. intros K. unfold BulkModulusFromDensityTemperature, got, FillEos, ask in K. cbn in K. injection K as K. symmetry. exact K. Qed.
Variables (rho T : R).
Hypothesis NC : no_coul o.
Hypothesis G : good o rho T A Z.
Lemma dET : is_derive (fun t => E rho t) T (DDT (he (parts tb o rho T A Z false))).
Proof. eapply (is_derive_ext (V := R_NormedModule)); [intros t; symmetry; apply E_is|]. apply tot_eT; assumption. Qed.
Lemma dEr : is_derive (fun r => E r T) rho (DDR (he (parts tb o rho T A Z false))).
Proof. eapply (is_derive_ext (V := R_NormedModule)); [intros t; symmetry; apply E_is|]. apply tot_er; assumption. Qed.
Lemma dPT : is_derive (fun t => P rho t) T (DDT (hp (parts tb o rho T A Z false))).
Proof. eapply (is_derive_ext (V := R_NormedModule)); [intros t; symmetry; apply P_is|]. apply tot_pT; assumption. Qed.
Lemma dPr : (GAS o && DEGENERATE o = true -> slope_table_agrees tb rho T A Z) -> is_derive (fun r => P r T) rho (DDR (hp (parts tb o rho T A Z false))).
Proof.
  intros S. eapply (is_derive_ext (V := R_NormedModule)); [intros t; symmetry; apply P_is|]. eapply der_eq; [apply tot_pr; assumption|].
  assert (eslope tb o rho T A Z = DDR (pele (Epart o tb false rho T A Z))); [|lra]. unfold eslope, Epart.
  assert (HI := proj2 (proj2 (proj2 G))).
  destruct (GAS o && DEGENERATE o); [|reflexivity]. specialize (S eq_refl). unfold slope_table_agrees in S.
  apply is_derive_unique in S. assert (D2 := elec_p_rho tb rho T A Z (HI eq_refl)). apply is_derive_unique in D2.
  rewrite <- D2. exact S.
Qed.
Theorem C69_specific_heat : forall c, SpecificHeatFromDensityTemperature tb o junk u rho T l = Some c -> is_specific_heat E rho T c.
Proof. intros c K. apply cv_is in K. subst c. exact dET. Qed.
Theorem C69_energy_and_pressure_compatible : compatible P E rho T.
Proof. exists (DDR (he (parts tb o rho T A Z false))), (DDT (hp (parts tb o rho T A Z false))). rewrite P_is. refine (conj dEr (conj dPT _)). apply tot_consistent; assumption. Qed.
Theorem C69_gruneisen : forall c, SpecificHeatFromDensityTemperature tb o junk u rho T l = Some c -> tiny < P rho T -> tiny < rho * T * c ->
  is_gruneisen_T P E rho T (GruneisenParamFromDensityTemperature tb o rho T l).
Proof.
  intros c K H1 H2. apply cv_is in K. subst c. pose proof tiny_pos. destruct G as (Gr & GT & _). exists (DDT (hp (parts tb o rho T A Z false))), (DDT (he (parts tb o rho T A Z false))).
  rewrite P_is in H1.
  unfold GruneisenParamFromDensityTemperature, Gamma3. fold A Z. cbv zeta.
  refine (conj dPT (conj dET _)).
  set (p := hp (parts tb o rho T A Z false)) in *. set (e := he (parts tb o rho T A Z false)) in *.
  rewrite (ratio_pos T (VAL p)) by lra. rewrite ratio_pos by lra.
  assert (N : DDT e <> 0) by (intros N; rewrite N, Rmult_0_r in H2; lra). split; [exact N|].
  field. repeat split; try lra; exact N.
Qed.
Theorem C69_bulk_modulus : forall c b, SpecificHeatFromDensityTemperature tb o junk u rho T l = Some c ->
  BulkModulusFromDensityTemperature tb o junk u rho T l = Some b ->
  tiny < P rho T -> tiny < rho * T * c -> (GAS o && DEGENERATE o = true -> slope_table_agrees tb rho T A Z) ->
  exists B, is_adiabatic_modulus P E rho T B /\ b = Rmax EPS B.
Proof.
  intros c b K KB H1 H2 S. apply cv_is in K. apply B_is in KB. subst c b. pose proof tiny_pos. destruct G as (Gr & GT & _). rewrite P_is in H1.
  eexists. split; [|reflexivity].
  exists (DDR (hp (parts tb o rho T A Z false))), (DDT (hp (parts tb o rho T A Z false))), (DDR (he (parts tb o rho T A Z false))),
    (DDT (he (parts tb o rho T A Z false))),
    (T * DDT (hp (parts tb o rho T A Z false)) / (rho * rho * DDT (he (parts tb o rho T A Z false)))).
  refine (conj (dPr S) (conj dPT (conj dEr (conj dET _)))). rewrite P_is.
  assert (C := tot_consistent tb o rho T A Z NC G).
  unfold Gamma1. set (p := hp (parts tb o rho T A Z false)) in *. set (e := he (parts tb o rho T A Z false)) in *.
  assert (N : DDT e <> 0) by (intros N; rewrite N, Rmult_0_r in H2; lra).
  rewrite (ratio_pos T (VAL p)) by lra. rewrite (ratio_pos _ (rho * T * DDT e)) by lra. rewrite (ratio_pos _ (VAL p)) by lra.
  assert (DE : DDR e = (VAL p - T * DDT p) / (rho * rho)) by (rewrite <- C; field; lra).
  split; [rewrite DE|]; field; repeat split; try lra; exact N.
Qed.
(** radiation alone: the entropy query obeys the first law *)
Theorem C69_entropy_radiation : GAS o = false -> RAD o = true -> first_law (fun r t => EntropyFromDensityTemperature tb o r t l) E P rho T.
Proof.
  intros HG HR. destruct G as (Gr & GT & _).
  assert (Q : forall r t b, parts tb o r t A Z b = mkHout (fst (fst (rad r t))) (snd (fst (rad r t))) (snd (rad r t)) zero5 zero5).
  { intros r t b. unfold parts. rewrite HG, HR. cbn [andb]. destruct (rad r t) as [[x y] z]. unfold zeros. cbn [fst snd pele eele sele etaele xne]. rewrite !add5_0. reflexivity. }
  destruct (C68_radiation rho T A Z Gr GT) as (_ & _ & _ & (d1 & d2 & F1 & F2 & F3 & F4) & _).
  exists d1, d2. unfold EntropyFromDensityTemperature. fold A Z. refine (conj _ (conj _ (conj _ _))).
  - eapply (is_derive_ext (V := R_NormedModule)); [|exact F1]. intros t. rewrite E_is, Q. reflexivity.
  - eapply (is_derive_ext (V := R_NormedModule)); [|exact F2]. intros t. rewrite E_is, Q. reflexivity.
  - eapply (is_derive_ext (V := R_NormedModule)); [|exact F3]. intros t. rewrite Q. reflexivity.
  - rewrite P_is, Q. cbn [hp]. eapply (is_derive_ext (V := R_NormedModule)); [|exact F4]. intros t. rewrite Q. reflexivity.
Qed.
End Queries.
(** non-vacuity: an ionised non-degenerate gas with radiation *)
Definition gas_rad : options := mkO true true true true false true.
Example C69_nonvacuous : forall tb junk u,
  let l := mkL 4 2 None in
  no_coul gas_rad /\ good gas_rad 1 (10 ^ 6) 4 2 /\
  exists E P : R -> R -> R, (forall r t, InternalEnergyFromDensityTemperature tb gas_rad junk u r t l = Some (E r t)) /\
    (forall r t, PressureFromDensityTemperature tb gas_rad junk u r t l = Some (P r t)) /\
    tiny < P 1 (10 ^ 6) /\ exists c, SpecificHeatFromDensityTemperature tb gas_rad junk u 1 (10 ^ 6) l = Some c /\ tiny < 1 * 10 ^ 6 * c.
Proof.
  intros tb junk u l. pose proof tiny_lt_1 as T1. pose proof tiny_pos as T0'.
  assert (NC : no_coul gas_rad) by reflexivity.
  assert (GD : good gas_rad 1 (10 ^ 6) 4 2). { refine (conj _ (conj _ (conj (conj _ (conj _ _)) _))); try lra. cbn. discriminate. }
  split; [exact NC|]. split; [exact GD|].
  exists (fun r t => VAL (he (parts tb gas_rad r t 4 2 false))), (fun r t => VAL (hp (parts tb gas_rad r t 4 2 false))).
  split; [intros; reflexivity|]. split; [intros; reflexivity|].
  assert (K : 1 < KBNA). { unfold KBNA, KB, NA. lra. }
  assert (PF : 0 < PREFACTOR). { unfold PREFACTOR, SIG_O_C. lra. }
  split.
  - rewrite parts_eq by assumption. unfold Rpart, Ipart, Epart, Ypart. cbn [gas_rad RAD GAS IONIZED DEGENERATE COUL NEWTON andb orb negb radF ionF fst snd hp add5 VAL pele zero5].
    nra.
  - exists (DDT (he (parts tb gas_rad 1 (10 ^ 6) 4 2 false))). split; [reflexivity|].
    rewrite parts_eq by assumption. unfold Rpart, Ipart, Epart, Ypart. cbn [gas_rad RAD GAS IONIZED DEGENERATE COUL NEWTON andb orb negb radF ionF fst snd he add5 DDT eele zero5].
    lra.
Qed.

(** FillEos refuses exactly when density is requested or energy and temperature are both requested *)
Theorem C69_FillEos_refuses :
  forall tb o junk fl l s, FillEos tb o junk fl l s = None <-> f_rho fl = true \/ (f_temp fl = true /\ f_sie fl = true).
Proof.
  intros tb o junk [r t e p c b] l s. unfold FillEos. cbn [f_rho f_temp f_sie f_press f_cv f_bmod].
  destruct r, t, e; cbn [andb]; split; intros H; try reflexivity; try discriminate; try tauto; destruct H as [H|[H1 H2]]; discriminate.
Qed.
(** otherwise it changes only what was requested; what it writes are the scalar queries at the final density and temperature; the lambda's
    cached log temperature becomes that of the input temperature, and is untouched when energy is the input *)
Theorem C69_FillEos :
  forall tb o junk u fl l s s' l', FillEos tb o junk fl l s = Some (s', l') ->
    fill_frame fl s s' /\
    (f_temp fl = true -> TemperatureFromDensityInternalEnergy tb o junk u (s_rho s) (s_sie s) l = Some (s_temp s') /\ l' = l) /\
    (f_temp fl = false -> l_abar l' = l_abar l /\ l_zbar l' = l_zbar l /\
       (l_lT l = None -> l_lT l' = None) /\ (forall v, l_lT l = Some v -> l_lT l' = Some (log10 (s_temp s)))) /\
    (f_sie fl = true -> InternalEnergyFromDensityTemperature tb o junk u (s_rho s') (s_temp s') l = Some (s_sie s')) /\
    (f_press fl = true -> PressureFromDensityTemperature tb o junk u (s_rho s') (s_temp s') l = Some (s_press s')) /\
    (f_cv fl = true -> SpecificHeatFromDensityTemperature tb o junk u (s_rho s') (s_temp s') l = Some (s_cv s')) /\
    (f_bmod fl = true -> BulkModulusFromDensityTemperature tb o junk u (s_rho s') (s_temp s') l = Some (s_bmod s')).
Proof.
  intros tb o junk u [r t e p c b] l s s' l' H. unfold FillEos in H. cbn [f_rho f_temp f_sie f_press f_cv f_bmod] in *.
  destruct r; [discriminate|]. destruct (t && e) eqn:TE; [discriminate|]. injection H as H.
  unfold fill_core in H. cbn [f_rho f_temp f_sie f_press f_cv f_bmod] in H.
  unfold TemperatureFromDensityInternalEnergy, InternalEnergyFromDensityTemperature, PressureFromDensityTemperature, SpecificHeatFromDensityTemperature,
    BulkModulusFromDensityTemperature, got, FillEos, ask, fill_core, at_rho_T, at_rho_e, fill_frame.
  cbn [f_rho f_temp f_sie f_press f_cv f_bmod andb option_map fst snd cond_upd upd_temp upd_sie upd_press upd_cv upd_bmod s_rho s_temp s_sie s_press s_cv s_bmod].
  destruct t; [destruct e; [discriminate TE|]|]; destruct s as [sr st se sp sc sb];
    cbn [cond_upd upd_temp upd_sie upd_press upd_cv upd_bmod s_rho s_temp s_sie s_press s_cv s_bmod] in *; injection H as <- <-;
    destruct p, c, b; try destruct e; cbn [cond_upd upd_temp upd_sie upd_press upd_cv upd_bmod s_rho s_temp s_sie s_press s_cv s_bmod set_lT l_abar l_zbar l_lT];
    repeat match goal with |- _ /\ _ => split | |- forall _, _ => intro end; try reflexivity; try discriminate;
    match goal with H : l_lT _ = _ |- _ => rewrite H; reflexivity end.
Qed.
Example C69_FillEos_nonvacuous : forall tb o junk s, exists s' l',
  FillEos tb o junk (mkF false true false true true true) (mkL 4 2 None) s = Some (s', l') /\ FillEos tb o junk (mkF false false true true true true) (mkL 4 2 (Some 5)) s <> None.
Proof.
  intros. destruct (FillEos tb o junk (mkF false true false true true true) (mkL 4 2 None) s) as [[s' l']|] eqn:E.
  - exists s', l'. split; [reflexivity|]. intros K. apply C69_FillEos_refuses in K. cbn in K. destruct K as [K|[K _]]; discriminate.
  - apply C69_FillEos_refuses in E. cbn in E. destruct E as [K|[_ K]]; discriminate.
Qed.

(** queries at (rho, energy) are the queries at (rho, T(rho, energy)) *)
Theorem C69_energy_entry_points :
  forall tb o junk u rho e l T, TemperatureFromDensityInternalEnergy tb o junk u rho e l = Some T ->
    PressureFromDensityInternalEnergy tb o junk u rho e l = PressureFromDensityTemperature tb o junk u rho T l /\
    SpecificHeatFromDensityInternalEnergy tb o junk u rho e l = SpecificHeatFromDensityTemperature tb o junk u rho T l /\
    BulkModulusFromDensityInternalEnergy tb o junk u rho e l = BulkModulusFromDensityTemperature tb o junk u rho T l /\
    EntropyFromDensityInternalEnergy tb o junk rho e l = EntropyFromDensityTemperature tb o rho T l /\
    GruneisenParamFromDensityInternalEnergy tb o junk rho e l = GruneisenParamFromDensityTemperature tb o rho T l.
Proof.
  intros tb o junk u rho e l T H.
  assert (E : T = pow10 (lTFromRhoSie tb o junk rho e l)). { unfold TemperatureFromDensityInternalEnergy, got, FillEos, ask in H. cbn in H. injection H as H. symmetry. exact H. }
  subst T. repeat split.
Qed.
(** the mean atomic mass and number are the lambda's; the reference state is 10^7 g/cc at 1.5e9 K with dpde = rho Gamma and dvdt = 0 *)
Theorem C69_composition_and_reference :
  forall tb o junk u l,
    (forall rho T, MeanAtomicMassFromDensityTemperature rho T l = l_abar l /\ MeanAtomicNumberFromDensityTemperature rho T l = l_zbar l) /\
    exists s dpde, ValuesAtReferenceState tb o junk u l = Some (s, dpde, 0) /\ s_rho s = 10 ^ 7 /\ s_temp s = 15 * 10 ^ 8 /\
      InternalEnergyFromDensityTemperature tb o junk u (10 ^ 7) (15 * 10 ^ 8) l = Some (s_sie s) /\
      PressureFromDensityTemperature tb o junk u (10 ^ 7) (15 * 10 ^ 8) l = Some (s_press s) /\
      SpecificHeatFromDensityTemperature tb o junk u (10 ^ 7) (15 * 10 ^ 8) l = Some (s_cv s) /\
      BulkModulusFromDensityTemperature tb o junk u (10 ^ 7) (15 * 10 ^ 8) l = Some (s_bmod s) /\
      dpde = GruneisenParamFromDensityTemperature tb o (10 ^ 7) (15 * 10 ^ 8) l * 10 ^ 7.
Proof.
  intros tb o junk u l. split; [intros; split; reflexivity|]. unfold ValuesAtReferenceState, FillEos, ask. cbn [f_rho f_temp f_sie andb].
  destruct (fill_core tb o junk _ l _) as [s l'] eqn:E. unfold fill_core, at_rho_T in E.
  cbn [f_rho f_temp f_sie f_press f_cv f_bmod s_rho s_temp s_sie s_press s_cv s_bmod cond_upd upd_temp upd_sie upd_press upd_cv upd_bmod] in E.
  injection E as <- <-. eexists. eexists. split; [reflexivity|]. cbn [s_rho s_temp s_sie s_press s_cv s_bmod]. repeat split; reflexivity.
Qed.

(** density and energy at a given pressure and temperature: either an abort, or a density of the table whose pressure bracket contains the
    given pressure, with the energy the energy query gives there *)
Theorem C69_density_energy_from_pressure_temperature :
  forall tb o junk u press T l (P : R -> R),
    (forall r, PressureFromDensityTemperature tb o junk u r T l = Some (P r)) ->
    continuous_on P rhoMin rhoMax -> P rhoMin <= press <= P rhoMax ->
    match DensityEnergyFromPressureTemperature tb o press T l with
    | Some (rho, e) => encloses_root P press rhoMin rhoMax (/ 10 ^ 8) rho /\ InternalEnergyFromDensityTemperature tb o junk u rho T l = Some e
    | None => exists x n, @regula_falsi RArith P press (10 ^ 7) rhoMin rhoMax (/ 10 ^ 8) (/ 10 ^ 8) = @RFDone RArith FAIL x n
    end.
Proof.
  intros tb o junk u press T l P HP HC HB.
  assert (PE : forall r, P r = VAL (hp (parts tb o r T (l_abar l) (l_zbar l) false))).
  { intros r. assert (K := HP r). unfold PressureFromDensityTemperature, got, FillEos, ask in K. cbn in K. injection K as K. symmetry. exact K. }
  assert (HE : forall r, InternalEnergyFromDensityTemperature tb o junk u r T l = Some (VAL (he (parts tb o r T (l_abar l) (l_zbar l) false)))) by reflexivity.
  assert (TP : 0 <= / 10 ^ 8) by (left; apply Rinv_0_lt_compat, pow_lt; lra).
  assert (HG : rhoMin <= 10 ^ 7 <= rhoMax) by (unfold rhoMin, rhoMax; lra).
  assert (S : (P rhoMin - press) * (P rhoMax - press) <= 0) by nra.
  destruct (rf_some P press (10 ^ 7) rhoMin rhoMax (/ 10 ^ 8) TP HG S) as (st & x & n & E).
  assert (EQ : @regula_falsi RArith (fun r : R => VAL (hp (parts tb o r T (l_abar l) (l_zbar l) false))) press (10 ^ 7) rhoMin rhoMax (/ 10 ^ 8) (/ 10 ^ 8)
             = @regula_falsi RArith P press (10 ^ 7) rhoMin rhoMax (/ 10 ^ 8) (/ 10 ^ 8)).
  { f_equal. apply FunctionalExtensionality.functional_extensionality. intros r. symmetry. apply PE. }
  unfold DensityEnergyFromPressureTemperature. rewrite EQ, E. destruct st.
  - assert (K := rf_root_near P press (10 ^ 7) rhoMin rhoMax (/ 10 ^ 8) (/ 10 ^ 8) x n HG TP TP HC (split_bracket _ _ _ S) E).
    assert (0 <= x) by (destruct K as (K & _); pose proof rhoMin_pos; lra). rewrite Rlt_bool_false by assumption. exact (conj K (HE x)).
  - exists (Some x), n. reflexivity.
Qed.
(** non-vacuity: an ionised gas with radiation at 10^6 K *)
Lemma gas_pressure : forall tb r, tiny < r -> VAL (hp (parts tb gas_rad r (10 ^ 6) 4 2 false)) = PREFACTOR * (10 ^ 6) ^ 4 + KBNA * (3 / 4) * r * 10 ^ 6.
Proof.
  intros tb r Hr. pose proof tiny_lt_1. pose proof tiny_pos. rewrite parts_eq0; [|reflexivity|exact Hr|lra|refine (conj _ (conj _ _)); lra].
  unfold Rpart, Ipart, Epart, Ypart. cbn [gas_rad RAD GAS IONIZED DEGENERATE COUL NEWTON andb orb negb radF ionF fst snd hp add5 VAL pele zero5].
  replace (2 + 1) with 3 by ring. ring.
Qed.
Example C69_density_nonvacuous : forall tb junk u, let l := mkL 4 2 None in
  exists P : R -> R, (forall r, PressureFromDensityTemperature tb gas_rad junk u r (10 ^ 6) l = Some (P r)) /\
    continuous_on P rhoMin rhoMax /\ P rhoMin <= P 1 <= P rhoMax.
Proof.
  intros tb junk u l. pose proof rhoMin_pos as RP.
  assert (RT : tiny < rhoMin).
  { apply Rlt_trans with (bpow radix2 (-40)); [unfold tiny; apply bpow_lt; lia|]. unfold rhoMin.
    change (bpow radix2 (-40)) with (/ IZR (Z.pow_pos 2 40)). replace (IZR (Z.pow_pos 2 40)) with (2 ^ 40) by (simpl Z.pow_pos; lra).
    apply Rinv_lt_contravar; [|lra]. apply Rmult_lt_0_compat; apply pow_lt; lra. }
  exists (fun r => VAL (hp (parts tb gas_rad r (10 ^ 6) 4 2 false))). split; [intros; reflexivity|].
  assert (K : 1 < KBNA) by (unfold KBNA, KB, NA; lra).
  split.
  - intros r Hr. apply continuity_pt_filterlim. change (continuous (fun r => VAL (hp (parts tb gas_rad r (10 ^ 6) 4 2 false))) r).
    apply (cont_loc _ (fun r => PREFACTOR * (10 ^ 6) ^ 4 + KBNA * (3 / 4) * r * 10 ^ 6)).
    + generalize (loc_gt tiny r ltac:(lra)). apply loc_imp. intros y Hy. symmetry. apply gas_pressure, Hy.
    + generalize (PREFACTOR * (10 ^ 6) ^ 4) (KBNA * (3 / 4)) (10 ^ 6). intros a b c. eapply derive_cont. auto_derive; [exact I|reflexivity].
  - assert (R1 : rhoMin <= 1 <= rhoMax) by (unfold rhoMin, rhoMax; lra). rewrite !gas_pressure by lra.
    generalize (PREFACTOR * (10 ^ 6) ^ 4). intros a. unfold rhoMax in *. clear RT RP. generalize dependent rhoMin. intros m (R1 & R2).
    generalize dependent KBNA. intros k Hk. nra.
Qed.

(** ** C70: temperature from density and energy, with a lambda that does not cache the log temperature (see C71 for one that does) *)
Section Invert.
Variables (tb : table) (o : options) (junk : R) (u : fstate) (A Z rho e : R).
Let l := mkL A Z None.
Variables (E : R -> R) (cv : R -> R).
Hypothesis HE : forall t, InternalEnergyFromDensityTemperature tb o junk u rho t l = Some (E t).
Hypothesis HC : forall t, SpecificHeatFromDensityTemperature tb o junk u rho t l = Some (cv t).
Variable T : R.
Hypothesis HT : TemperatureFromDensityInternalEnergy tb o junk u rho e l = Some T.
Lemma T_is : T = pow10 (lT_found tb o junk rho e l).
Proof. unfold TemperatureFromDensityInternalEnergy, got, FillEos, ask in HT. cbn in HT. injection HT as K. symmetry. exact K. Qed.
Lemma E_fun t : E t = VAL (e_only tb o rho A Z t).
Proof. destruct (only_e_any tb o rho t A Z) as (-> & _). assert (K := HE t). unfold InternalEnergyFromDensityTemperature, got, FillEos, ask in K. cbn in K. injection K as K. symmetry. exact K. Qed.
Lemma cv_fun t : cv t = DDT (e_only tb o rho A Z t).
Proof. destruct (only_e_any tb o rho t A Z) as (_ & ->). assert (K := HC t). unfold SpecificHeatFromDensityTemperature, got, FillEos, ask in K. cbn in K. injection K as K. symmetry. exact K. Qed.
(** whatever the inputs, the answer lies in the table: 1e3 K to 1e13 K *)
Theorem C70_in_range : 10 ^ 3 <= T <= 10 ^ 13.
Proof. rewrite T_is. exact (found_range tb o junk rho e l). Qed.
(** an energy between those of the ends of the table is inverted, by Newton to 1e-10 of it or by regula falsi to its tolerance, or the
    root finder reports failure within its 1000 iterations *)
Theorem C70_inversion :
  RAD o || DEGENERATE o || COUL o = true -> continuous_on E (10 ^ 3) (10 ^ 13) -> E (10 ^ 3) <= e <= E (10 ^ 13) -> 0 < cv (10 ^ 3) -> 0 < cv (10 ^ 13) ->
  Rabs (E T - e) <= / 10 ^ 10 * Rabs e \/ encloses_root E e (10 ^ 3) (10 ^ 13) (/ 10 ^ 14) T \/
  exists guess x n, @regula_falsi RArith E e guess (10 ^ 3) (10 ^ 13) (/ 10 ^ 14) (/ 10 ^ 14) = @RFDone RArith FAIL x n.
Proof.
  intros HO CO HB H1 H2. assert (EQ : E = fun t => VAL (e_only tb o rho A Z t)) by (apply functional_extensionality; exact E_fun).
  assert (S := search_spec tb o junk rho e l HO). rewrite cv_fun in H1, H2. cbn [l l_abar l_zbar] in S. cbv zeta in S. rewrite <- EQ in S.
  rewrite !E_fun in HB. specialize (S CO HB H1 H2). rewrite <- E_fun in S.
  assert (CL : forall x, x = T_search tb o junk rho e l -> TMin <= x <= TMax -> T = x).
  { intros x X R1. rewrite T_is, found_clamp; rewrite <- X; [|pose proof TMin_pos; lra]. unfold clampT. rewrite Rmax_right, Rmin_right by (rewrite ?Rmax_right; lra). reflexivity. }
  destruct S as [(S1 & S2)|[S|(S & _)]].
  - left. rewrite (CL _ eq_refl S1). exact S2.
  - right. left. rewrite (CL _ eq_refl (proj1 S)). exact S.
  - right. right. destruct S as (g & x & n & _ & S). exists g, x, n. exact S.
Qed.
(** the energy is continuous in temperature over the whole table, so that hypothesis always holds for densities inside the table *)
Theorem C70_energy_continuous :
  tiny < rho -> small_A A Z -> (GAS o && DEGENERATE o = true -> rhoMin < rho < rhoMax /\ rhoMin < rho * (Z / A) < rhoMax) ->
  (GAS o && DEGENERATE o && COUL o = true -> tiny < rho / A /\ tiny < coupling rho (10 ^ 13) A Z) -> continuous_on E (10 ^ 3) (10 ^ 13).
Proof.
  intros Hr HA HI HG t Ht. apply continuity_pt_filterlim. change (continuous E t).
  apply (continuous_ext (fun t => VAL (e_only tb o rho A Z t))); [intros x; symmetry; apply E_fun|].
  apply energy_cont_all; [exact Hr|exact HA| |exact HG|exact Ht].
  intros K. destruct (HI K) as (I1 & I2). destruct HA as (A1 & A2 & _). exact (conj I1 (conj A1 (conj A2 I2))).
Qed.
End Invert.
(** gas without radiation, degeneracy or corrections: inversion is exact, both ways *)
Theorem C70_ideal_gas_exact :
  forall tb o junk u A Z rho, let l := mkL A Z None in
    GAS o = true -> RAD o = false -> DEGENERATE o = false -> COUL o = false -> small_A A Z -> tiny < rho -> tiny < rho / A ->
    (forall T e, 10 ^ 3 <= T <= 10 ^ 13 -> InternalEnergyFromDensityTemperature tb o junk u rho T l = Some e ->
       TemperatureFromDensityInternalEnergy tb o junk u rho e l = Some T) /\
    (forall e T lo hi, InternalEnergyFromDensityTemperature tb o junk u rho (10 ^ 3) l = Some lo ->
       InternalEnergyFromDensityTemperature tb o junk u rho (10 ^ 13) l = Some hi -> lo <= e <= hi ->
       TemperatureFromDensityInternalEnergy tb o junk u rho e l = Some T ->
       InternalEnergyFromDensityTemperature tb o junk u rho T l = Some e).
Proof.
  intros tb o junk u A Z rho l HG HR HD HCo HA Hr HrA. pose proof tiny_pos as P0. pose proof tiny_lt_1 as P1. pose proof KB_pos as PK. pose proof NA_pos as PN.
  pose proof NA_big as NB.
  destruct HA as (A1 & A2 & A3).
  set (Y := Ypart o A Z). assert (HY : Y = (if IONIZED o then Z + 1 else 1) / A).
  { unfold Y, Ypart. rewrite HD, andb_false_r. destruct (IONIZED o); cbn [orb negb]; [reflexivity|field; lra]. }
  assert (PY : 0 < Y). { rewrite HY. apply Rdiv_lt_0_compat; [destruct (IONIZED o)|]; lra. }
  assert (HE : forall t, tiny < t -> VAL (he (parts tb o rho t A Z false)) = 15 / 10 * KBNA * Y * t).
  { intros t Ht. rewrite parts_eq0; [|unfold no_coul; rewrite HD, andb_false_r; reflexivity|exact Hr|exact Ht|exact (conj A1 (conj A2 A3))].
    unfold Rpart, Ipart, Epart. rewrite HR, HG, HD. cbn [andb zeros fst snd he add5 VAL eele zero5 ionF]. fold Y. ring. }
  assert (HQ : forall t, InternalEnergyFromDensityTemperature tb o junk u rho t l = Some (VAL (he (parts tb o rho t A Z false)))) by reflexivity.
  assert (HTq : forall e, TemperatureFromDensityInternalEnergy tb o junk u rho e l = Some (pow10 (lT_found tb o junk rho e l))) by reflexivity.
  assert (TS : forall e, 0 < e -> T_search tb o junk rho e l = 2 / 3 * e / (KBNA * Y)).
  { intros e He. unfold T_search. rewrite HR, HD, HCo. cbn [orb l l_abar l_zbar]. unfold lTAnalytic. change (ratio 1 A) with (ytot_of A). rewrite (ytot_eq A A1).
    set (w := 2 / 3 * _ * KBi).
    assert (EW : w = 2 / 3 * e / (KBNA * Y)).
    { unfold w. replace (/ A * rho * NA + (if IONIZED o then Z * (/ A * rho * NA) else 0)) with (NA * (rho * Y)) by (rewrite HY; destruct (IONIZED o); field; lra).
      rewrite ratio_pos.
      - unfold KBi, KBNA. set (k := KB) in *. clearbody k. set (n := NA) in *. clearbody n. field. repeat split; lra.
      - assert (tiny <= rho * Y). { rewrite HY. replace (rho * ((if IONIZED o then Z + 1 else 1) / A)) with (rho / A * (if IONIZED o then Z + 1 else 1)) by (unfold Rdiv; ring). destruct (IONIZED o); nra. }
        assert (1 <= NA) by lra. clear NB. set (n := NA) in *. clearbody n. set (q := rho * Y) in *. clearbody q. nra. }
    assert (0 < w). { rewrite EW. unfold KBNA. apply Rdiv_lt_0_compat; [lra|]. apply Rmult_lt_0_compat; [apply Rmult_lt_0_compat|]; lra. }
    rewrite <- EW. apply pow10_log10. assumption. }
  assert (PKN := KBNA_pos). assert (HM : TMin <= TMax) by (left; exact TMin_TMax). pose proof TMin_tiny as TT.
  split.
  - intros T e HT H. rewrite HQ in H. injection H as H. rewrite HE in H by (unfold TMin in TT; lra). subst e. rewrite HTq. f_equal.
    assert (PT : 0 < T) by lra.
    assert (X : T_search tb o junk rho (15 / 10 * KBNA * Y * T) l = T).
    { rewrite TS. - field. split; lra. - repeat apply Rmult_lt_0_compat; lra. }
    rewrite found_clamp; rewrite X; [|exact PT]. unfold clampT, TMin, TMax. rewrite Rmax_right, Rmin_right by (rewrite ?Rmax_right; lra). reflexivity.
  - intros e T lo hi H1 H2 HB HT. rewrite HQ in H1, H2. injection H1 as H1. injection H2 as H2. rewrite HE in H1 by exact TT. rewrite HE in H2 by (fold TMax; lra).
    rewrite HTq in HT. injection HT as HT. rewrite HQ. f_equal.
    assert (PC : 0 < KBNA * Y) by (apply Rmult_lt_0_compat; lra).
    assert (PE : 0 < e). { apply Rlt_le_trans with lo; [|apply HB]. rewrite <- H1. repeat apply Rmult_lt_0_compat; lra. }
    assert (X := TS e PE). assert (R1 : TMin <= 2 / 3 * e / (KBNA * Y) <= TMax).
    { unfold TMin, TMax. set (c := KBNA * Y) in *. assert (H1' : 15 / 10 * (c * 10 ^ 3) = lo) by (rewrite <- H1; unfold c; ring).
      assert (H2' : 15 / 10 * (c * 10 ^ 13) = hi) by (rewrite <- H2; unfold c; ring). clearbody c. clear H1 H2.
      split; apply Rmult_le_reg_r with c; try lra; unfold Rdiv; rewrite (Rmult_assoc _ (/ c) c), Rinv_l by lra; lra. }
    assert (T = 2 / 3 * e / (KBNA * Y)). { rewrite <- HT, found_clamp; rewrite X; [|pose proof TMin_pos; lra]. unfold clampT. rewrite Rmax_right, Rmin_right by (rewrite ?Rmax_right; lra). reflexivity. }
    subst T. rewrite H. rewrite HE by lra. field. split; lra.
Qed.
Lemma le_div x n d : 0 < d -> x * d <= n -> x <= n / d.
Proof. intros H K. apply Rmult_le_reg_r with d; [exact H|]. unfold Rdiv. rewrite Rmult_assoc, Rinv_l by lra. lra. Qed.
Lemma div_le x n d : 0 < d -> n <= x * d -> n / d <= x.
Proof. intros H K. apply Rmult_le_reg_r with d; [exact H|]. unfold Rdiv. rewrite Rmult_assoc, Rinv_l by lra. lra. Qed.
Lemma small_hydrogen : small_A 1 1.
Proof.
  pose proof tiny_lt_1. assert (B : bpow radix2 (-960) < bpow radix2 (-1)) by (apply bpow_lt; lia). change (bpow radix2 (-1)) with (/ 2) in B.
  refine (conj _ (conj _ _)); unfold tiny in *; lra.
Qed.
(** non-vacuity of C70: the ionised gas with radiation *)
Example C70_nonvacuous : forall tb junk u, let l := mkL 4 2 None in
  exists E cv : R -> R, (forall t, InternalEnergyFromDensityTemperature tb gas_rad junk u 1 t l = Some (E t)) /\
    (forall t, SpecificHeatFromDensityTemperature tb gas_rad junk u 1 t l = Some (cv t)) /\
    RAD gas_rad || DEGENERATE gas_rad || COUL gas_rad = true /\ continuous_on E (10 ^ 3) (10 ^ 13) /\
    E (10 ^ 3) <= E (10 ^ 6) <= E (10 ^ 13) /\ 0 < cv (10 ^ 3) /\ 0 < cv (10 ^ 13).
Proof.
  intros tb junk u l. pose proof tiny_lt_1 as T1. pose proof tiny_pos as T0'.
  exists (fun t => VAL (he (parts tb gas_rad 1 t 4 2 false))), (fun t => DDT (he (parts tb gas_rad 1 t 4 2 false))).
  split; [intros; reflexivity|]. split; [intros; reflexivity|]. split; [reflexivity|].
  assert (SA : small_A 4 2) by (refine (conj _ (conj _ _)); lra).
  split.
  { apply (C70_energy_continuous tb gas_rad junk u 4 2 1); [intros; reflexivity|lra|exact SA|cbn; discriminate|cbn; discriminate]. }
  assert (V : forall t, tiny < t -> VAL (he (parts tb gas_rad 1 t 4 2 false)) = 3 * PREFACTOR * t ^ 4 / 1 + 15 / 10 * KBNA * ((2 + 1) / 4) * t + 0 /\
    DDT (he (parts tb gas_rad 1 t 4 2 false)) = 12 * PREFACTOR * t ^ 3 / 1 + 15 / 10 * KBNA * ((2 + 1) / 4) + 0).
  { intros t Ht. rewrite parts_eq0; [split; reflexivity|reflexivity|lra|exact Ht|exact SA]. }
  destruct (V (10 ^ 3) ltac:(lra)) as (V1 & W1). destruct (V (10 ^ 6) ltac:(lra)) as (V2 & _). destruct (V (10 ^ 13) ltac:(lra)) as (V3 & W3).
  rewrite V1, V2, V3, W1, W3. clear. assert (K := KBNA_pos). assert (PF : 0 < PREFACTOR). { unfold PREFACTOR, SIG_O_C. lra. }
  generalize dependent PREFACTOR. generalize dependent KBNA. intros k Hk p Hp. repeat split; lra.
Qed.
Example C70_coulomb_nonvacuous : small_A 1 1 /\ rhoMin < 1 < rhoMax /\ rhoMin < 1 * (1 / 1) < rhoMax /\ tiny < 1 / 1 /\ tiny < coupling 1 (10 ^ 13) 1 1.
Proof.
  pose proof tiny_lt_1 as T1. pose proof tiny_pos as T0'. split; [exact small_hydrogen|]. unfold rhoMin, rhoMax. split; [lra|]. split; [lra|]. split; [lra|].
  unfold coupling. assert (S := sphere_pos 1 1 ltac:(lra)).
  assert (C1 : 1 <= Rpower (4 / 3 * PI * (NA * 1 / 1)) (1 / 3)).
  { assert (B : 1 <= 4 / 3 * PI * (NA * 1 / 1)). { pose proof NA_big. pose proof PI2_3_2 as P. unfold PI2 in P. assert (1 <= NA * 1 / 1) by lra. set (q := NA * 1 / 1) in *. clearbody q. nra. }
    unfold Rpower. assert (0 <= ln (4 / 3 * PI * (NA * 1 / 1))) by (destruct B as [B| <-]; [left; rewrite <- ln_1; apply ln_increasing; lra|rewrite ln_1; lra]).
    set (q := ln _) in *. clearbody q. destruct (Req_dec q 0) as [->|N]; [rewrite Rmult_0_r, exp_0; lra|]. left. rewrite <- exp_0 at 1. apply exp_increasing. lra. }
  set (c := Rpower _ _) in *. clearbody c. clear S.
  apply Rlt_le_trans with (/ 10 ^ 40).
  - unfold tiny. apply Rlt_le_trans with (bpow radix2 (-200)); [apply bpow_lt; lia|]. change (bpow radix2 (-200)) with (/ IZR (Z.pow_pos 2 200)).
    replace (IZR (Z.pow_pos 2 200)) with (2 ^ 200) by (simpl Z.pow_pos; lra). apply Rinv_le_contravar; [apply pow_lt; lra|]. lra.
  - unfold ELECTRON_CHARGE_ESU, KB. apply le_div; [lra|]. nra.
Qed.
Print Assumptions C68_table_file.
Print Assumptions C68_electrons_at_grid_point.
Print Assumptions C68_radiation.
Print Assumptions C68_electrons.
Print Assumptions C69_specific_heat.
Print Assumptions C69_energy_and_pressure_compatible.
Print Assumptions C69_gruneisen.
Print Assumptions C69_bulk_modulus.
Print Assumptions C69_entropy_radiation.
Print Assumptions C69_FillEos_refuses.
Print Assumptions C69_FillEos.
Print Assumptions C69_energy_entry_points.
Print Assumptions C69_composition_and_reference.
Print Assumptions C69_density_energy_from_pressure_temperature.
Print Assumptions C70_in_range.
Print Assumptions C70_inversion.
Print Assumptions C70_energy_continuous.
Print Assumptions C70_ideal_gas_exact.
