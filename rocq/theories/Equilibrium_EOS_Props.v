(** C91: which of the library's equations of state are well behaved, i.e. may take part in the uniqueness theorems of Equilibrium_Props *)
From Coq Require Import ZArith Reals Bool List Lra Lia Psatz.
From Flocq Require Import Core.
From Coquelicot Require Import Coquelicot.
From Verif Require Import Arith Robust_Model Robust_Proofs Thermo_Spec Thermo_Tools Stability_Spec Stability_Props Equilibrium_Spec Equilibrium_Proofs Equilibrium_Props.
From Verif Require Ideal_Model Ideal_Props Stiff_Model Stiff_Props NobleAbel_Model NobleAbel_Props Carnahan_Model Carnahan_Props
  JWL_Model JWL_Props Vinet_Model Vinet_Props PowerMG_Model PowerMG_Props.
Local Open Scope R_scope.

(** stability and the first law make a material well behaved *)
Lemma wb P E B C (D DT : R -> Prop) : positive_interval D -> positive_interval DT -> (exists S, forall rho T, D rho -> DT T -> first_law S E P rho T) ->
  (forall rho T, D rho -> DT T -> is_specific_heat E rho T (C rho T)) -> (forall rho T, D rho -> DT T -> stable P B C rho T) -> well_behaved P E D DT.
Proof.
  intros H1 H2 H3 H4 H5. refine (conj H1 (conj H2 (conj H3 (conj _ _)))).
  - intros rho T HD HT. exists (C rho T). split; [apply H4; assumption|apply (H5 rho T HD HT)].
  - intros rho T HD HT. destruct (H5 rho T HD HT) as (_ & K & HK & HP & _). exists K. split; assumption.
Qed.
Lemma interval_from t0 (Q : R -> Prop) : 0 < t0 -> (forall a b x, Q a -> Q b -> a <= x <= b -> Q x) -> positive_interval (fun t => t0 <= t /\ Q t).
Proof. intros H HQ. split; [intros x Hx; lra|]. intros a b x (A1 & A2) (B1 & B2) Hx. split; [lra|]. apply (HQ a b); assumption. Qed.
Lemma div_up a b c : a <= b -> 0 < c -> a / c <= b / c.
Proof. intros H Hc. apply Rmult_le_compat_r; [left; apply Rinv_0_lt_compat; exact Hc|exact H]. Qed.
Lemma div_down a x y : 0 <= a -> 0 < x -> x <= y -> a / y <= a / x.
Proof. intros Ha Hx H. apply Rmult_le_compat_l; [exact Ha|]. apply Rinv_le_contravar; assumption. Qed.

(** ideal gas: every positive temperature and every density above the smallest double [tiny] the guarded divisions recognise *)
Theorem C91_ideal_well_behaved : forall g, Ideal_Props.admissible g -> tiny <= Ideal_Model.EntropyT0 g -> 0 < Ideal_Model.EntropyRho0 g ->
  well_behaved (Ideal_Model.PressureFromDensityTemperature g) (Ideal_Model.InternalEnergyFromDensityTemperature g) (fun r => tiny < r) (fun t => 0 < t).
Proof.
  intros g HA H1 H2. pose proof tiny_pos. apply (wb _ _ (Ideal_Model.BulkModulusFromDensityTemperature g) (Ideal_Model.SpecificHeat g)).
  - split; intros; lra.
  - split; intros; lra.
  - exists (Ideal_Model.EntropyFromDensityTemperature g). intros. apply Ideal_Props.C16_first_law; assumption.
  - intros rho T Hr HT. apply (Ideal_Props.C16_derivatives g rho 1 T HA); lra.
  - intros rho T Hr HT. apply C89_ideal_stable; [exact HA|lra|exact HT].
Qed.

(** stiffened gas *)
Theorem C91_stiff_well_behaved : forall g, Stiff_Props.admissible g -> tiny <= Stiff_Model.T0 g ->
  well_behaved (Stiff_Model.PressureFromDensityTemperature g) (Stiff_Model.InternalEnergyFromDensityTemperature g)
    (fun r => tiny < r /\ tiny < Stiff_Model.rho0 g / r) (fun t => 0 < t /\ tiny < t / Stiff_Model.T0 g).
Proof.
  intros g HA H1. pose proof tiny_pos. assert (HA' := HA). destruct HA' as (A1 & A2 & A3).
  apply (wb _ _ (Stiff_Model.BulkModulusFromDensityTemperature g) (Stiff_Model.SpecificHeat g)).
  - split; [intros; lra|]. intros a b x (B1 & B2) (B3 & B4) Hx. split; [lra|]. apply Rlt_le_trans with (1 := B4).
    apply div_down; [|lra|lra]. destruct (Rle_dec 0 (Stiff_Model.rho0 g)); [assumption|]. exfalso.
    assert (Stiff_Model.rho0 g / b <= 0); [|lra]. unfold Rdiv. assert (0 < / b) by (apply Rinv_0_lt_compat; lra). assert (0 <= - Stiff_Model.rho0 g * / b) by (apply Rmult_le_pos; lra). lra.
  - split; [intros; lra|]. intros a b x (B1 & B2) (B3 & B4) Hx. split; [lra|]. apply Rlt_le_trans with (1 := B2). apply div_up; lra.
  - exists (Stiff_Model.EntropyFromDensityTemperature g). intros rho T (B1 & B2) (B3 & B4). apply Stiff_Props.C17_first_law; assumption.
  - intros rho T (B1 & B2) (B3 & B4). apply Stiff_Props.cv_ok; auto; lra.
  - intros rho T (B1 & B2) (B3 & B4). apply C89_stiff_stable; try assumption; lra.
Qed.

(** Noble-Abel gas: densities from r0 up to the covolume limit and temperatures from t0 up, (r0,t0) being any state above the pressure floor *)
Theorem C91_noble_abel_well_behaved : forall g r0 t0, NobleAbel_Props.admissible g -> 0 < r0 -> 0 < t0 ->
  tiny <= NobleAbel_Model.T0 g -> tiny <= NobleAbel_Model.vol0 g - NobleAbel_Model.bb g -> SMALL < NobleAbel_Model.gm1 g * r0 * NobleAbel_Model.Cv g * t0 ->
  well_behaved (NobleAbel_Model.PressureFromDensityTemperature g) (NobleAbel_Model.InternalEnergyFromDensityTemperature g)
    (fun r => r0 <= r /\ NobleAbel_Props.ok_rho g r /\ tiny < (1 / r - NobleAbel_Model.bb g) / (NobleAbel_Model.vol0 g - NobleAbel_Model.bb g))
    (fun t => t0 <= t /\ tiny < t / NobleAbel_Model.T0 g).
Proof.
  intros g r0 t0 HA Hr0 Ht0 H1 H2 HS. pose proof tiny_pos. assert (HA' := HA). destruct HA' as (A1 & A2 & A3).
  assert (FL : forall r t, r0 <= r -> NobleAbel_Props.ok_rho g r -> t0 <= t -> SMALL < NobleAbel_Model.gm1 g * r * NobleAbel_Model.Cv g * t / (1 - NobleAbel_Model.bb g * r)).
  { intros r t Hr (O1 & O2 & O3) Ht. apply Rlt_le_trans with (1 := HS).
    assert (0 <= NobleAbel_Model.bb g * r) by (apply Rmult_le_pos; lra).
    apply Rle_trans with (NobleAbel_Model.gm1 g * r * NobleAbel_Model.Cv g * t).
    - apply Rmult_le_compat; [repeat apply Rmult_le_pos; lra|lra| |lra]. apply Rmult_le_compat_r; [lra|]. apply Rmult_le_compat_l; lra.
    - assert (0 < NobleAbel_Model.gm1 g * r * NobleAbel_Model.Cv g * t) by (repeat apply Rmult_lt_0_compat; lra).
      unfold Rdiv. rewrite <- (Rmult_1_r (NobleAbel_Model.gm1 g * r * NobleAbel_Model.Cv g * t)) at 1. apply Rmult_le_compat_l; [lra|].
      rewrite <- Rinv_1. apply Rinv_le_contravar; lra. }
  apply (wb _ _ (NobleAbel_Model.BulkModulusFromDensityTemperature g) (NobleAbel_Model.SpecificHeat g)).
  - apply interval_from; [exact Hr0|]. intros a b x ((O1 & O2 & O3) & O4) ((P1 & P2 & P3) & P4) Hx.
    assert (Q : 1 - NobleAbel_Model.bb g * b <= 1 - NobleAbel_Model.bb g * x).
    { assert (NobleAbel_Model.bb g * x <= NobleAbel_Model.bb g * b); [|lra]. apply Rmult_le_compat_l; lra. }
    refine (conj (conj _ (conj _ _)) _); [lra|lra| |].
    + apply Rlt_le_trans with (1 := P3). apply Rmult_le_compat; lra.
    + apply Rlt_le_trans with (1 := P4). apply div_up; [|lra]. assert (1 / b <= 1 / x); [|lra]. apply div_down; lra.
  - apply interval_from; [exact Ht0|]. intros a b x O1 P1 Hx. apply Rlt_le_trans with (1 := O1). apply div_up; lra.
  - exists (NobleAbel_Model.EntropyFromDensityTemperature g). intros rho T (B1 & B2 & B3) (B4 & B5). apply NobleAbel_Props.C18_first_law; try assumption; try lra.
    left. apply FL; assumption.
  - intros rho T (B1 & B2 & B3) (B4 & B5). apply NobleAbel_Props.cv_ok; lra.
  - intros rho T (B1 & B2 & B3) (B4 & B5). apply C89_noble_stable; try assumption; [lra|]. apply FL; assumption.
Qed.

(** Carnahan-Starling gas, in the same way *)
Theorem C91_carnahan_well_behaved : forall g r0 t0, Carnahan_Props.admissible g -> 0 < r0 -> 0 < t0 ->
  tiny <= Carnahan_Model.T0 g -> tiny <= Carnahan_Model.vol0 g -> SMALL < r0 * t0 * Carnahan_Model.Cv g * Carnahan_Model.gm1 g ->
  well_behaved (Carnahan_Model.PressureFromDensityTemperature g) (Carnahan_Model.InternalEnergyFromDensityTemperature g)
    (fun r => r0 <= r /\ Carnahan_Props.ok_rho g r /\ tiny < 1 / r - Carnahan_Model.bb g /\ tiny < 1 / r / Carnahan_Model.vol0 g)
    (fun t => t0 <= t /\ tiny < t / Carnahan_Model.T0 g).
Proof.
  intros g r0 t0 HA Hr0 Ht0 H1 H2 HS. pose proof tiny_pos. assert (HA' := HA). destruct HA' as (A1 & A2 & A3).
  assert (FL : forall r t, r0 <= r -> Carnahan_Props.ok_rho g r -> t0 <= t ->
    SMALL < Carnahan_Model.ZedFromDensity g r * r * t * Carnahan_Model.Cv g * Carnahan_Model.gm1 g).
  { intros r t Hr (O1 & O2 & O3 & O4) Ht. apply Rlt_le_trans with (1 := HS).
    assert (1 <= Carnahan_Model.ZedFromDensity g r).
    { unfold Carnahan_Model.ZedFromDensity, Carnahan_Model.Zed. cbv zeta. rewrite ratio_pos by lra. assert (0 <= Carnahan_Model.bb g * r) by (apply Rmult_le_pos; lra).
      set (x := Carnahan_Model.bb g * r) in *. assert (0 <= x * (4 - 2 * x) / (1 - x) ^ 3); [|lra]. apply Rle_mult_inv_pos; [apply Rmult_le_pos; lra|lra]. }
    rewrite !Rmult_assoc. rewrite <- (Rmult_1_l (r0 * _)).
    assert (0 <= Carnahan_Model.Cv g * Carnahan_Model.gm1 g) by (apply Rmult_le_pos; lra).
    assert (0 <= t0 * (Carnahan_Model.Cv g * Carnahan_Model.gm1 g)) by (apply Rmult_le_pos; lra).
    apply Rmult_le_compat; [lra|apply Rmult_le_pos; lra|assumption|]. apply Rmult_le_compat; [lra|assumption|lra|]. apply Rmult_le_compat_r; assumption. }
  apply (wb _ _ (Carnahan_Model.BulkModulusFromDensityTemperature g) (Carnahan_Model.SpecificHeat g)).
  - apply interval_from; [exact Hr0|]. intros a b x ((O1 & O2 & O3 & O4) & O5 & O6) ((P1 & P2 & P3 & P4) & P5 & P6) Hx.
    assert (Q : 1 - Carnahan_Model.bb g * b <= 1 - Carnahan_Model.bb g * x).
    { assert (Carnahan_Model.bb g * x <= Carnahan_Model.bb g * b); [|lra]. apply Rmult_le_compat_l; lra. }
    assert (1 / b <= 1 / x) by (apply div_down; lra).
    refine (conj (conj _ (conj _ (conj _ _))) (conj _ _)); [lra|lra| | |lra|].
    + apply Rlt_le_trans with (1 := P3). apply pow_incr; lra.
    + apply Rlt_le_trans with (1 := P4). apply pow_incr; lra.
    + apply Rlt_le_trans with (1 := P6). apply div_up; lra.
  - apply interval_from; [exact Ht0|]. intros a b x O1 P1 Hx. apply Rlt_le_trans with (1 := O1). apply div_up; lra.
  - exists (Carnahan_Model.EntropyFromDensityTemperature g). intros rho T (B1 & B2 & B3 & B3') (B4 & B5). apply Carnahan_Props.C19_first_law; try assumption; try lra.
    unfold Carnahan_Model.PressureFromDensityTemperature. eapply Rlt_le_trans; [|apply Rmax_r]. apply FL; assumption.
  - intros rho T (B1 & B2 & B3) (B4 & B5). apply Carnahan_Props.cv_ok; lra.
  - intros rho T (B1 & B2 & B3) (B4 & B5). apply C89_carnahan_stable; try assumption; [lra|]. apply FL; assumption.
Qed.

(** JWL with nonnegative A and B, at densities above both cut-offs of the exponentials *)
Theorem C91_jwl_well_behaved : forall g, JWL_Props.admissible g -> 0 <= JWL_Model.A g -> 0 <= JWL_Model.B g ->
  well_behaved (JWL_Model.PressureFromDensityTemperature g) (JWL_Model.InternalEnergyFromDensityTemperature g)
    (fun r => tiny < r /\ min_exp_arg < - JWL_Model.R1 g * (JWL_Model.rho0 g / r) /\ min_exp_arg < - JWL_Model.R2 g * (JWL_Model.rho0 g / r)) (fun t => 0 < t).
Proof.
  intros g HA HAp HBp. pose proof tiny_pos. assert (HA' := HA). destruct HA' as (H1 & H2 & H3 & H4 & H5 & _).
  assert (OK : forall r, tiny < r /\ min_exp_arg < - JWL_Model.R1 g * (JWL_Model.rho0 g / r) /\ min_exp_arg < - JWL_Model.R2 g * (JWL_Model.rho0 g / r) -> JWL_Props.ok_rho g r).
  { intros r (O1 & O2 & O3). refine (conj O1 (conj _ _)); lra. }
  apply (wb _ _ (JWL_Model.BulkModulusFromDensityTemperature g) (JWL_Model.SpecificHeatFromDensityTemperature g)).
  - split; [intros; lra|]. intros a b x (O1 & O2 & O3) (P1 & P2 & P3) Hx.
    assert (JWL_Model.rho0 g / x <= JWL_Model.rho0 g / a) by (apply div_down; lra).
    assert (JWL_Model.R1 g * (JWL_Model.rho0 g / x) <= JWL_Model.R1 g * (JWL_Model.rho0 g / a)) by (apply Rmult_le_compat_l; lra).
    assert (JWL_Model.R2 g * (JWL_Model.rho0 g / x) <= JWL_Model.R2 g * (JWL_Model.rho0 g / a)) by (apply Rmult_le_compat_l; lra). lra.
  - split; intros; lra.
  - destruct (JWL_Props.C21_first_law g HA) as (S & HS). exists S. intros rho T O HT. apply HS; [apply OK, O|exact HT].
  - intros rho T O HT. apply (JWL_Props.C21_derivatives g rho 1 T HA (OK rho O)).
  - intros rho T O HT. apply C89_jwl_stable; auto.
Qed.

(** Vinet solid in compression *)
Theorem C91_vinet_well_behaved : forall N g, Vinet_Props.vinet_ok N g -> 0 < Vinet_Model.B0 g -> (forall k, (k < N)%nat -> 0 <= Vinet_Model.d g k) -> tiny <= Vinet_Model.T0 g ->
  well_behaved (Vinet_Model.PressureFromDensityTemperature N g) (Vinet_Model.InternalEnergyFromDensityTemperature N g)
    (fun r => Vinet_Model.rho0 g <= r /\ Vinet_Props.ok_rho g r) (fun t => 0 < t).
Proof.
  intros N g OK HB Hd HT0. pose proof tiny_pos. pose proof (Vinet_Props.cv_pos N g OK) as HC.
  apply (wb _ _ (Vinet_Model.BulkModulusFromDensityTemperature N g) (Vinet_Model.SpecificHeatFromDensityTemperature g)).
  - split; [intros x (_ & O1 & _); lra|]. intros a b x (R1 & O1 & O2 & O3 & O4 & O5) (R2 & P1 & P2 & P3 & P4 & P5) Hx. split; [lra|].
    assert (XX : Vinet_Props.X g b <= Vinet_Props.X g x).
    { unfold Vinet_Props.X. assert (0 < Vinet_Model.rho0 g) by (destruct OK as (OK1 & OK2 & _); lra).
      destruct (Req_dec x b) as [->|ne]; [lra|]. left. apply exp_increasing. apply Rmult_lt_compat_r; [lra|]. apply ln_increasing; [apply Rdiv_lt_0_compat; lra|].
      unfold Rdiv. apply Rmult_lt_compat_l; [assumption|]. apply Rinv_lt_contravar; [apply Rmult_lt_0_compat; lra|lra]. }
    pose proof (Vinet_Props.X_pos g b). assert (XA : a * a <= x * x) by (apply Rmult_le_compat; lra).
    refine (conj _ (conj _ (conj _ (conj _ _)))).
    + lra.
    + apply Rlt_le_trans with (1 := P2). apply Rmult_le_compat; lra.
    + lra.
    + apply Rlt_le_trans with (1 := O4). apply Rmult_le_compat_r; lra.
    + apply Rlt_le_trans with (1 := O5). apply Rmult_le_compat_l; lra.
  - split; intros; lra.
  - exists (Vinet_Model.EntropyFromDensityTemperature N g). intros rho T (R1 & O) HT. apply Vinet_Props.C23_first_law; assumption.
  - intros rho T (R1 & O) HT. apply (Vinet_Props.C23_derivatives N g rho 1 T OK O).
  - intros rho T (R1 & O) HT. apply C89_vinet_stable; try assumption. lra.
Qed.

(** PowerMG in expansion above the pressure cutoff *)
Theorem C91_powermg_well_behaved : forall g, PowerMG_Props.admissible g -> 0 <= PowerMG_Model.G0 g ->
  PowerMG_Model.G0 g * PowerMG_Model.G0 g * PowerMG_Model.Cv0 g * PowerMG_Model.rho0 g * PowerMG_Model.T0 g < PowerMG_Model.K g 0%nat ->
  well_behaved (PowerMG_Model.PressureFromDensityTemperature g) (PowerMG_Model.InternalEnergyFromDensityTemperature g)
    (fun r => tiny < r /\ PowerMG_Model.Pmin g / PowerMG_Model.K g 0%nat < 1 - PowerMG_Model.rho0 g / r < 0) (fun t => 0 < t).
Proof.
  intros g HA HG HK. pose proof tiny_pos. assert (HA' := HA). destruct HA' as (H0 & _).
  apply (wb _ _ (PowerMG_Model.BulkModulusFromDensityTemperature g) (PowerMG_Model.SpecificHeatFromDensityTemperature g)).
  - split; [intros; lra|]. intros a b x (O1 & O2) (P1 & P2) Hx.
    assert (PowerMG_Model.rho0 g / x <= PowerMG_Model.rho0 g / a) by (apply div_down; lra). assert (PowerMG_Model.rho0 g / b <= PowerMG_Model.rho0 g / x) by (apply div_down; lra). lra.
  - split; intros; lra.
  - exists (PowerMG_Model.EntropyFromDensityTemperature g). intros rho T (O1 & O2) HT. apply PowerMG_Props.C25_powermg_first_law_expansion; assumption.
  - intros rho T (O1 & O2) HT. apply (PowerMG_Props.C25_powermg_derivatives g rho 1 T HA O1).
  - intros rho T (O1 & O2) HT. apply C89_powermg_stable; try assumption. lra.
Qed.

(** ** ideal gas mixtures: the equilibrium exists and is given in closed form *)
Lemma ideal_P g r t : Ideal_Props.admissible g -> 0 < r -> 0 < t -> Ideal_Model.PressureFromDensityTemperature g r t = Ideal_Model.gm1 g * r * Ideal_Model.Cv g * t.
Proof. intros (A & B) Hr Ht. rewrite Ideal_Props.P_T_pos; try lra; assumption. Qed.
Lemma ideal_E g r t : Ideal_Props.admissible g -> 0 < t -> Ideal_Model.InternalEnergyFromDensityTemperature g r t = Ideal_Model.Cv g * t.
Proof. intros (A & B) Ht. unfold Ideal_Model.InternalEnergyFromDensityTemperature. apply Rmax_right. apply Rmult_le_pos; lra. Qed.
Theorem C91_gap_ideal : forall g rho T rho' T', Ideal_Props.admissible g -> 0 < rho -> 0 < T -> 0 < rho' -> 0 < T' ->
  gap (Ideal_Model.PressureFromDensityTemperature g) (Ideal_Model.InternalEnergyFromDensityTemperature g) rho T rho' T' =
  Ideal_Model.Cv g * (T - T') ^ 2 / (T * T') + Ideal_Model.gm1 g * Ideal_Model.Cv g * (rho - rho') ^ 2 / (rho * rho').
Proof. intros g rho T rho' T' HA H1 H2 H3 H4. unfold gap. rewrite (ideal_P g rho T HA H1 H2), (ideal_P g rho' T' HA H3 H4), (ideal_E g rho' T' HA H4), (ideal_E g rho T HA H2). field. lra. Qed.
Lemma total_pos n f : (0 < n)%nat -> (forall m, (m < n)%nat -> 0 < f m) -> 0 < total n f.
Proof.
  intros Hn H. destruct n as [|n]; [lia|]. cbn. pose proof (H n ltac:(lia)). assert (0 <= total n f); [|lra]. apply total_nonneg. intros m Hm. left. apply H. lia.
Qed.
Theorem C91_ideal_mixture : forall n (g : nat -> Ideal_Model.ideal) mass V U, (0 < n)%nat -> 0 < V -> 0 < U ->
  (forall m, (m < n)%nat -> 0 < mass m /\ Ideal_Props.admissible (g m) /\ tiny <= Ideal_Model.EntropyT0 (g m) /\ 0 < Ideal_Model.EntropyRho0 (g m)) ->
  let P m := Ideal_Model.PressureFromDensityTemperature (g m) in let E m := Ideal_Model.InternalEnergyFromDensityTemperature (g m) in
  let T := U / total n (fun m => mass m * Ideal_Model.Cv (g m)) in
  let p := total n (fun m => mass m * Ideal_Model.gm1 (g m) * Ideal_Model.Cv (g m)) * T / V in
  let rho m := p / (Ideal_Model.gm1 (g m) * Ideal_Model.Cv (g m) * T) in
  0 < T /\ 0 < p /\ (forall m, (m < n)%nat -> 0 < rho m) /\ equilibrium n P E mass V U rho T p /\
  ((forall m, (m < n)%nat -> tiny < rho m) ->
   forall rho' T' p', 0 < T' -> (forall m, (m < n)%nat -> tiny < rho' m) -> equilibrium n P E mass V U rho' T' p' -> T' = T /\ p' = p /\ forall m, (m < n)%nat -> rho' m = rho m).
Proof.
  intros n g mass V U Hn HV HU HG P E T p rho.
  assert (S1 : 0 < total n (fun m => mass m * Ideal_Model.Cv (g m))).
  { apply total_pos; [exact Hn|]. intros m Hm. destruct (HG m Hm) as (M & (A & B) & _). apply Rmult_lt_0_compat; assumption. }
  assert (S2 : 0 < total n (fun m => mass m * Ideal_Model.gm1 (g m) * Ideal_Model.Cv (g m))).
  { apply total_pos; [exact Hn|]. intros m Hm. destruct (HG m Hm) as (M & (A & B) & _). repeat apply Rmult_lt_0_compat; assumption. }
  assert (HT : 0 < T) by (apply Rdiv_lt_0_compat; assumption).
  assert (Hp : 0 < p) by (apply Rdiv_lt_0_compat; [apply Rmult_lt_0_compat|]; assumption).
  assert (HR : forall m, (m < n)%nat -> 0 < rho m).
  { intros m Hm. destruct (HG m Hm) as (M & (A & B) & _). apply Rdiv_lt_0_compat; [exact Hp|]. apply Rmult_lt_0_compat; [apply Rmult_lt_0_compat; assumption|exact HT]. }
  assert (EQ : equilibrium n P E mass V U rho T p).
  { refine (conj _ (conj _ _)).
    - intros m Hm. destruct (HG m Hm) as (M & HA & _). unfold P. rewrite ideal_P by auto. destruct HA as (A & B). unfold rho. field. lra.
    - rewrite (total_ext n _ (fun m => T / p * (mass m * Ideal_Model.gm1 (g m) * Ideal_Model.Cv (g m)))).
      + rewrite total_scal. unfold p. field. lra.
      + intros m Hm. destruct (HG m Hm) as (M & (A & B) & _). unfold rho. field. lra.
    - rewrite (total_ext n _ (fun m => T * (mass m * Ideal_Model.Cv (g m)))).
      + rewrite total_scal. unfold T. field. lra.
      + intros m Hm. destruct (HG m Hm) as (M & HA & _). unfold E. rewrite ideal_E by assumption. ring. }
  refine (conj HT (conj Hp (conj HR (conj EQ _)))). intros HD rho' T' p' HT' HD' EQ'.
  apply (unique n P E (fun _ r => tiny < r) (fun _ t => 0 < t) mass V U rho' T' p' rho T p); try assumption.
  - intros m Hm. apply (HG m Hm).
  - intros m Hm. destruct (HG m Hm) as (M & HA & H1 & H2). apply C91_ideal_well_behaved; assumption.
  - intros m Hm. auto.
Qed.
(** for ideal gases, two approximate equilibria differ in temperature and density by at most what the tolerances allow *)
Theorem C91_ideal_near_equilibria : forall n (g : nat -> Ideal_Model.ideal) mass V U dp dv du rho T p dp' dv' du' rho' T' p',
  (forall m, (m < n)%nat -> 0 < mass m /\ 0 < rho m /\ 0 < rho' m /\ Ideal_Props.admissible (g m)) -> 0 < T -> 0 < T' -> 0 <= dp -> 0 <= dp' ->
  let P m := Ideal_Model.PressureFromDensityTemperature (g m) in let E m := Ideal_Model.InternalEnergyFromDensityTemperature (g m) in
  near_equilibrium n P E mass V U dp dv du rho T p -> near_equilibrium n P E mass V U dp' dv' du' rho' T' p' ->
  total n (fun m => mass m * Ideal_Model.Cv (g m)) * ((T - T') ^ 2 / (T * T')) +
  total n (fun m => mass m * Ideal_Model.gm1 (g m) * Ideal_Model.Cv (g m) * ((rho m - rho' m) ^ 2 / (rho m * rho' m))) <=
    Rabs (1 / T - 1 / T') * (du + du') + Rabs (p / T - p' / T') * (dv + dv') + (dp / T + dp' / T') * (2 * V + dv + dv').
Proof.
  intros n g mass V U dp dv du rho T p dp' dv' du' rho' T' p' HM HT HT' Hp Hp' P E N1 N2.
  assert (N := near_agree n P E mass V U dp dv du rho T p dp' dv' du' rho' T' p' ltac:(intros m Hm; destruct (HM m Hm) as (M1 & M2 & M3 & M4); auto) HT HT' Hp Hp' N1 N2).
  eapply Rle_trans; [|exact N]. apply Req_le. rewrite Rmult_comm, <- total_scal, <- total_plus. apply total_ext. intros m Hm. destruct (HM m Hm) as (M1 & M2 & M3 & M4).
  unfold P, E. rewrite C91_gap_ideal by assumption. field. lra.
Qed.

(** ** the hypotheses can be met *)
Example C91_ideal_instance : exists g, Ideal_Model.make (4/10) 7180000 293 1 29 14 = Some g /\ Ideal_Props.admissible g /\ tiny <= Ideal_Model.EntropyT0 g /\ 0 < Ideal_Model.EntropyRho0 g.
Proof. destruct Ideal_Props.C16_instance as (g & H1 & H2 & H3 & H4 & _). exists g. auto. Qed.
Example C91_gas_instances :
  (exists g, Stiff_Props.admissible g /\ 0 < Stiff_Model.Pinf g /\ tiny <= Stiff_Model.T0 g /\ tiny < 1 /\ tiny < Stiff_Model.rho0 g / 1 /\ tiny < 300 / Stiff_Model.T0 g) /\
  (exists g, NobleAbel_Props.admissible g /\ 0 < NobleAbel_Model.bb g /\ tiny <= NobleAbel_Model.T0 g /\ tiny <= NobleAbel_Model.vol0 g - NobleAbel_Model.bb g /\
     SMALL < NobleAbel_Model.gm1 g * 1 * NobleAbel_Model.Cv g * 300 /\ NobleAbel_Props.ok_rho g 1 /\
     tiny < (1 / 1 - NobleAbel_Model.bb g) / (NobleAbel_Model.vol0 g - NobleAbel_Model.bb g) /\ tiny < 300 / NobleAbel_Model.T0 g) /\
  (exists g, Carnahan_Props.admissible g /\ 0 < Carnahan_Model.bb g /\ tiny <= Carnahan_Model.T0 g /\ tiny <= Carnahan_Model.vol0 g /\
     SMALL < 1 * 300 * Carnahan_Model.Cv g * Carnahan_Model.gm1 g /\ Carnahan_Props.ok_rho g 1 /\ tiny < 1 / 1 - Carnahan_Model.bb g /\
     tiny < 1 / 1 / Carnahan_Model.vol0 g /\ tiny < 300 / Carnahan_Model.T0 g).
Proof.
  pose proof JWL_Props.tiny_demo as Ht. pose proof tiny_pos. pose proof SMALL_lt_tiny. refine (conj _ (conj _ _)).
  - exists (Stiff_Model.mkStiff 1 (1/2) 1 0 300 1 0 1 1 300 1 1 1 1). unfold Stiff_Props.admissible. cbn. repeat split; lra.
  - exists (NobleAbel_Model.mkNoble 1 (1/2) (1/10) 0 300 1 0 1 1 300 1 1 1 1). unfold NobleAbel_Props.admissible, NobleAbel_Props.ok_rho. cbn. repeat split; lra.
  - exists (Carnahan_Model.mkCarn 1 (1/2) (1/10) 0 300 1 0 1 1 300 1 1 1 1). unfold Carnahan_Props.admissible, Carnahan_Props.ok_rho. cbn. repeat split; lra.
Qed.
Example C91_solid_instances :
  (exists g, JWL_Model.make 1 1 4 1 (1/4) 2 1 1 1 = Some g /\ JWL_Props.admissible g /\ 0 <= JWL_Model.A g /\ 0 <= JWL_Model.B g /\
     tiny < 2 /\ min_exp_arg < - JWL_Model.R1 g * (JWL_Model.rho0 g / 2) /\ min_exp_arg < - JWL_Model.R2 g * (JWL_Model.rho0 g / 2)) /\
  (exists g, Vinet_Props.vinet_ok 39 g /\ 0 < Vinet_Model.B0 g /\ Vinet_Model.d g 0%nat = 5 /\ (forall k, (k < 39)%nat -> 0 <= Vinet_Model.d g k) /\ tiny <= Vinet_Model.T0 g /\
     Vinet_Model.rho0 g <= 1 /\ Vinet_Props.ok_rho g 1) /\
  (exists g, PowerMG_Props.admissible g /\ 0 < PowerMG_Model.G0 g /\
     PowerMG_Model.G0 g * PowerMG_Model.G0 g * PowerMG_Model.Cv0 g * PowerMG_Model.rho0 g * PowerMG_Model.T0 g < PowerMG_Model.K g 0%nat /\
     tiny < 4 / 5 /\ PowerMG_Model.Pmin g / PowerMG_Model.K g 0%nat < 1 - PowerMG_Model.rho0 g / (4/5) < 0).
Proof.
  pose proof JWL_Props.tiny_demo as Ht. pose proof tiny_pos. pose proof JWL_Props.ln2_lb. refine (conj _ (conj _ _)).
  - exists JWL_Props.demo. destruct JWL_Props.demo_adm as (H1 & H2). refine (conj H1 (conj H2 _)). unfold min_exp_arg. cbn. repeat split; lra.
  - set (d2 := fun k : nat => match k with 0%nat => 5 | _ => 0 end).
    set (g := Vinet_Model.mkVinet 1 1 1 3 1 1 0 0 1 1 (Vinet_Model.InitializeVIP 39 1 1 1 3 1 1 d2) d2). exists g.
    assert (OK : Vinet_Props.vinet_ok 39 g).
    { split. { exists 1, 1, 1, 3, 1, 1, 0, 0, d2, 1, 1. unfold Vinet_Model.make. cbv zeta. fold g. unfold Vinet_Model.CheckParams, g; cbn.
        rewrite ?Rlt_bool_false by lra. rewrite ?Rlt_bool_true by lra. reflexivity. }
      unfold g; cbn [Vinet_Model.rho0 Vinet_Model.BP0 Vinet_Model.Cv0]. repeat split; lra. }
    assert (X1 : Vinet_Props.X g 1 = 1). { unfold Vinet_Props.X. cbn [g Vinet_Model.rho0]. replace (1 / 1) with 1 by field. rewrite ln_1. replace (0 / 3) with 0 by field. apply exp_0. }
    assert (K : Vinet_Props.ok_rho g 1). { unfold Vinet_Props.ok_rho. rewrite X1. cbn [g Vinet_Model.Cv0]. repeat split; lra. }
    refine (conj OK (conj _ (conj eq_refl (conj _ (conj _ (conj _ K)))))); [cbn; lra| |cbn; lra|cbn; lra].
    intros k _. cbn [g Vinet_Model.d]. unfold d2. destruct k; lra.
  - set (g := PowerMG_Model.mkPM 1 1 1 1 0 0 (- (2)) 0%nat (fun _ => 4) 1 1). exists g.
    assert (HA : PowerMG_Props.admissible g) by (unfold PowerMG_Props.admissible; cbn; lra).
    refine (conj HA _). cbn. repeat split; lra.
Qed.
Print Assumptions C91_ideal_well_behaved.
Print Assumptions C91_stiff_well_behaved.
Print Assumptions C91_noble_abel_well_behaved.
Print Assumptions C91_carnahan_well_behaved.
Print Assumptions C91_jwl_well_behaved.
Print Assumptions C91_vinet_well_behaved.
Print Assumptions C91_powermg_well_behaved.
Print Assumptions C91_gap_ideal.
Print Assumptions C91_ideal_mixture.
Print Assumptions C91_ideal_near_equilibria.
