(** Theorems C66: what StellarCollapse makes of the file it reads. *)
From Coq Require Import ZArith Reals List Bool Lra Lia Psatz String.
From Flocq Require Import Core.
From Verif Require Import Arith Robust_Model Robust_Proofs RootFinding_Model RootFinding_Proofs Thermo_Spec Thermo_Tools
  SpinerUtil_Model SpinerUtil_Spec SpinerUtil_Proofs Spiner_Model Spiner_Spec Spiner_Props Stellar_Model Stellar_Spec Stellar_Proofs Stellar_Props.
Import ListNotations.
Local Open Scope R_scope.

(** ** The file: at least two points per axis, axes running upwards *)
Definition file_ok (f : SCFile) : Prop :=
  (2 <= f_nR f)%Z /\ (2 <= f_nT f)%Z /\ (2 <= f_nY f)%Z /\ f_lR0 f < f_lR1 f /\ f_lT0 f < f_lT1 f /\ f_Y0 f < f_Y1 f.
(** interpolation in the file's own axes: Ye, log10 of the temperature in K, log10 of the density *)
Definition file_table (f : SCFile) (a : arr3) : DB3 :=
  mkDB3 (mkGrid (f_Y0 f) (f_Y1 f) (f_nY f)) (mkGrid (f_lT0 f + rlog10 MeV2K_) (f_lT1 f + rlog10 MeV2K_) (f_nT f)) (mkGrid (f_lR0 f) (f_lR1 f) (f_nR f)) a.
Definition finterp (f : SCFile) (a : arr3) (Ye T rho : R) : R := interp3 (file_table f a) Ye (rlog10 T) (rlog10 rho).
Definition in_file (f : SCFile) (i j k : Z) : Prop := (0 <= i < f_nY f /\ 0 <= j < f_nT f /\ 0 <= k < f_nR f)%Z.

Lemma ln10p : 0 < ln 10. Proof. apply ln10_pos. Qed.
Lemma rpow10_pos y : 0 < rpow10 y. Proof. apply exp_pos. Qed.
Lemma rlog_rpow y : rlog10 (rpow10 y) = y. Proof. unfold rlog10, rpow10. rewrite ln_exp. assert (X := ln10p). field. lra. Qed.
Lemma rpow_rlog x : 0 < x -> rpow10 (rlog10 x) = x.
Proof. intros H. unfold rlog10, rpow10. assert (X := ln10p). replace (ln x / ln 10 * ln 10) with (ln x) by (field; lra). apply exp_ln, H. Qed.
Lemma rpow10_incr x y : x < y -> rpow10 x < rpow10 y.
Proof. intros H. unfold rpow10. apply exp_increasing. assert (X := ln10p). nra. Qed.
Lemma rlog10_incr_le x y : 0 < x -> x <= y -> rlog10 x <= rlog10 y.
Proof.
  intros H H1. unfold rlog10. assert (X := ln10p). unfold Rdiv. apply Rmult_le_compat_r; [left; apply Rinv_0_lt_compat, X|].
  destruct H1 as [H1|H1]; [left; apply ln_increasing; assumption|rewrite H1; lra].
Qed.
Lemma node_span g i : good_grid g -> in_grid g i -> in_span g (g_x g i).
Proof.
  intros G [A B]. assert (D := dx_pos g G). assert (X0 := x_0 g). assert (X1 := x_last g G). unfold in_span. unfold g_x in *.
  assert (0 <= IZR i) by (apply IZR_le; lia). assert (IZR i <= IZR (g_N g - 1)) by (apply IZR_le; lia). split; [nra|]. rewrite <- X1. apply Rplus_le_compat_l, Rmult_le_compat_r; lra.
Qed.
Lemma dense_ge n : (2 <= n)%Z -> (n <= dense n)%Z.
Proof.
  intros H. unfold dense. assert (IZR 2 <= IZR n) by (apply IZR_le; exact H). rewrite Ztrunc_floor by lra. rewrite <- (Zfloor_IZR n) at 1. apply Zfloor_le. lra.
Qed.

Section Build.
Variable L : LogPair.
Hypothesis HL : is_log_pair L.
Lemma pw_NQT x : pw10 L (log10toNQT L x) = rpow10 x. Proof. apply (lp_inv_l L HL), rpow10_pos. Qed.
Lemma NQT_inv x : NQTtolog10 L (log10toNQT L x) = x. Proof. unfold NQTtolog10. rewrite pw_NQT. apply rlog_rpow. Qed.
Lemma gridToNQT_good g n : good_grid g -> (2 <= n)%Z -> good_grid (gridToNQT L g n).
Proof. intros [A B] H. split; cbn; [exact H|]. unfold log10toNQT. apply (lp_incr L HL); [apply rpow10_pos|apply rpow10_incr, B]. Qed.
Lemma NQT_span g n i : good_grid g -> (2 <= n)%Z -> in_grid (gridToNQT L g n) i -> in_span g (NQTtolog10 L (g_x (gridToNQT L g n) i)).
Proof.
  intros G H I. destruct (node_span _ _ (gridToNQT_good g n G H) I) as [A B]. cbn in A, B. unfold in_span.
  rewrite <- (NQT_inv (g_min g)), <- (NQT_inv (g_max g)). unfold NQTtolog10.
  split; apply rlog10_incr_le; try apply (lp_pos L HL); apply (pw_incr_le L HL); assumption.
Qed.

Variable scratch : arr3.
Variable f : SCFile.
Variable smooth : bool.
Hypothesis OK : file_ok f.
Notation s := (LoadFromStellarCollapseFile_ L scratch f smooth).
(** the arrays that are smoothed when the user asks for it *)
Definition smoothed (a : arr3) : arr3 := if smooth then d_at (medianFilter_ (f_nY f) (f_nT f) (f_nR f) (file_table f a)) else a.
(** the specific heat in the file is per MeV *)
Definition dedt_K : arr3 := fun i j k =>
  if (Z.leb 0 i && Z.ltb i (f_nY f) && (Z.leb 0 j && Z.ltb j (f_nT f)) && (Z.leb 0 k && Z.ltb k (f_nR f)))%bool then f_dedt f i j k * K2MeV_ else f_dedt f i j k.

Lemma fgood a : good3 (file_table f a).
Proof. destruct OK as (A & B & C & D & E & F). unfold good3, good_grid, file_table; cbn [d_Y d_T d_R g_N g_min g_max]. repeat split; try assumption; lra. Qed.
Lemma denseT : (2 <= dense (f_nT f))%Z. Proof. destruct OK as (A & B & C & _). assert (X := dense_ge _ B). lia. Qed.
Lemma denseR : (2 <= dense (f_nR f))%Z. Proof. destruct OK as (A & B & C & _). assert (X := dense_ge _ A). lia. Qed.
Notation gY := (mkGrid (f_Y0 f) (f_Y1 f) (f_nY f)).
Notation gT := (mkGrid (f_lT0 f + rlog10 MeV2K_) (f_lT1 f + rlog10 MeV2K_) (f_nT f)).
Notation gR := (mkGrid (f_lR0 f) (f_lR1 f) (f_nR f)).
Lemma sgood : good3 (lE_ s).
Proof.
  destruct (fgood (f_logenergy f)) as (A & B & C). unfold good3. cbn -[gridToNQT dense rlog10]. repeat split; try apply A.
  - apply denseT. - apply (gridToNQT_good gT _ B denseT). - apply denseR. - apply (gridToNQT_good gR _ C denseR).
Qed.
(** one entry of a regridded table *)
Lemma regrid_at d islog i j k : d_Y d = gY -> (0 <= i < f_nY f)%Z -> (0 <= j < dense (f_nT f))%Z -> (0 <= k < dense (f_nR f))%Z ->
  d_at (dataBoxToFastLogs L (gridToNQT L gT (dense (f_nT f))) (gridToNQT L gR (dense (f_nR f))) scratch islog d) i j k =
  let v := interp3 d (g_x gY i) (NQTtolog10 L (g_x (gridToNQT L gT (dense (f_nT f))) j)) (NQTtolog10 L (g_x (gridToNQT L gR (dense (f_nR f))) k)) in
  if islog then log10toNQT L v else v.
Proof.
  intros E Hi Hj Hk. unfold dataBoxToFastLogs. cbn [d_at]. rewrite E.
  rewrite (for3_box _ _ _ _ _ _ (fun i2 i1 i0 => let v := interp3 d (g_x gY i2) (NQTtolog10 L (g_x (gridToNQT L gT (dense (f_nT f))) i1)) (NQTtolog10 L (g_x (gridToNQT L gR (dense (f_nR f))) i0)) in if islog then log10toNQT L v else v)).
  rewrite box_true by (cbn [g_N gridToNQT]; assumption). reflexivity.
Qed.

(** ** The object satisfies what the queries rely on, whatever the file holds and whatever was in the scratch storage *)
Theorem C66_loaded_object_is_well_formed : well_formed L s.
Proof.
  constructor.
  - apply sgood.
  - repeat constructor; destruct smooth; reflexivity.
  - split; reflexivity.
  - split; reflexivity.
  - split; reflexivity.
  - split; reflexivity.
  - split; reflexivity.
  - intros i k Hi Hk. cbn -[dataBoxToFastLogs gridToNQT dense rlog10 Z.leb Z.ltb]. unfold in_grid in *. cbn in Hi, Hk.
    replace (Z.leb 0 i && Z.ltb i (f_nY f) && Z.leb 0 k && Z.ltb k (dense (f_nR f)))%bool with true; [reflexivity|].
    symmetry. rewrite !andb_true_iff, !Z.leb_le, !Z.ltb_lt. lia.
  - intros i k Hi Hk. cbn -[dataBoxToFastLogs gridToNQT dense rlog10 Z.leb Z.ltb]. unfold in_grid in *. cbn in Hi, Hk.
    replace (Z.leb 0 i && Z.ltb i (f_nY f) && Z.leb 0 k && Z.ltb k (dense (f_nR f)))%bool with true; [reflexivity|].
    symmetry. rewrite !andb_true_iff, !Z.leb_le, !Z.ltb_lt. lia.
Qed.
(** ** The bounds are the file's: densities as they are, temperatures converted from MeV to K *)
Theorem C66_bounds :
  MinimumDensity L s = rpow10 (f_lR0 f) /\ MaximumDensity L s = rpow10 (f_lR1 f) /\
  MinimumTemperature L s = MeV2K_ * rpow10 (f_lT0 f) /\ TMax L s = MeV2K_ * rpow10 (f_lT1 f) /\
  YeMin_ s = f_Y0 f /\ YeMax_ s = f_Y1 f /\
  0 < MinimumDensity L s < MaximumDensity L s /\ 0 < MinimumTemperature L s < TMax L s.
Proof.
  assert (MP : 0 < MeV2K_) by (unfold MeV2K_, MeV2GK_; lra).
  assert (TT : forall x, T_ L (log10toNQT L (x + rlog10 MeV2K_)) = MeV2K_ * rpow10 x).
  { intros x. unfold T_, sc_fromLog. rewrite pw_NQT. unfold rpow10. rewrite Rmult_plus_distr_r, exp_plus. change (exp (rlog10 MeV2K_ * ln 10)) with (rpow10 (rlog10 MeV2K_)). rewrite rpow_rlog by exact MP. ring. }
  assert (RR : forall x, rho_ L (log10toNQT L x) = rpow10 x). { intros x. rewrite (rho_pw L HL). apply pw_NQT. }
  unfold MinimumDensity, MaximumDensity, rhoMin, rhoMax, MinimumTemperature, TMin, TMax. cbn [lRhoMin_ lRhoMax_ lTMin_ lTMax_ YeMin_ YeMax_ LoadFromStellarCollapseFile_ g_min g_max gridToNQT].
  rewrite !RR, !TT. destruct OK as (_ & _ & _ & A & B & _). apply rpow10_incr in A, B.
  repeat split; try apply rpow10_pos; try assumption; [apply Rmult_lt_0_compat; [exact MP|apply rpow10_pos]|]. apply Rmult_lt_compat_l; assumption.
Qed.

(** ** At every point of the new grid each query is the file, interpolated in its own axes *)
Theorem C66_values_at_grid_points : forall i j k lam, in3 (lE_ s) i j k -> l_Ye lam = g_x (d_Y (lE_ s)) i ->
  let T := pw10 L (g_x (d_T (lE_ s)) j) in let rho := pw10 L (g_x (d_R (lE_ s)) k) in
  tiny <= T -> tiny <= rho ->
  let at_ a := finterp f a (l_Ye lam) T rho in
  PressureFromDensityTemperature L s rho T lam = rpow10 (at_ (f_logpress f)) /\
  InternalEnergyFromDensityTemperature L s rho T lam = rpow10 (at_ (f_logenergy f)) - f_shift f /\
  EntropyFromDensityTemperature L s rho T lam = Rmax EPS (at_ (f_entropy f)) /\
  SpecificHeatFromDensityTemperature L s rho T lam = Rmax EPS (at_ (smoothed dedt_K)) /\
  GruneisenParamFromDensityTemperature L s rho T lam = Rabs (at_ (smoothed (f_dpderho f))) / (rho + EPS) /\
  MassFractionsFromDensityTemperature L s rho T lam =
    (at_ (f_Xa f), at_ (f_Xh f), at_ (f_Xn f), at_ (f_Xp f), at_ (f_Abar f), at_ (f_Zbar f)) /\
  BulkModulusFromDensityTemperature L s rho T lam =
    Rmax EPS (rpow10 (at_ (d_at (computeBulkModulus_ (f_nY f) (f_nT f) (f_nR f) (file_table f (f_logpress f))
                                   (file_table f (smoothed (f_dpdrhoe f))) (file_table f (smoothed (f_dpderho f))) scratch)))).
Proof.
  intros i j k lam I3 HY T rho HT Hr at_.
  assert (LT : lT_ L T = g_x (d_T (lE_ s)) j). { unfold T, lT_. rewrite (toLog_of L) by (fold T; lra). rewrite Rplus_0_r. apply (lp_inv_r L HL). }
  assert (LR : lRho_ L rho = g_x (d_R (lE_ s)) k). { unfold rho, lRho_. rewrite (toLog_of L) by (fold rho; lra). rewrite Rplus_0_r. apply (lp_inv_r L HL). }
  assert (W := C66_loaded_object_is_well_formed).
  assert (V : forall d, d_Y d = d_Y (lE_ s) /\ d_T d = d_T (lE_ s) /\ d_R d = d_R (lE_ s) -> atRhoT L d rho T lam = d_at d i j k).
  { intros d (E1 & E2 & E3). unfold atRhoT. rewrite LT, LR, HY. rewrite <- E1, <- E2, <- E3. apply interp3_node; [|].
    - unfold good3. rewrite E1, E2, E3. apply sgood.
    - unfold in3. rewrite E1, E2, E3. exact I3. }
  destruct I3 as (Ii & Ij & Ik). unfold in_grid in Ii, Ij, Ik. cbn in Ii, Ij, Ik.
  assert (RG : forall a islog, d_at (dataBoxToFastLogs L (gridToNQT L gT (dense (f_nT f))) (gridToNQT L gR (dense (f_nR f))) scratch islog (file_table f a)) i j k =
     if islog then log10toNQT L (at_ a) else at_ a).
  { intros a islog. rewrite regrid_at by (reflexivity || assumption). unfold at_, finterp. rewrite HY. reflexivity. }
  assert (SM : forall a, (if smooth then medianFilter_ (f_nY f) (f_nT f) (f_nR f) (file_table f a) else file_table f a) = file_table f (smoothed a)).
  { intros a. unfold smoothed. destruct smooth; reflexivity. }
  assert (FL : forall v, floor_EPS v = Rmax EPS v). { intros v. unfold floor_EPS. case Rlt_bool_spec; intros; [rewrite Rmax_right|rewrite Rmax_left]; lra. }
  assert (DE : for3 (zseq 0 (f_nY f)) (zseq 0 (f_nT f)) (zseq 0 (f_nR f)) (fun a i j k => a i j k * K2MeV_) (f_dedt f) = dedt_K).
  { apply FunctionalExtensionality.functional_extensionality; intros x. apply FunctionalExtensionality.functional_extensionality; intros y.
    apply FunctionalExtensionality.functional_extensionality; intros z.
    rewrite (for3_spec _ _ _ (fun _ _ _ v => v * K2MeV_) (f_dedt f) (nodup_zseq _ _) (nodup_zseq _ _) (nodup_zseq _ _)), !inZ_zseq. reflexivity. }
  refine (conj _ (conj _ (conj _ (conj _ (conj _ (conj _ _)))))).
  - unfold PressureFromDensityTemperature, lP2P_, sc_fromLog. rewrite V by (repeat split). cbn [lP_ LoadFromStellarCollapseFile_]. fold (file_table f (f_logpress f)). rewrite RG. rewrite pw_NQT. ring.
  - unfold InternalEnergyFromDensityTemperature, le2e_, sc_fromLog. rewrite V by (repeat split). cbn [lE_ lEOffset_ LoadFromStellarCollapseFile_]. fold (file_table f (f_logenergy f)). rewrite RG. rewrite pw_NQT. ring.
  - unfold EntropyFromDensityTemperature. rewrite V by (repeat split). cbn [entropy_ LoadFromStellarCollapseFile_]. fold (file_table f (f_entropy f)). rewrite RG. apply FL.
  - unfold SpecificHeatFromDensityTemperature. rewrite V by (repeat split; destruct smooth; reflexivity). cbn [dEdT_ LoadFromStellarCollapseFile_].
    rewrite DE. fold (file_table f dedt_K). rewrite SM, RG. apply FL.
  - unfold GruneisenParamFromDensityTemperature. rewrite V by (repeat split; destruct smooth; reflexivity). cbn [dPdE_ LoadFromStellarCollapseFile_].
    fold (file_table f (f_dpderho f)). rewrite SM, RG. assert (TP := tiny_pos). rewrite (Rabs_pos_eq rho) by lra. reflexivity.
  - unfold MassFractionsFromDensityTemperature. rewrite !V by (repeat split). cbn [Xa_ Xh_ Xn_ Xp_ Abar_ Zbar_ LoadFromStellarCollapseFile_].
    fold (file_table f (f_Xa f)) (file_table f (f_Xh f)) (file_table f (f_Xn f)) (file_table f (f_Xp f)) (file_table f (f_Abar f)) (file_table f (f_Zbar f)). rewrite !RG. reflexivity.
  - unfold BulkModulusFromDensityTemperature, lB2B_, sc_fromLog. rewrite V by (repeat split; destruct smooth; reflexivity). cbn [lBMod_ LoadFromStellarCollapseFile_].
    fold (file_table f (f_dpderho f)) (file_table f (f_dpdrhoe f)) (file_table f (f_logpress f)). rewrite !SM.
    set (B := computeBulkModulus_ (f_nY f) (f_nT f) (f_nR f) (file_table f (f_logpress f)) (file_table f (smoothed (f_dpdrhoe f))) (file_table f (smoothed (f_dpderho f))) scratch).
    change B with (file_table f (d_at B)) at 1. rewrite RG. rewrite pw_NQT, FL. f_equal. ring.
Qed.

(** ** At the corners of the table the queries return the file's own entries *)
Theorem C66_values_at_corners : forall i jf kf T rho lam, (0 <= i < f_nY f)%Z -> l_Ye lam = g_x gY i ->
  (jf = 0%Z /\ T = MinimumTemperature L s \/ jf = (f_nT f - 1)%Z /\ T = TMax L s) ->
  (kf = 0%Z /\ rho = MinimumDensity L s \/ kf = (f_nR f - 1)%Z /\ rho = MaximumDensity L s) ->
  tiny <= MinimumTemperature L s -> tiny <= MinimumDensity L s ->
  PressureFromDensityTemperature L s rho T lam = rpow10 (f_logpress f i jf kf) /\
  InternalEnergyFromDensityTemperature L s rho T lam = rpow10 (f_logenergy f i jf kf) - f_shift f /\
  EntropyFromDensityTemperature L s rho T lam = Rmax EPS (f_entropy f i jf kf) /\
  SpecificHeatFromDensityTemperature L s rho T lam = Rmax EPS (smoothed dedt_K i jf kf) /\
  GruneisenParamFromDensityTemperature L s rho T lam = Rabs (smoothed (f_dpderho f) i jf kf) / (rho + EPS) /\
  MassFractionsFromDensityTemperature L s rho T lam = (f_Xa f i jf kf, f_Xh f i jf kf, f_Xn f i jf kf, f_Xp f i jf kf, f_Abar f i jf kf, f_Zbar f i jf kf) /\
  BulkModulusFromDensityTemperature L s rho T lam =
    Rmax EPS (rho * smoothed (f_dpdrhoe f) i jf kf + rpow10 (f_logpress f i jf kf) / rho * smoothed (f_dpderho f) i jf kf).
Proof.
  intros i jf kf T rho lam Hi HY HT HR T0 R0. destruct (fgood (f_logpress f)) as (GY & GT & GR).
  destruct C66_bounds as (B1 & B2 & B3 & B4 & _ & _ & B5 & B6). assert (TP := tiny_pos).
  assert (GT' := gridToNQT_good gT _ GT denseT). assert (GR' := gridToNQT_good gR _ GR denseR).
  assert (QT : exists j, in_grid (d_T (lE_ s)) j /\ T = pw10 L (g_x (d_T (lE_ s)) j) /\ rlog10 T = g_x gT jf /\ (0 <= jf < f_nT f)%Z /\ tiny <= T).
  { destruct OK as (_ & N & _). destruct HT as [[-> ->]|[-> ->]].
    - exists 0%Z. split; [unfold in_grid; cbn; assert (X := denseT); lia|]. rewrite (x_0 (d_T (lE_ s))), (x_0 gT). unfold MinimumTemperature, TMin, T_, sc_fromLog. rewrite Rminus_0_r.
      split; [reflexivity|]. cbn [lTMin_ LoadFromStellarCollapseFile_ gridToNQT g_min]. rewrite pw_NQT, rlog_rpow. split; [reflexivity|]. split; [lia|].
      unfold MinimumTemperature, TMin, T_, sc_fromLog in T0. cbn [lTMin_ LoadFromStellarCollapseFile_ gridToNQT g_min] in T0. rewrite pw_NQT in T0. lra.
    - exists (dense (f_nT f) - 1)%Z. split; [unfold in_grid; cbn; assert (X := denseT); lia|]. change (dense (f_nT f) - 1)%Z with (g_N (d_T (lE_ s)) - 1)%Z. rewrite (x_last (d_T (lE_ s)) GT'). change (f_nT f - 1)%Z with (g_N gT - 1)%Z. rewrite (x_last gT GT).
      split; [unfold TMax, T_, sc_fromLog; rewrite Rminus_0_r; reflexivity|]. split; [|split; [cbn; lia|lra]].
      unfold TMax, T_, sc_fromLog. rewrite Rminus_0_r. cbn [lTMax_ LoadFromStellarCollapseFile_ gridToNQT g_max]. rewrite pw_NQT. apply rlog_rpow. }
  assert (QR : exists k, in_grid (d_R (lE_ s)) k /\ rho = pw10 L (g_x (d_R (lE_ s)) k) /\ rlog10 rho = g_x gR kf /\ (0 <= kf < f_nR f)%Z /\ tiny <= rho).
  { destruct OK as (N & _). destruct HR as [[-> ->]|[-> ->]].
    - exists 0%Z. split; [unfold in_grid; cbn; assert (X := denseR); lia|]. rewrite (x_0 (d_R (lE_ s))), (x_0 gR).
      split; [unfold MinimumDensity, rhoMin; rewrite (rho_pw L HL); reflexivity|]. split; [rewrite B1; apply rlog_rpow|]. split; [lia|exact R0].
    - exists (dense (f_nR f) - 1)%Z. split; [unfold in_grid; cbn; assert (X := denseR); lia|]. change (dense (f_nR f) - 1)%Z with (g_N (d_R (lE_ s)) - 1)%Z. rewrite (x_last (d_R (lE_ s)) GR'). change (f_nR f - 1)%Z with (g_N gR - 1)%Z. rewrite (x_last gR GR).
      split; [unfold MaximumDensity, rhoMax; rewrite (rho_pw L HL); reflexivity|]. split; [rewrite B2; apply rlog_rpow|]. split; [cbn; lia|lra]. }
  destruct QT as (j & J1 & J2 & J3 & J4 & J5). destruct QR as (k & K1 & K2 & K3 & K4 & K5).
  assert (FI : forall a, finterp f a (l_Ye lam) T rho = a i jf kf).
  { intros a. unfold finterp. rewrite J3, K3, HY. apply (interp3_node (file_table f a)); [apply fgood|]. exact (conj Hi (conj J4 K4)). }
  assert (K := C66_values_at_grid_points i j k lam (conj Hi (conj J1 K1)) HY). cbv zeta in K. rewrite <- J2, <- K2 in K. specialize (K J5 K5). rewrite !FI in K.
  destruct K as (A1 & A2 & A3 & A4 & A5 & A6 & A7). repeat (split; [assumption|]). rewrite A7. clear - Hi J4 K4 K3 K5 TP OK HL.
  unfold computeBulkModulus_. cbn [d_at]. rewrite (for3_box _ _ _ _ _ _ (fun iY iT ir => bmod_entry (g_x (d_R (file_table f (f_logpress f))) ir) (d_at (file_table f (f_logpress f)) iY iT ir) (d_at (file_table f (smoothed (f_dpdrhoe f))) iY iT ir) (d_at (file_table f (smoothed (f_dpderho f))) iY iT ir))).
  rewrite box_true by assumption. cbn [d_at file_table d_R]. rewrite <- K3. unfold bmod_entry. rewrite (rpow_rlog rho) by lra. rewrite ratio_pos by lra.
  assert (EP := EPSpos). set (b := rho * smoothed (f_dpdrhoe f) i jf kf + rpow10 (f_logpress f i jf kf) / rho * smoothed (f_dpderho f) i jf kf). cbv zeta.
  case Rlt_bool_spec; intros Q; rewrite rpow_rlog by lra; [rewrite !Rmax_left; lra|reflexivity].
Qed.

(** ** No overshoot: inside the table, pressure and energy stay within the range of the file's entries, and mass fractions that sum to one
    in the file sum to one everywhere *)
Lemma entry_bounds a lo hi i j k : (forall i j k, in_file f i j k -> lo <= a i j k <= hi) -> in3 (lE_ s) i j k ->
  lo <= interp3 (file_table f a) (g_x gY i) (NQTtolog10 L (g_x (gridToNQT L gT (dense (f_nT f))) j)) (NQTtolog10 L (g_x (gridToNQT L gR (dense (f_nR f))) k)) <= hi.
Proof.
  intros H (I & J & K). destruct (fgood a) as (GY & GT & GR). apply interp3_bounds; [apply fgood|apply (node_span gY _ GY I)| | |].
  - apply (NQT_span gT _ j GT denseT J).
  - apply (NQT_span gR _ k GR denseR K).
  - intros i' j' k' (A & B & C). apply H. unfold in_file, in_grid in *. cbn in A, B, C. auto.
Qed.
Theorem C66_no_overshoot : forall rho T lam lo hi, tiny <= MinimumDensity L s -> tiny <= MinimumTemperature L s ->
  MinimumDensity L s <= rho <= MaximumDensity L s -> MinimumTemperature L s <= T <= TMax L s -> f_Y0 f <= l_Ye lam <= f_Y1 f ->
  ((forall i j k, in_file f i j k -> lo <= f_logpress f i j k <= hi) -> rpow10 lo <= PressureFromDensityTemperature L s rho T lam <= rpow10 hi) /\
  ((forall i j k, in_file f i j k -> lo <= f_logenergy f i j k <= hi) ->
     rpow10 lo - f_shift f <= InternalEnergyFromDensityTemperature L s rho T lam <= rpow10 hi - f_shift f) /\
  (EPS <= lo -> (forall i j k, in_file f i j k -> lo <= f_entropy f i j k <= hi) -> lo <= EntropyFromDensityTemperature L s rho T lam <= hi) /\
  ((forall i j k, in_file f i j k -> lo <= f_Abar f i j k <= hi) -> lo <= MeanAtomicMassFromDensityTemperature L s rho T lam <= hi) /\
  ((forall i j k, in_file f i j k -> lo <= f_Zbar f i j k <= hi) -> lo <= MeanAtomicNumberFromDensityTemperature L s rho T lam <= hi).
Proof.
  intros rho T lam lo hi R0 T0 HR HT HY.
  assert (IT : in_table L s rho T lam) by (split; [exact HR|split; [exact HT|exact HY]]).
  assert (LG : forall a, (forall i j k, in_file f i j k -> lo <= a i j k <= hi) -> forall i j k, in3 (lE_ s) i j k ->
     log10toNQT L lo <= d_at (dataBoxToFastLogs L (gridToNQT L gT (dense (f_nT f))) (gridToNQT L gR (dense (f_nR f))) scratch true (file_table f a)) i j k <= log10toNQT L hi).
  { intros a H i j k I. assert (B := entry_bounds a lo hi i j k H I). destruct I as (Ii & Ij & Ik).
    rewrite regrid_at by (reflexivity || (unfold in_grid in *; cbn in Ii, Ij, Ik; assumption)). cbv zeta. unfold log10toNQT.
    assert (M : forall x y, x <= y -> lg10 L (rpow10 x) <= lg10 L (rpow10 y)).
    { intros x y [Q|Q]; [left; apply (lp_incr L HL); [apply rpow10_pos|apply rpow10_incr, Q]|rewrite Q; lra]. }
    split; apply M; apply B. }
  assert (LN : forall a, (forall i j k, in_file f i j k -> lo <= a i j k <= hi) -> forall i j k, in3 (lE_ s) i j k ->
     lo <= d_at (dataBoxToFastLogs L (gridToNQT L gT (dense (f_nT f))) (gridToNQT L gR (dense (f_nR f))) scratch false (file_table f a)) i j k <= hi).
  { intros a H i j k I. assert (B := entry_bounds a lo hi i j k H I). destruct I as (Ii & Ij & Ik).
    rewrite regrid_at by (reflexivity || (unfold in_grid in *; cbn in Ii, Ij, Ik; assumption)). exact B. }
  assert (W := C66_loaded_object_is_well_formed).
  destruct (C65_no_overshoot L HL s W rho T lam (log10toNQT L lo) (log10toNQT L hi) R0 T0 IT) as (A1 & A2 & _).
  destruct (C65_no_overshoot L HL s W rho T lam lo hi R0 T0 IT) as (_ & _ & _ & A4 & A5 & A6).
  rewrite !pw_NQT in A1, A2.
  refine (conj _ (conj _ (conj _ (conj _ _)))).
  - intros H. apply A1. exact (LG _ H).
  - intros H. apply A2. exact (LG _ H).
  - intros E H. apply A4. intros i j k I. split; [exact E|]. exact (LN _ H i j k I).
  - intros H. apply A5. exact (LN _ H).
  - intros H. apply A6. exact (LN _ H).
Qed.
Theorem C66_mass_fractions : forall rho T lam,
  (forall i j k, in_file f i j k -> f_Xa f i j k + f_Xh f i j k + f_Xn f i j k + f_Xp f i j k = 1) ->
  let '(xa, xh, xn, xp, _, _) := MassFractionsFromDensityTemperature L s rho T lam in xa + xh + xn + xp = 1.
Proof.
  intros rho T lam S. assert (W := C66_loaded_object_is_well_formed).
  assert (Q : forall i j k, in3 (lE_ s) i j k -> d_at (Xa_ s) i j k + d_at (Xh_ s) i j k + d_at (Xn_ s) i j k + d_at (Xp_ s) i j k = 1).
  { intros i j k I. cbn [Xa_ Xh_ Xn_ Xp_ LoadFromStellarCollapseFile_]. destruct I as (Ii & Ij & Ik).
    rewrite !regrid_at by (reflexivity || (unfold in_grid in *; cbn in Ii, Ij, Ik; assumption)). cbv zeta.
    assert (ADD : forall g a b x, interp1 g a x + interp1 g b x = interp1 g (fun i => a i + b i) x) by (intros; unfold interp1, lerp; ring).
    destruct (fgood (f_Xa f)) as (GY & GT & GR). cbn [file_table d_Y d_T d_R] in GY, GT, GR.
    unfold interp3. cbn [d_Y d_T d_R d_at]. rewrite !ADD.
    match goal with |- interp1 ?g _ ?x = 1 => rewrite <- (interp1_const g 1 x) at 1 end. apply interp1_ext; [exact GY|]. intros a Ha. cbv beta. rewrite !ADD.
    match goal with |- interp1 ?g _ ?x = 1 => rewrite <- (interp1_const g 1 x) at 1 end. apply interp1_ext; [exact GT|]. intros b Hb. cbv beta. rewrite !ADD.
    match goal with |- interp1 ?g _ ?x = 1 => rewrite <- (interp1_const g 1 x) at 1 end. apply interp1_ext; [exact GR|]. intros c Hc. apply S.
    unfold in_file, in_grid in *. cbn in Ha, Hb, Hc. auto. }
  assert (K := C65_mass_fractions L HL s W rho T lam Q). destruct (MassFractionsFromDensityTemperature L s rho T lam) as [[[[[a b] c] d] e] g]. apply K.
Qed.

(** ** The lowest and highest energies reported bound the energy curves at every state of the table *)
Lemma fold_min_le l x y : In y (x :: l) -> fold_left Rmin l x <= y.
Proof.
  revert x y. induction l as [|z l IH]; intros x y [H|H]; cbn [fold_left]; try (subst; lra); try contradiction.
  - subst. apply Rle_trans with (Rmin y z); [apply IH; left; reflexivity|apply Rmin_l].
  - destruct H as [H|H]; [subst; apply Rle_trans with (Rmin x y); [apply IH; left; reflexivity|apply Rmin_r]|apply IH; right; exact H].
Qed.
Lemma fold_max_ge l x y : In y (x :: l) -> y <= fold_left Rmax l x.
Proof.
  revert x y. induction l as [|z l IH]; intros x y [H|H]; cbn [fold_left]; try (subst; lra); try contradiction.
  - subst. apply Rle_trans with (Rmax y z); [apply Rmax_l|apply IH; left; reflexivity].
  - destruct H as [H|H]; [subst; apply Rle_trans with (Rmax x y); [apply Rmax_r|apply IH; left; reflexivity]|apply IH; right; exact H].
Qed.
Lemma fold_min_in l x : In (fold_left Rmin l x) (x :: l).
Proof.
  revert x. induction l as [|z l IH]; intros x; cbn [fold_left]; [left; reflexivity|]. destruct (IH (Rmin x z)) as [H|H]; [|right; right; exact H].
  rewrite <- H. unfold Rmin. destruct (Rle_dec x z); [left|right; left]; reflexivity.
Qed.
Lemma fold_max_in l x : In (fold_left Rmax l x) (x :: l).
Proof.
  revert x. induction l as [|z l IH]; intros x; cbn [fold_left]; [left; reflexivity|]. destruct (IH (Rmax x z)) as [H|H]; [|right; right; exact H].
  rewrite <- H. unfold Rmax. destruct (Rle_dec x z); [right; left|left]; reflexivity.
Qed.
Lemma in_entries2 d v : In v (entries2 d) <-> exists i k, in_grid (e_Y d) i /\ in_grid (e_R d) k /\ v = e_at d i k.
Proof.
  unfold entries2. rewrite in_flat_map. split.
  - intros (i & Hi & H). apply in_map_iff in H. destruct H as (k & <- & Hk). apply in_zseq in Hi, Hk. exists i, k. auto.
  - intros (i & k & Hi & Hk & ->). exists i. split; [apply in_zseq, Hi|]. apply in_map, in_zseq, Hk.
Qed.
Lemma db_min_spec d : good_grid (e_Y d) -> good_grid (e_R d) ->
  (exists i k, in_grid (e_Y d) i /\ in_grid (e_R d) k /\ db_min d = e_at d i k) /\
  (forall i k, in_grid (e_Y d) i -> in_grid (e_R d) k -> db_min d <= e_at d i k).
Proof.
  intros [A _] [B _]. assert (N : In (e_at d 0 0) (entries2 d)) by (apply in_entries2; exists 0%Z, 0%Z; unfold in_grid; repeat split; lia).
  unfold db_min. destruct (entries2 d) as [|x r] eqn:E; [contradiction|]. split.
  - assert (X := fold_min_in r x). rewrite <- E in X. apply in_entries2 in X. exact X.
  - intros i k Hi Hk. apply fold_min_le. rewrite <- E. apply in_entries2. exists i, k. auto.
Qed.
Lemma db_max_spec d : good_grid (e_Y d) -> good_grid (e_R d) ->
  (exists i k, in_grid (e_Y d) i /\ in_grid (e_R d) k /\ db_max d = e_at d i k) /\
  (forall i k, in_grid (e_Y d) i -> in_grid (e_R d) k -> e_at d i k <= db_max d).
Proof.
  intros [A _] [B _]. assert (N : In (e_at d 0 0) (entries2 d)) by (apply in_entries2; exists 0%Z, 0%Z; unfold in_grid; repeat split; lia).
  unfold db_max. destruct (entries2 d) as [|x r] eqn:E; [contradiction|]. split.
  - assert (X := fold_max_in r x). rewrite <- E in X. apply in_entries2 in X. exact X.
  - intros i k Hi Hk. apply fold_max_ge. rewrite <- E. apply in_entries2. exists i, k. auto.
Qed.
Theorem C66_energy_range :
  (forall rho lam, MinimumDensity L s <= rho <= MaximumDensity L s -> f_Y0 f <= l_Ye lam <= f_Y1 f -> tiny <= MinimumDensity L s ->
     sieMin_ s <= MinInternalEnergyFromDensity L s rho lam) /\
  (tiny <= MinimumDensity L s -> tiny <= MinimumTemperature L s ->
   exists rho lam, MinimumDensity L s <= rho <= MaximumDensity L s /\ f_Y0 f <= l_Ye lam <= f_Y1 f /\
     sieMin_ s = MinInternalEnergyFromDensity L s rho lam /\ sieMin_ s = InternalEnergyFromDensityTemperature L s rho (MinimumTemperature L s) lam) /\
  (tiny <= MinimumDensity L s -> tiny <= MinimumTemperature L s ->
   exists rho lam, MinimumDensity L s <= rho <= MaximumDensity L s /\ f_Y0 f <= l_Ye lam <= f_Y1 f /\
     sieMax_ s = InternalEnergyFromDensityTemperature L s rho (TMax L s) lam).
Proof.
  assert (W := C66_loaded_object_is_well_formed). destruct sgood as (GY & GT & GR).
  assert (GC : good_grid (e_Y (eCold_ s)) /\ good_grid (e_R (eCold_ s))) by (split; [exact GY|exact GR]).
  assert (GH : good_grid (e_Y (eHot_ s)) /\ good_grid (e_R (eHot_ s))) by (split; [exact GY|exact GR]).
  destruct (db_min_spec (eCold_ s) (proj1 GC) (proj2 GC)) as [(i & k & Hi & Hk & M1) M2].
  destruct (db_max_spec (eHot_ s) (proj1 GH) (proj2 GH)) as [(i' & k' & Hi' & Hk' & M1') M2'].
  assert (SP : forall k, in_grid (d_R (lE_ s)) k -> MinimumDensity L s <= pw10 L (g_x (d_R (lE_ s)) k) <= MaximumDensity L s).
  { intros q Hq. destruct (node_span _ _ GR Hq) as [A B]. unfold MinimumDensity, MaximumDensity, rhoMin, rhoMax. rewrite !(rho_pw L HL). split; apply (pw_incr_le L HL); assumption. }
  assert (LR : forall k, tiny <= pw10 L (g_x (d_R (lE_ s)) k) -> lRho_ L (pw10 L (g_x (d_R (lE_ s)) k)) = g_x (d_R (lE_ s)) k).
  { intros q Hq. unfold lRho_. rewrite (toLog_of L) by lra. rewrite Rplus_0_r. apply (lp_inv_r L HL). }
  split; [|split].
  - intros rho lam HR HY R0.
    assert (SR : in_span (e_R (eCold_ s)) (lRho_ L rho)).
    { unfold MinimumDensity, MaximumDensity, rhoMin, rhoMax in *. rewrite !(rho_pw L HL) in *. unfold in_span.
      split; unfold lRho_; [apply (toLog_below L HL)|apply (toLog_above L HL)]; cbn [e_R eCold_ curve LoadFromStellarCollapseFile_ g_min g_max lRhoMin_ lRhoMax_ gridToNQT] in *; lra. }
    unfold MinInternalEnergyFromDensity.
    assert (B := interp2_bounds (eCold_ s) (l_Ye lam) (lRho_ L rho) (sieMin_ s) (db_max (eCold_ s)) (proj1 GC) (proj2 GC)).
    apply B; [exact HY|exact SR|]. intros a b Ha Hb. split; [apply (M2 a b Ha Hb)|]. apply (proj2 (db_max_spec (eCold_ s) (proj1 GC) (proj2 GC)) a b Ha Hb).
  - intros R0 T0. set (lam := mkLam (g_x (d_Y (lE_ s)) i) None). assert (tiny <= pw10 L (g_x (d_R (lE_ s)) k)) as R1 by (destruct (SP k Hk); lra).
    destruct (Emin_node L HL s W i k lam Hi Hk eq_refl R1 T0) as [E1 _].
    exists (pw10 L (g_x (d_R (lE_ s)) k)), lam. split; [exact (SP k Hk)|]. split; [exact (node_span _ _ GY Hi)|].
    assert (Q : sieMin_ s = MinInternalEnergyFromDensity L s (pw10 L (g_x (d_R (lE_ s)) k)) lam).
    { change (sieMin_ s) with (db_min (eCold_ s)). rewrite M1. unfold MinInternalEnergyFromDensity. rewrite (LR k R1). symmetry. apply (interp2_node (eCold_ s)); assumption || apply GC. }
    split; [exact Q|]. rewrite <- E1. exact Q.
  - intros R0 T0. set (lam := mkLam (g_x (d_Y (lE_ s)) i') None). assert (tiny <= pw10 L (g_x (d_R (lE_ s)) k')) as R1 by (destruct (SP k' Hk'); lra).
    destruct (Emin_node L HL s W i' k' lam Hi' Hk' eq_refl R1 T0) as [_ E1].
    exists (pw10 L (g_x (d_R (lE_ s)) k')), lam. split; [exact (SP k' Hk')|]. split; [exact (node_span _ _ GY Hi')|].
    rewrite <- E1. change (sieMax_ s) with (db_max (eHot_ s)). rewrite M1', (LR k' R1). symmetry. apply (interp2_node (eHot_ s)); assumption || apply GH.
Qed.

(** ** CheckParams accepts it when the electron fractions lie in [0, 1] and the energies are not all the same *)
Theorem C66_CheckParams : 0 <= f_Y0 f -> f_Y1 f <= 1 -> sieMin_ s < sieMax_ s -> CheckParams s = true.
Proof.
  intros A B C. destruct sgood as (GY & GT & GR). assert (X := denseT). assert (Y := denseR). destruct OK as (_ & _ & N & _ & _ & E). unfold CheckParams.
  rewrite !andb_true_iff. repeat split; try (apply Z.ltb_lt; cbn; lia); try (apply Rlt_bool_true; first [exact C|exact E|apply GT|apply GR]); apply Rle_bool_true; assumption.
Qed.
(** ** Saving and loading again gives back the object *)
Theorem C66_save_and_load : LoadFromSP5File_ (Save s) = Some s.
Proof. destruct smooth; reflexivity. Qed.
End Build.

(** ** The median filter (for derivatives and specific heat), for every table: the border is untouched; inside, an entry is kept when it is
    within ten times the median of the 7 x 7 x 7 entries around it (all of them in the table, and all taken before any smoothing),
    otherwise it becomes that median *)
Lemma nodup_app {A} (l l' : list A) : NoDup l -> NoDup l' -> (forall x, In x l -> ~ In x l') -> NoDup (l ++ l').
Proof.
  intros H H' D. induction H as [|x l N H IH]; cbn; [exact H'|]. constructor.
  - rewrite in_app_iff. intros [Q|Q]; [contradiction|]. apply (D x); [left; reflexivity|exact Q].
  - apply IH. intros y Hy. apply D. right. exact Hy.
Qed.
Lemma nodup_flat {A B} (l : list A) (g : A -> list B) (key : B -> A) : NoDup l -> (forall a, NoDup (g a)) -> (forall a b, In b (g a) -> key b = a) ->
  NoDup (flat_map g l).
Proof.
  intros H G K. induction H as [|x l N H IH]; cbn; [constructor|]. apply nodup_app; [apply G|exact IH|].
  intros b Hb Q. apply in_flat_map in Q. destruct Q as (a & Ha & Q). apply K in Hb, Q. subst. contradiction.
Qed.
Definition window (w i j k : Z) : list (Z * Z * Z) :=
  flat_map (fun wY => flat_map (fun wT => map (fun wR => (i + wY, j + wT, k + wR)%Z) (zseq (- w) (w + 1))) (zseq (- w) (w + 1))) (zseq (- w) (w + 1)).
Lemma window_nodup w i j k : NoDup (window w i j k).
Proof.
  unfold window. apply (nodup_flat _ _ (fun p => (fst (fst p) - i)%Z)); [apply nodup_zseq| |].
  - intros a. apply (nodup_flat _ _ (fun p => (snd (fst p) - j)%Z)); [apply nodup_zseq| |].
    + intros b. apply FinFun.Injective_map_NoDup; [|apply nodup_zseq]. intros x y E. injection E. lia.
    + intros b [[x y] z] H. apply in_map_iff in H. destruct H as (c & E & _). injection E as <- <- <-. cbn. ring.
  - intros a [[x y] z] H. apply in_flat_map in H. destruct H as (b & _ & H). apply in_map_iff in H. destruct H as (c & E & _). injection E as <- <- <-. cbn. ring.
Qed.
Lemma window_spec w i j k a b c : In (a, b, c) (window w i j k) <-> (Z.abs (a - i) <= w /\ Z.abs (b - j) <= w /\ Z.abs (c - k) <= w)%Z.
Proof.
  unfold window. rewrite in_flat_map. split.
  - intros (x & Hx & H). apply in_flat_map in H. destruct H as (y & Hy & H). apply in_map_iff in H. destruct H as (z & E & Hz). injection E as <- <- <-.
    rewrite in_zseq in Hx, Hy, Hz. lia.
  - intros H. exists (a - i)%Z. split; [apply in_zseq; lia|]. apply in_flat_map. exists (b - j)%Z. split; [apply in_zseq; lia|]. apply in_map_iff. exists (c - k)%Z.
    split; [f_equal; [f_equal|]; ring|apply in_zseq; lia].
Qed.
Lemma window_values w i j k t : fillMedianBuffer_ w i j k t = map (fun p => t (fst (fst p)) (snd (fst p)) (snd p)) (window w i j k).
Proof.
  unfold fillMedianBuffer_, window. generalize (zseq (- w) (w + 1)); intros l.
  assert (FM : forall (A B C : Type) (g : B -> C) (h : A -> list B) (l : list A), map g (flat_map h l) = flat_map (fun a => map g (h a)) l).
  { intros A B C g h l0. induction l0 as [|x r IH]; cbn; [reflexivity|]. rewrite map_app, IH. reflexivity. }
  rewrite FM. apply flat_map_ext. intros a. rewrite FM. apply flat_map_ext. intros b. rewrite map_map. reflexivity.
Qed.
Theorem C66_median_filter : forall nY nT nR d i j k,
  let out := d_at (medianFilter_ nY nT nR d) i j k in let point := d_at d i j k in
  (~ (3 <= i < nY - 3 /\ 3 <= j < nT - 3 /\ 3 <= k < nR - 3)%Z -> out = point) /\
  ((3 <= i < nY - 3 /\ 3 <= j < nT - 3 /\ 3 <= k < nR - 3)%Z ->
   exists ps m, NoDup ps /\ (forall a b c, In (a, b, c) ps <-> (Z.abs (a - i) <= 3 /\ Z.abs (b - j) <= 3 /\ Z.abs (c - k) <= 3)%Z) /\
     (forall a b c, In (a, b, c) ps -> (0 <= a < nY /\ 0 <= b < nT /\ 0 <= c < nR)%Z) /\
     is_median Rlt_bool m (map (fun p => d_at d (fst (fst p)) (snd (fst p)) (snd p)) ps) /\
     (Rabs (m - point) <= 10 * Rabs m -> out = point) /\ (10 * Rabs m < Rabs (m - point) -> out = m) /\ Rabs (m - out) <= 10 * Rabs m).
Proof.
  intros nY nT nR d i j k out point. unfold out, medianFilter_, medianFilter_from. cbn [d_at]. cbv zeta.
  rewrite (for3_box _ _ _ _ _ _ (fun iY iT ir => let avg := findMedian_ (fillMedianBuffer_ MF_W iY iT ir (d_at d)) in let point := d_at d iY iT ir in if bad avg point then avg else point)).
  unfold MF_W. split.
  - intros N. rewrite box_false by exact N. reflexivity.
  - intros (A & B & C). rewrite box_true by assumption. cbv zeta. set (m := findMedian_ (fillMedianBuffer_ 3 i j k (d_at d))). fold point.
    exists (window 3 i j k), m. split; [apply window_nodup|]. split; [intros; apply window_spec|]. split; [intros a b c H; apply window_spec in H; lia|].
    split; [unfold m; rewrite window_values; apply findMedian_odd; rewrite <- (window_values 3 i j k (d_at d)); change 3%Z with MF_W; rewrite buffer_length; reflexivity|].
    assert (BAD : bad m point = true <-> 10 * Rabs m < Rabs (m - point)).
    { unfold bad, DELTASMOOTH. destruct (Req_bool_spec m 0) as [E|E].
      - rewrite E, Rabs_R0. rewrite Rminus_0_l, Rabs_Ropp. destruct (Req_bool_spec point 0) as [Q|Q]; cbn [negb].
        + rewrite Q, Rabs_R0. split; [discriminate|lra].
        + split; [intros _; assert (X := Rabs_pos_lt _ Q); lra|reflexivity].
      - assert (P := Rabs_pos_lt _ E). case Rlt_bool_spec; intros Q; (split; [|]); try discriminate; intros Z; try reflexivity.
        + apply Rmult_lt_reg_r with (/ Rabs m); [apply Rinv_0_lt_compat, P|]. replace (10 * Rabs m * / Rabs m) with 10 by (field; lra). exact Q.
        + exfalso. apply Rmult_le_compat_r with (r := Rabs m) in Q; [|lra]. replace (Rabs (m - point) / Rabs m * Rabs m) with (Rabs (m - point)) in Q by (field; lra). lra. }
    destruct (bad m point).
    + assert (X := proj1 BAD eq_refl). assert (Y := Rabs_pos m). split; [lra|]. split; [reflexivity|]. rewrite Rminus_diag_eq by reflexivity. rewrite Rabs_R0. lra.
    + assert (X : Rabs (m - point) <= 10 * Rabs m) by (apply Rnot_lt_le; intros Q; apply BAD in Q; discriminate). split; [reflexivity|]. split; [lra|exact X].
Qed.

(** ** The minimum energy curve lies on or above the energy at the lowest temperature (with the exact logarithm): the first is interpolated
    in the energy, the second in its logarithm *)
Lemma exp_convex w a b : 0 <= w <= 1 -> exp (lerp w a b) <= lerp w (exp a) (exp b).
Proof.
  intros H. unfold lerp. set (m := (1 - w) * a + w * b).
  assert (T : forall x, exp m * (1 + (x - m)) <= exp x).
  { intros x. replace (exp x) with (exp m * exp (x - m)) by (rewrite <- exp_plus; f_equal; ring). apply Rmult_le_compat_l; [left; apply exp_pos|].
    destruct (Req_dec (x - m) 0) as [E|E]; [rewrite E, exp_0; lra|left; apply exp_ineq1, E]. }
  assert (A := T a). assert (B := T b). apply (Rmult_le_compat_l (1 - w)) in A; [|lra]. apply (Rmult_le_compat_l w) in B; [|lra].
  assert ((1 - w) * (exp m * (1 + (a - m))) + w * (exp m * (1 + (b - m))) = exp m) by (unfold m; ring). lra.
Qed.
Lemma rpow10_convex g a x : good_grid g -> in_span g x -> rpow10 (interp1 g a x) <= interp1 g (fun i => rpow10 (a i)) x.
Proof.
  intros G S. unfold interp1, rpow10. replace (lerp (weight g x) (a (cell g x)) (a (cell g x + 1)%Z) * ln 10) with (lerp (weight g x) (a (cell g x) * ln 10) (a (cell g x + 1)%Z * ln 10)) by (unfold lerp; ring).
  apply exp_convex, weight_range; assumption.
Qed.
Lemma interp1_le g a b x : good_grid g -> in_span g x -> (forall i, in_grid g i -> a i <= b i) -> interp1 g a x <= interp1 g b x.
Proof.
  intros H S M. unfold interp1, lerp. assert (C := cell_range g x H). assert (W := weight_range g x H S).
  assert (M1 : a (cell g x) <= b (cell g x)) by (apply M; destruct H; unfold in_grid; lia).
  assert (M2 : a (cell g x + 1)%Z <= b (cell g x + 1)%Z) by (apply M; destruct H; unfold in_grid; lia). nra.
Qed.
Theorem C66_minimum_energy_curve : forall s rho lam, well_formed real_log10 s -> tiny <= rhoMin real_log10 s -> tiny <= TMin real_log10 s ->
  rhoMin real_log10 s <= rho <= rhoMax real_log10 s -> YeMin_ s <= l_Ye lam <= YeMax_ s ->
  InternalEnergyFromDensityTemperature real_log10 s rho (TMin real_log10 s) lam <= MinInternalEnergyFromDensity real_log10 s rho lam.
Proof.
  intros s rho lam W R0 T0 HR HY. set (L := real_log10). assert (HL := real_log10_pair). fold L in HL, W, R0, T0, HR |- *.
  assert (LO := lT_order L s W). assert (LT : TMin L s < TMax L s).
  { unfold TMin, TMax, T_, sc_fromLog. assert (X := pw_incr L HL _ _ LO). lra. }
  destruct (in_table_spans L HL s W rho (TMin L s) lam R0 T0) as (SR & _ & SY); [split; [exact HR|split; [lra|exact HY]]|].
  destruct (wf_good _ _ W) as (GY & GT & GR).
  unfold TMin. rewrite E_at_lT; [|exact HL|unfold TMin, T_, sc_fromLog in T0; lra]. destruct (wf_T _ _ W) as [-> _].
  unfold MinInternalEnergyFromDensity, interp2. destruct (wf_cold_grid _ _ W) as [C1 C2]. rewrite C1, C2. unfold interp3.
  rewrite <- (x_0 (d_T (lE_ s))). 
  assert (N0 : in_grid (d_T (lE_ s)) 0) by (destruct GT; unfold in_grid; lia).
  rewrite (interp1_ext (d_Y (lE_ s)) _ (fun i => interp1 (d_R (lE_ s)) (d_at (lE_ s) i 0%Z) (lRho_ L rho)) (l_Ye lam) GY) by (intros i Hi; exact (interp1_node (d_T (lE_ s)) (fun j => interp1 (d_R (lE_ s)) (d_at (lE_ s) i j) (lRho_ L rho)) 0 GT N0)).
  apply Rle_trans with (interp1 (d_Y (lE_ s)) (fun i => interp1 (d_R (lE_ s)) (fun k => rpow10 (d_at (lE_ s) i 0%Z k)) (lRho_ L rho)) (l_Ye lam) - lEOffset_ s).
  - apply Rplus_le_compat_r. apply Rle_trans with (interp1 (d_Y (lE_ s)) (fun i => rpow10 (interp1 (d_R (lE_ s)) (d_at (lE_ s) i 0%Z) (lRho_ L rho))) (l_Ye lam)).
    + apply (rpow10_convex (d_Y (lE_ s)) (fun i => interp1 (d_R (lE_ s)) (d_at (lE_ s) i 0%Z) (lRho_ L rho))); assumption.
    + apply interp1_le; [assumption|assumption|]. intros i Hi. apply rpow10_convex; assumption.
  - right. replace (interp1 (d_Y (lE_ s)) (fun i => interp1 (d_R (lE_ s)) (fun k => rpow10 (d_at (lE_ s) i 0%Z k)) (lRho_ L rho)) (l_Ye lam) - lEOffset_ s)
      with (interp1 (d_Y (lE_ s)) (fun i => interp1 (d_R (lE_ s)) (fun k => rpow10 (d_at (lE_ s) i 0%Z k) - lEOffset_ s) (lRho_ L rho)) (l_Ye lam)) by (unfold interp1, lerp; ring).
    apply interp1_ext; [exact GY|]. intros i Hi. apply interp1_ext; [exact GR|]. intros k Hk. rewrite (wf_cold _ _ W) by assumption. reflexivity.
Qed.
Print Assumptions C66_loaded_object_is_well_formed.
Print Assumptions C66_bounds.
Print Assumptions C66_values_at_grid_points.
Print Assumptions C66_values_at_corners.
Print Assumptions C66_no_overshoot.
Print Assumptions C66_mass_fractions.
Print Assumptions C66_energy_range.
Print Assumptions C66_CheckParams.
Print Assumptions C66_save_and_load.
Print Assumptions C66_median_filter.
Print Assumptions C66_minimum_energy_curve.
