(** Theorems C65: the queries of StellarCollapse. *)
From Coq Require Import ZArith Reals List Bool Lra Lia Psatz.
From Flocq Require Import Core.
From Verif Require Import Arith Robust_Model Robust_Proofs RootFinding_Model RootFinding_Proofs Thermo_Spec Thermo_Tools
  SpinerUtil_Model SpinerUtil_Spec SpinerUtil_Proofs Spiner_Model Spiner_Spec Spiner_Props Stellar_Model Stellar_Spec Stellar_Proofs.
Import ListNotations.
Local Open Scope R_scope.

(** ** What the constructor establishes (proved of it in Stellar_Build_Props, C66) *)
Record well_formed (L : LogPair) (s : SC) : Prop := {
  wf_good : good3 (lE_ s);
  wf_same : Forall (fun d => d_Y d = d_Y (lE_ s) /\ d_T d = d_T (lE_ s) /\ d_R d = d_R (lE_ s))
    [lP_ s; dPdRho_ s; dPdE_ s; dEdT_ s; lBMod_ s; entropy_ s; Xa_ s; Xh_ s; Xn_ s; Xp_ s; Abar_ s; Zbar_ s];
  wf_T : lTMin_ s = g_min (d_T (lE_ s)) /\ lTMax_ s = g_max (d_T (lE_ s));
  wf_R : lRhoMin_ s = g_min (d_R (lE_ s)) /\ lRhoMax_ s = g_max (d_R (lE_ s));
  wf_Y : YeMin_ s = g_min (d_Y (lE_ s)) /\ YeMax_ s = g_max (d_Y (lE_ s));
  wf_cold_grid : e_Y (eCold_ s) = d_Y (lE_ s) /\ e_R (eCold_ s) = d_R (lE_ s);
  wf_hot_grid : e_Y (eHot_ s) = d_Y (lE_ s) /\ e_R (eHot_ s) = d_R (lE_ s);
  wf_cold : forall i k, in_grid (d_Y (lE_ s)) i -> in_grid (d_R (lE_ s)) k -> e_at (eCold_ s) i k = pw10 L (d_at (lE_ s) i 0 k) - lEOffset_ s;
  wf_hot : forall i k, in_grid (d_Y (lE_ s)) i -> in_grid (d_R (lE_ s)) k ->
    e_at (eHot_ s) i k = pw10 L (d_at (lE_ s) i (g_N (d_T (lE_ s)) - 1) k) - lEOffset_ s
}.

Section Logs.
Variable L : LogPair.
Hypothesis HL : is_log_pair L.
Lemma toLog_fromLog l : tiny <= pw10 L l -> sc_toLog L (sc_fromLog L l 0) 0 = l.
Proof.
  intros H. unfold sc_toLog, sc_fromLog. assert (P := lp_pos L HL l). rewrite Rmax_left by lra. rewrite Rabs_pos_eq by lra.
  rewrite plus_small_eq by lra. replace (pw10 L l - 0 + 0) with (pw10 L l) by ring. apply lp_inv_r, HL.
Qed.
Lemma fromLog_toLog x off : tiny <= x + off -> sc_fromLog L (sc_toLog L x off) off = x.
Proof.
  intros H. unfold sc_toLog, sc_fromLog. assert (TP := tiny_pos). rewrite Rmax_left by lra. rewrite Rabs_pos_eq by lra.
  rewrite plus_small_eq by lra. rewrite (lp_inv_l L HL) by lra. ring.
Qed.
Lemma toLog_of x off : tiny <= x + off -> sc_toLog L x off = lg10 L (x + off).
Proof. intros H. unfold sc_toLog. assert (TP := tiny_pos). rewrite Rmax_left by lra. rewrite Rabs_pos_eq by lra. rewrite plus_small_eq by lra. reflexivity. Qed.
Lemma toLog_below l x off : pw10 L l <= x + off -> tiny <= x + off -> l <= sc_toLog L x off.
Proof. intros H1 H2. rewrite toLog_of by exact H2. rewrite <- (lp_inv_r L HL l). apply lg_incr_le; [exact HL|apply lp_pos, HL|exact H1]. Qed.
Lemma toLog_above l x off : x + off <= pw10 L l -> tiny <= x + off -> sc_toLog L x off <= l.
Proof. intros H1 H2. assert (TP := tiny_pos). rewrite toLog_of by exact H2. rewrite <- (lp_inv_r L HL l). apply lg_incr_le; [exact HL|lra|exact H1]. Qed.
End Logs.

(** the estimate regula_falsi leaves is inside the interval it was given, whatever its status *)
Lemma rf_range_any (f : R -> R) y guess a b tol st x n : 0 <= tol -> a <= guess <= b -> (f a - y) * (f b - y) <= 0 ->
  @regula_falsi RArith f y guess a b tol tol = RFDone st (Some x) n -> a <= x <= b.
Proof.
  intros Ht Hg HB H. apply (split_bracket _ _ (f guess - y)) in HB.
  set (g := fun z : R => f z - y).
  assert (Hq : exists a1 b1, @rf_bracket RArith g guess a b = Some (a1, b1, g a1, g b1) /\ a <= a1 /\ a1 <= b1 /\ b1 <= b /\ g a1 * g b1 <= 0).
  { unfold rf_bracket, check_bracket, lit; cbn [leb mul ofQ RArith].
    destruct (Rle_bool_spec (g a * g guess) (0/1)) as [H1|H1].
    - exists a, guess. repeat split; try lra.
    - destruct (Rle_bool_spec (g guess * g b) (0/1)) as [H2|H2].
      + exists guess, b. repeat split; try lra.
      + exfalso. unfold g in *. destruct HB; lra. }
  destruct Hq as (a1 & b1 & Hq & Ha1 & Hab1 & Hb1 & Hs).
  unfold regula_falsi, regula_falsi_fuel in H. cbv zeta in H.
  change (fun z : num RArith => @sub RArith (f z) y) with g in H. rewrite Hq in H.
  set (sgn := if @ltb RArith (g a1) (@lit RArith 0) then @lit RArith 1 else @lit RArith (-1)) in H.
  assert (Hsg : sgn = 1 \/ sgn = -1).
  { unfold sgn, lit; cbn [ltb ofQ RArith]. destruct (Rlt_bool _ _); [left|right]; lra. }
  match type of H with context [@rf_loop _ ?fu ?gg ?ss ?xx ?yy ?z] =>
    destruct (@rf_loop RArith fu gg ss xx yy z) as [w|] eqn:E end; [|discriminate].
  injection H as Hst Hx Hn.
  assert (Hi : rf_inv g sgn a b w /\ @rf_cond RArith tol tol w = false).
  { eapply rf_loop_inv; [exact Hsg|exact Ht|exact Ht| |exact E].
    unfold rf_inv; cbn [rf_a rf_b rf_ya rf_yb mul RArith]. repeat split; try lra.
    left. exists 0%nat, 0%nat. cbn [rf_it]. split; [left; reflexivity|]. split; [lia|]. split; [rewrite Rmult_comm; apply shrunk_refl|].
    split; [rewrite Rmult_comm; apply shrunk_refl|].
    unfold sgn, lit; cbn [ltb ofQ RArith].
    destruct (Rlt_bool_spec (g a1) (0/1)) as [L|L]; cbn [ofQ RArith].
    - left. split; nra.
    - destruct (Req_dec (g a1) 0) as [Z|Z]; [right; rewrite Z; lra|]. left. split; nra. }
  destruct Hi as [(I1 & I2 & I3 & _) _]. rewrite <- Hx. cbn [mul add ofQ RArith]. lra.
Qed.
Section Queries.
Variable L : LogPair.
Hypothesis HL : is_log_pair L.
Variable s : SC.
Hypothesis W : well_formed L s.
Notation Temp := (TemperatureFromDensityInternalEnergy L s).
Notation Energy := (InternalEnergyFromDensityTemperature L s).
Notation Emin := (MinInternalEnergyFromDensity L s).
(** the upper energy curve as the code evaluates it *)
Notation Emax rho lam := (interp2 (eHot_ s) (l_Ye lam) (lRho_ L rho)).
Notation lTof junk rho e lam := (fst (fst (lTFromlRhoSie_ L s junk (lRho_ L rho) e lam))).
Notation found junk rho e lam := (snd (lTFromlRhoSie_ L s junk (lRho_ L rho) e lam) = SUCCESS).

Lemma T_good : good_grid (d_T (lE_ s)). Proof. apply (wf_good _ _ W). Qed.
Lemma lT_order : lTMin_ s < lTMax_ s.
Proof. destruct (wf_T _ _ W) as [-> ->]. apply T_good. Qed.
Lemma E_at_lT lT rho lam : tiny <= pw10 L lT -> Energy rho (T_ L lT) lam = pw10 L (interp3 (lE_ s) (l_Ye lam) lT (lRho_ L rho)) - lEOffset_ s.
Proof.
  intros H. unfold InternalEnergyFromDensityTemperature, atRhoT, lT_, T_, le2e_. rewrite toLog_fromLog by assumption. reflexivity.
Qed.

(** ** Energies off the table are moved onto it: at or below the minimum energy the temperature is the lowest of the table, at or above the
    maximum it is the highest, whatever the cached guess *)
Theorem C65_clamped_to_table : forall junk rho e lam,
  (e <= Emin rho lam -> Temp junk rho e lam = MinimumTemperature L s /\ found junk rho e lam) /\
  (Emin rho lam < e -> Emax rho lam <= e -> Temp junk rho e lam = TMax L s /\ found junk rho e lam).
Proof.
  intros junk rho e lam. unfold TemperatureFromDensityInternalEnergy, MinInternalEnergyFromDensity, lTFromlRhoSie_. cbv zeta. split.
  - intros H. rewrite Rle_bool_true by exact H. split; reflexivity.
  - intros H1 H2. rewrite Rle_bool_false by exact H1. rewrite Rle_bool_true by exact H2. split; reflexivity.
Qed.
(** ** Between the two curves, and between the energies at the lowest and highest temperature of this density and electron fraction:
    for every cached guess the temperature is in the table's range and, when the search reports success, it encloses a temperature whose
    energy is e *)
Theorem C65_temperature_from_energy : forall junk rho e lam, tiny <= MinimumTemperature L s -> tiny <= e + lEOffset_ s ->
  Energy rho (MinimumTemperature L s) lam <= e <= Energy rho (TMax L s) lam ->
  MinimumTemperature L s <= Temp junk rho e lam <= TMax L s /\
  (Emin rho lam < e < Emax rho lam -> found junk rho e lam ->
     encloses_root (fun lT => interp3 (lE_ s) (l_Ye lam) lT (lRho_ L rho)) (e2le_ L s e) (lTMin_ s) (lTMax_ s) ROOT_THRESH (lTof junk rho e lam)) /\
  (forall lT, lTMin_ s <= lT -> interp3 (lE_ s) (l_Ye lam) lT (lRho_ L rho) = e2le_ L s e -> Energy rho (T_ L lT) lam = e).
Proof.
  intros junk rho e lam HT He [H1 H2]. assert (LO := lT_order).
  assert (TM : forall l, lTMin_ s <= l -> tiny <= pw10 L l).
  { intros l Hl. unfold MinimumTemperature, TMin, T_, sc_fromLog in HT. assert (X := pw_incr_le L HL _ _ Hl). lra. }
  assert (T3 : forall lT, lTMin_ s <= lT -> interp3 (lE_ s) (l_Ye lam) lT (lRho_ L rho) = e2le_ L s e -> Energy rho (T_ L lT) lam = e).
  { intros lT Hl E. rewrite E_at_lT by (apply TM, Hl). rewrite E. unfold e2le_. apply (fromLog_toLog L HL e (lEOffset_ s) He). }
  unfold MinimumTemperature, TMin in H1. rewrite E_at_lT in H1 by (apply TM; lra). unfold TMax in H2. rewrite E_at_lT in H2 by (apply TM; lra).
  set (f := fun lT => interp3 (lE_ s) (l_Ye lam) lT (lRho_ L rho)) in *. set (y := e2le_ L s e) in *.
  change (interp3 (lE_ s) (l_Ye lam) (lTMin_ s) (lRho_ L rho)) with (f (lTMin_ s)) in H1. change (interp3 (lE_ s) (l_Ye lam) (lTMax_ s) (lRho_ L rho)) with (f (lTMax_ s)) in H2.
  assert (B1 : f (lTMin_ s) <= y) by (apply (toLog_below L HL); [lra|exact He]).
  assert (B2 : y <= f (lTMax_ s)) by (apply (toLog_above L HL); [lra|exact He]).
  assert (CT : continuous_on f (lTMin_ s) (lTMax_ s)) by (intros z _; apply interp3_continuous_T, (wf_good _ _ W)).
  unfold TemperatureFromDensityInternalEnergy, MinInternalEnergyFromDensity, lTFromlRhoSie_. cbv zeta.
  set (c := match l_lT lam with Some c => c | None => junk end). fold f y.
  set (g := if negb (Rle_bool (lTMin_ s) c && Rle_bool c (lTMax_ s)) then 1 / 2 * (lTMin_ s + lTMax_ s) else c).
  assert (G : lTMin_ s <= g <= lTMax_ s).
  { unfold g. case (Rle_bool_spec (lTMin_ s) c); intros A; cbn [andb negb]; [|lra]. case (Rle_bool_spec c (lTMax_ s)); intros B; cbn [negb]; lra. }
  destruct (table_root_spec f y g (lTMin_ s) (lTMax_ s) ROOT_THRESH g) as (K1 & K2 & _).
  { unfold ROOT_THRESH. lra. } { exact G. } { exact G. } { assert (f (lTMin_ s) - y <= 0) by lra. assert (0 <= f (lTMax_ s) - y) by lra. nra. } { exact CT. }
  assert (MONO : forall l, lTMin_ s <= l <= lTMax_ s -> MinimumTemperature L s <= T_ L l <= TMax L s).
  { intros l [A B]. unfold MinimumTemperature, TMin, TMax, T_, sc_fromLog. assert (X := pw_incr_le L HL _ _ A). assert (Y := pw_incr_le L HL _ _ B). lra. }
  case (Rle_bool_spec e (interp2 (eCold_ s) (l_Ye lam) (lRho_ L rho))); intros A; [cbn [fst snd]; split; [apply MONO; lra|split; [intros []; lra|exact T3]]|].
  case (Rle_bool_spec (interp2 (eHot_ s) (l_Ye lam) (lRho_ L rho)) e); intros B; [cbn [fst snd]; split; [apply MONO; lra|split; [intros []; lra|exact T3]]|].
  destruct (table_root f y g (lTMin_ s) (lTMax_ s) ROOT_THRESH g) as [lT st]. cbn [fst snd] in *.
  split; [apply MONO, K1|]. split; [intros _; exact K2|exact T3].
Qed.
(** ** At the table's own densities and electron fractions nothing else is needed: every energy whatever gives a temperature of the table *)
Lemma Emin_node i k lam : in_grid (d_Y (lE_ s)) i -> in_grid (d_R (lE_ s)) k -> l_Ye lam = g_x (d_Y (lE_ s)) i -> tiny <= pw10 L (g_x (d_R (lE_ s)) k) ->
  tiny <= MinimumTemperature L s ->
  let rho := pw10 L (g_x (d_R (lE_ s)) k) in
  Emin rho lam = Energy rho (MinimumTemperature L s) lam /\ Emax rho lam = Energy rho (TMax L s) lam.
Proof.
  intros Hi Hk HY Hr HT rho. assert (LO := lT_order). destruct (wf_good _ _ W) as (GY & GT & GR).
  assert (TM : forall l, lTMin_ s <= l -> tiny <= pw10 L l).
  { intros l Hl. unfold MinimumTemperature, TMin, T_, sc_fromLog in HT. assert (X := pw_incr_le L HL _ _ Hl). lra. }
  assert (LR : lRho_ L rho = g_x (d_R (lE_ s)) k).
  { unfold rho, lRho_. rewrite (toLog_of L) by lra. rewrite Rplus_0_r. apply (lp_inv_r L HL). }
  unfold MinimumTemperature, TMin, TMax. rewrite !E_at_lT by (apply TM; lra). unfold MinInternalEnergyFromDensity. rewrite LR, HY.
  destruct (wf_cold_grid _ _ W) as [C1 C2]. destruct (wf_hot_grid _ _ W) as [D1 D2]. destruct (wf_T _ _ W) as [-> ->]. split.
  - rewrite <- C1 at 1. rewrite <- C2 at 1. rewrite interp2_node by (rewrite ?C1, ?C2; assumption). rewrite (wf_cold _ _ W) by assumption.
    rewrite <- (x_0 (d_T (lE_ s))). rewrite interp3_node; [reflexivity|exact (wf_good _ _ W)|]. unfold in3. split; [exact Hi|split; [|exact Hk]]. destruct GT. unfold in_grid. lia.
  - rewrite <- D1 at 1. rewrite <- D2 at 1. rewrite interp2_node by (rewrite ?D1, ?D2; assumption). rewrite (wf_hot _ _ W) by assumption.
    rewrite <- (x_last (d_T (lE_ s)) GT). rewrite interp3_node; [reflexivity|exact (wf_good _ _ W)|]. unfold in3. split; [exact Hi|split; [|exact Hk]]. destruct GT. unfold in_grid. lia.
Qed.
Theorem C65_temperature_at_nodes : forall i k junk e lam, in_grid (d_Y (lE_ s)) i -> in_grid (d_R (lE_ s)) k ->
  l_Ye lam = g_x (d_Y (lE_ s)) i -> tiny <= pw10 L (g_x (d_R (lE_ s)) k) -> tiny <= MinimumTemperature L s ->
  let rho := pw10 L (g_x (d_R (lE_ s)) k) in
  tiny <= Energy rho (MinimumTemperature L s) lam + lEOffset_ s ->
  Emin rho lam = Energy rho (MinimumTemperature L s) lam /\
  MinimumTemperature L s <= Temp junk rho e lam <= TMax L s /\
  (e <= Emin rho lam -> Temp junk rho e lam = MinimumTemperature L s) /\
  (Emin rho lam < e < Energy rho (TMax L s) lam -> found junk rho e lam ->
   encloses_root (fun lT => interp3 (lE_ s) (l_Ye lam) lT (lRho_ L rho)) (e2le_ L s e) (lTMin_ s) (lTMax_ s) ROOT_THRESH (lTof junk rho e lam)).
Proof.
  intros i k junk e lam Hi Hk HY Hr HT rho HE. destruct (Emin_node i k lam Hi Hk HY Hr HT) as [E1 E2]. fold rho in E1, E2.
  assert (LO := lT_order). assert (TT : MinimumTemperature L s <= TMax L s).
  { unfold MinimumTemperature, TMin, TMax, T_, sc_fromLog. assert (X := pw_incr_le L HL (lTMin_ s) (lTMax_ s) ltac:(lra)). lra. }
  destruct (C65_clamped_to_table junk rho e lam) as [C1 C2].
  split; [exact E1|]. destruct (Rle_or_lt e (Emin rho lam)) as [A|A].
  - destruct (C1 A) as [-> _]. split; [lra|]. split; [reflexivity|]. intros []; lra.
  - destruct (Rle_or_lt (Emax rho lam) e) as [B|B].
    + destruct (C2 A B) as [-> _]. split; [lra|]. split; [intros; lra|]. intros []; lra.
    + destruct (C65_temperature_from_energy junk rho e lam HT) as (K1 & K2 & _); [lra|lra|]. split; [exact K1|]. split; [intros; lra|].
      intros _ F. apply K2; [lra|exact F].
Qed.
(** ** Round trip: where the tabulated energy increases with temperature, the energy of (rho, T) gives back T: the search encloses lT of T
    itself, because there is no other solution *)
Theorem C65_round_trip : forall junk rho T lam, tiny <= MinimumTemperature L s ->
  MinimumTemperature L s <= T <= TMax L s -> in_span (d_Y (lE_ s)) (l_Ye lam) -> in_span (d_R (lE_ s)) (lRho_ L rho) ->
  (forall i j k, in3 (lE_ s) i j k -> in3 (lE_ s) i (j + 1) k -> d_at (lE_ s) i j k < d_at (lE_ s) i (j + 1) k) ->
  let e := Energy rho T lam in
  tiny <= e + lEOffset_ s -> Emin rho lam < e < Emax rho lam -> found junk rho e lam ->
  exists u v, lTMin_ s <= u <= lT_ L T /\ lT_ L T <= v <= lTMax_ s /\ u <= lTof junk rho e lam <= v /\
    (Rabs (lTof junk rho e lam - lT_ L T) <= ROOT_THRESH \/
     Rmin (Rabs (interp3 (lE_ s) (l_Ye lam) u (lRho_ L rho) - e2le_ L s e)) (Rabs (interp3 (lE_ s) (l_Ye lam) v (lRho_ L rho) - e2le_ L s e)) <= ROOT_THRESH).
Proof.
  intros junk rho T lam HT HI HY HR M e He HE HF. assert (LO := lT_order). destruct (wf_good _ _ W) as (GY & GT & GR).
  assert (MONO := interp3_incr_T (lE_ s) (l_Ye lam) (lRho_ L rho) (conj GY (conj GT GR)) HY HR M).
  assert (TT : T_ L (lT_ L T) = T). { unfold T_, lT_. apply (fromLog_toLog L HL). lra. }
  assert (R1 : lTMin_ s <= lT_ L T). { unfold lT_. apply (toLog_below L HL); unfold MinimumTemperature, TMin, T_, sc_fromLog in *; lra. }
  assert (R2 : lT_ L T <= lTMax_ s). { unfold lT_. apply (toLog_above L HL); unfold TMax, MinimumTemperature, TMin, T_, sc_fromLog in *; lra. }
  assert (TM : forall l, lTMin_ s <= l -> tiny <= pw10 L l).
  { intros l Hl. unfold MinimumTemperature, TMin, T_, sc_fromLog in HT. assert (X := pw_incr_le L HL _ _ Hl). lra. }
  assert (EE : e = pw10 L (interp3 (lE_ s) (l_Ye lam) (lT_ L T) (lRho_ L rho)) - lEOffset_ s).
  { unfold e. rewrite <- TT at 1. apply E_at_lT. apply TM, R1. }
  assert (FY : interp3 (lE_ s) (l_Ye lam) (lT_ L T) (lRho_ L rho) = e2le_ L s e).
  { unfold e2le_. rewrite (toLog_of L e _ He). rewrite EE. replace (pw10 L (interp3 (lE_ s) (l_Ye lam) (lT_ L T) (lRho_ L rho)) - lEOffset_ s + lEOffset_ s) with (pw10 L (interp3 (lE_ s) (l_Ye lam) (lT_ L T) (lRho_ L rho))) by ring.
    symmetry. apply (lp_inv_r L HL). }
  assert (EB : Energy rho (MinimumTemperature L s) lam <= e <= Energy rho (TMax L s) lam).
  { unfold MinimumTemperature, TMin, TMax. rewrite !E_at_lT by (apply TM; lra). rewrite EE.
    assert (X1 : interp3 (lE_ s) (l_Ye lam) (lTMin_ s) (lRho_ L rho) <= interp3 (lE_ s) (l_Ye lam) (lT_ L T) (lRho_ L rho)).
    { destruct R1 as [R1|R1]; [left; apply MONO, R1|rewrite R1; lra]. }
    assert (X2 : interp3 (lE_ s) (l_Ye lam) (lT_ L T) (lRho_ L rho) <= interp3 (lE_ s) (l_Ye lam) (lTMax_ s) (lRho_ L rho)).
    { destruct R2 as [R2|R2]; [left; apply MONO, R2|rewrite R2; lra]. }
    apply (pw_incr_le L HL) in X1. apply (pw_incr_le L HL) in X2. lra. }
  destruct (C65_temperature_from_energy junk rho e lam HT He EB) as (_ & K & _). specialize (K HE HF).
  destruct K as (K0 & u & v & r & U1 & U2 & U3 & U4 & U5 & U6).
  assert (r = lT_ L T) as ->.
  { destruct (Rtotal_order r (lT_ L T)) as [Q|[Q|Q]]; [|exact Q|]; apply MONO in Q; lra. }
  exists u, v. split; [lra|]. split; [lra|]. split; [exact U4|exact U6].
Qed.

(** ** A query by density and energy is the query by density and temperature at the temperature returned for that energy (whatever the
    cached guess); for the bulk modulus, after the floor the other entry point applies *)
Theorem C65_entry_points_agree : forall junk rho e lam,
  let T := Temp junk rho e lam in
  tiny <= T ->
  PressureFromDensityInternalEnergy L s junk rho e lam = PressureFromDensityTemperature L s rho T lam /\
  EntropyFromDensityInternalEnergy L s junk rho e lam = EntropyFromDensityTemperature L s rho T lam /\
  SpecificHeatFromDensityInternalEnergy L s junk rho e lam = SpecificHeatFromDensityTemperature L s rho T lam /\
  GruneisenParamFromDensityInternalEnergy L s junk rho e lam = GruneisenParamFromDensityTemperature L s rho T lam /\
  Rmax (BulkModulusFromDensityInternalEnergy L s junk rho e lam) EPS = BulkModulusFromDensityTemperature L s rho T lam.
Proof.
  intros junk rho e lam T HT.
  assert (E : forall d, atRhoT L d rho T lam = atRhoSie L s d junk rho e lam).
  { intros d. unfold atRhoT, atRhoSie, T, TemperatureFromDensityInternalEnergy, lT_, T_. rewrite toLog_fromLog; [reflexivity|exact HL|].
    unfold T, TemperatureFromDensityInternalEnergy, T_, sc_fromLog in HT. lra. }
  unfold PressureFromDensityInternalEnergy, PressureFromDensityTemperature, EntropyFromDensityInternalEnergy, EntropyFromDensityTemperature,
    SpecificHeatFromDensityInternalEnergy, SpecificHeatFromDensityTemperature, GruneisenParamFromDensityInternalEnergy, GruneisenParamFromDensityTemperature,
    BulkModulusFromDensityInternalEnergy, BulkModulusFromDensityTemperature.
  rewrite !E. repeat split. unfold floor_EPS. case Rlt_bool_spec; intros; [apply Rmax_left|apply Rmax_right]; lra.
Qed.
(** ** Floors *)
Theorem C65_floors : forall junk rho T e lam,
  0 < EPS <= EntropyFromDensityTemperature L s rho T lam /\ EPS <= EntropyFromDensityInternalEnergy L s junk rho e lam /\
  EPS <= SpecificHeatFromDensityTemperature L s rho T lam /\ EPS <= SpecificHeatFromDensityInternalEnergy L s junk rho e lam /\
  EPS <= BulkModulusFromDensityTemperature L s rho T lam /\ 0 < BulkModulusFromDensityInternalEnergy L s junk rho e lam /\
  0 < PressureFromDensityTemperature L s rho T lam /\ 0 < PressureFromDensityInternalEnergy L s junk rho e lam /\
  0 <= GruneisenParamFromDensityTemperature L s rho T lam.
Proof.
  intros. assert (E := EPSpos). assert (F : forall v, EPS <= floor_EPS v) by (intros v; unfold floor_EPS; case Rlt_bool_spec; lra).
  assert (P : forall l, 0 < sc_fromLog L l 0) by (intros l; unfold sc_fromLog; assert (X := lp_pos L HL l); lra).
  repeat split; try exact E; try apply F; try apply P.
  unfold GruneisenParamFromDensityTemperature. apply Rmult_le_pos; [apply Rabs_pos|]. left. apply Rinv_0_lt_compat. assert (X := Rabs_pos rho). lra.
Qed.
(** ** lambda: no query changes the electron fraction; the cache, when there is one, afterwards holds the log of the temperature of the
    state; queries by density and temperature do not look at it *)
Theorem C65_lambda : forall junk rho T e lam lam',
  l_Ye (lamRhoT L rho T lam) = l_Ye lam /\ l_Ye (lamRhoSie L s junk rho e lam) = l_Ye lam /\
  (forall c, l_lT lam = Some c ->
     l_lT (lamRhoT L rho T lam) = Some (lT_ L T) /\
     l_lT (lamRhoSie L s junk rho e lam) = Some (lTof junk rho e lam)) /\
  (l_lT lam = None -> lamRhoT L rho T lam = lam /\ lamRhoSie L s junk rho e lam = lam) /\
  (l_Ye lam = l_Ye lam' ->
     Energy rho T lam = Energy rho T lam' /\ PressureFromDensityTemperature L s rho T lam = PressureFromDensityTemperature L s rho T lam' /\
     EntropyFromDensityTemperature L s rho T lam = EntropyFromDensityTemperature L s rho T lam' /\
     SpecificHeatFromDensityTemperature L s rho T lam = SpecificHeatFromDensityTemperature L s rho T lam' /\
     BulkModulusFromDensityTemperature L s rho T lam = BulkModulusFromDensityTemperature L s rho T lam' /\
     GruneisenParamFromDensityTemperature L s rho T lam = GruneisenParamFromDensityTemperature L s rho T lam' /\
     MassFractionsFromDensityTemperature L s rho T lam = MassFractionsFromDensityTemperature L s rho T lam' /\
     Emin rho lam = Emin rho lam').
Proof.
  intros junk rho T e lam lam'.
  assert (LC : lamRhoSie L s junk rho e lam = lam_cache lam (lTof junk rho e lam)).
  { unfold lamRhoSie, lTFromlRhoSie_. cbv zeta. match goal with |- snd (fst (let '(_, _) := ?x in _)) = _ => destruct x end. reflexivity. }
  rewrite LC. destruct lam as [Y c]. unfold lamRhoT, lam_cache. cbn [l_Ye l_lT]. repeat split; try reflexivity.
  - rewrite H. reflexivity. - rewrite H. reflexivity. - rewrite H. reflexivity. - rewrite H. reflexivity.
  - unfold InternalEnergyFromDensityTemperature, atRhoT. cbn [l_Ye]. rewrite H. reflexivity.
  - unfold PressureFromDensityTemperature, atRhoT. cbn [l_Ye]. rewrite H. reflexivity.
  - unfold EntropyFromDensityTemperature, atRhoT. cbn [l_Ye]. rewrite H. reflexivity.
  - unfold SpecificHeatFromDensityTemperature, atRhoT. cbn [l_Ye]. rewrite H. reflexivity.
  - unfold BulkModulusFromDensityTemperature, atRhoT. cbn [l_Ye]. rewrite H. reflexivity.
  - unfold GruneisenParamFromDensityTemperature, atRhoT. cbn [l_Ye]. rewrite H. reflexivity.
  - unfold MassFractionsFromDensityTemperature, atRhoT. cbn [l_Ye]. rewrite H. reflexivity.
  - unfold MinInternalEnergyFromDensity. cbn [l_Ye]. rewrite H. reflexivity.
Qed.
(** ** Density from pressure and temperature: when the pressure is between the table's pressures at its lowest and highest density the
    density is in the table and, on success, encloses a density with that pressure; the energy is that of the density returned *)
Theorem C65_density_from_pressure : forall rho0 P T lam,
  lRhoMin_ s <= lRho_ L rhoNormal_ <= lRhoMax_ s -> tiny <= rhoMin L s ->
  let p := fun l => interp3 (lP_ s) (l_Ye lam) (lT_ L T) l in
  (p (lRhoMin_ s) - P2lP_ L P) * (p (lRhoMax_ s) - P2lP_ L P) <= 0 ->
  let '(rho, e, lam', st) := DensityEnergyFromPressureTemperature L s rho0 P T lam in
  e = Energy rho T lam /\ lam' = lamRhoT L rho T lam /\
  (st = SUCCESS -> rhoMin L s <= rho <= rhoMax L s /\
     encloses_root p (P2lP_ L P) (lRhoMin_ s) (lRhoMax_ s) ROOT_THRESH (lRho_ L rho)).
Proof.
  intros rho0 P T lam HN HR p HB. unfold DensityEnergyFromPressureTemperature. cbv zeta. fold p.
  set (g0 := lRho_ L rho0). set (lo := lRhoMin_ s) in *. set (hi := lRhoMax_ s) in *.
  set (g := if (Rlt_bool g0 lo || Rlt_bool hi g0)%bool then lRho_ L rhoNormal_ else g0). set (y := P2lP_ L P) in *.
  assert (G : lo <= g <= hi).
  { unfold g. case (Rlt_bool_spec g0 lo); intros A; cbn [orb]; [exact HN|]. case (Rlt_bool_spec hi g0); intros B; [exact HN|lra]. }
  assert (RM : forall l, rho_ L l = pw10 L l). { intros l. unfold rho_, sc_fromLog. assert (X := lp_pos L HL l). cbv zeta. rewrite Rlt_bool_false by lra. ring. }
  assert (TH : 0 <= ROOT_THRESH) by (unfold ROOT_THRESH; lra).
  assert (gp : good3 (lP_ s)). { destruct (Forall_inv (wf_same _ _ W)) as (E1 & E2 & E3). unfold good3. rewrite E1, E2, E3. exact (wf_good _ _ W). }
  assert (CT : continuous_on p lo hi) by (intros z _; apply interp3_continuous_R, gp).
  destruct (rf_some p y g lo hi ROOT_THRESH TH G HB) as (st & x & n & E). rewrite E.
  assert (LRX : tiny <= pw10 L x -> lRho_ L (rho_ L x) = x).
  { intros H. rewrite RM. unfold lRho_. rewrite (toLog_of L) by lra. rewrite Rplus_0_r. apply (lp_inv_r L HL). }
  assert (K : st = SUCCESS -> encloses_root p y lo hi ROOT_THRESH x).
  { intros ->. exact (rf_root_near p y g lo hi ROOT_THRESH ROOT_THRESH x n G TH TH CT (split_bracket _ _ _ HB) E). }
  assert (XR : lo <= x <= hi).
  { destruct (table_root_spec p y g lo hi ROOT_THRESH g TH G G HB CT) as (K1 & _ & _). 
    destruct st; [apply K; reflexivity|]. exact (rf_range_any p y g lo hi ROOT_THRESH _ x n TH G HB E). }
  assert (PX : tiny <= pw10 L x). { unfold rhoMin in HR. rewrite RM in HR. fold lo in HR. assert (X := pw_incr_le L HL _ _ (proj1 XR)). lra. }
  split; [|split].
  - unfold InternalEnergyFromDensityTemperature, atRhoT. rewrite LRX by exact PX. reflexivity.
  - reflexivity.
  - intros S. rewrite LRX by exact PX. split; [|apply K, S]. unfold rhoMin, rhoMax. fold lo hi. rewrite !RM. split; apply (pw_incr_le L HL); lra.
Qed.

(** ** FillEos *)
Theorem C65_FillEos_from_temperature : forall junk o st lam, f_rho o = false -> f_temp o = false ->
  (f_sie o || f_press o || f_cv o || f_bmod o)%bool = true ->
  exists st', FillEos L s junk o st lam = Some st' /\
    s_rho st' = s_rho st /\ s_temp st' = s_temp st /\
    s_sie st' = (if f_sie o then Energy (s_rho st) (s_temp st) lam else s_sie st) /\
    s_press st' = (if f_press o then PressureFromDensityTemperature L s (s_rho st) (s_temp st) lam else s_press st) /\
    s_cv st' = (if f_cv o then SpecificHeatFromDensityTemperature L s (s_rho st) (s_temp st) lam else s_cv st) /\
    (f_bmod o = false -> s_bmod st' = s_bmod st) /\
    (f_bmod o = true -> Rmax (s_bmod st') EPS = BulkModulusFromDensityTemperature L s (s_rho st) (s_temp st) lam).
Proof.
  intros junk [fr ft fs fp fc fb] [r t e p c b] lam H1 H2 H3. cbn in H1, H2, H3. subst fr ft. unfold FillEos. cbn [f_rho f_temp f_sie f_press f_cv f_bmod orb negb].
  cbn [orb] in H3. rewrite H3. cbn [negb].
  eexists. split; [reflexivity|].
  unfold cond_upd, InternalEnergyFromDensityTemperature, PressureFromDensityTemperature, SpecificHeatFromDensityTemperature, BulkModulusFromDensityTemperature, atRhoT.
  destruct fs, fp, fc, fb; cbn; repeat split; try discriminate; try reflexivity; intros _; unfold floor_EPS;
    (case Rlt_bool_spec; intros; [apply Rmax_left|apply Rmax_right]; lra).
Qed.
(** from density and energy the pressure, specific heat and bulk modulus are those of the (density, energy) queries; nothing else changes *)
Theorem C65_FillEos_from_energy : forall junk o st lam, f_rho o = false -> f_temp o = true -> f_sie o = false ->
  exists st', FillEos L s junk o st lam = Some st' /\
    s_rho st' = s_rho st /\ s_sie st' = s_sie st /\
    s_press st' = (if f_press o then PressureFromDensityInternalEnergy L s junk (s_rho st) (s_sie st) lam else s_press st) /\
    s_cv st' = (if f_cv o then SpecificHeatFromDensityInternalEnergy L s junk (s_rho st) (s_sie st) lam else s_cv st) /\
    s_bmod st' = (if f_bmod o then BulkModulusFromDensityInternalEnergy L s junk (s_rho st) (s_sie st) lam else s_bmod st).
Proof.
  intros junk [fr ft fs fp fc fb] [r t e p c b] lam H1 H2 H3. cbn in H1, H2, H3. subst fr ft fs. unfold FillEos. cbn [f_rho f_temp f_sie f_press f_cv f_bmod orb negb].
  eexists. split; [reflexivity|].
  unfold cond_upd, PressureFromDensityInternalEnergy, SpecificHeatFromDensityInternalEnergy, BulkModulusFromDensityInternalEnergy, atRhoSie.
  destruct fp, fc, fb; cbn; repeat split; reflexivity.
Qed.
(** refused: nothing asked for, the density asked for, or both temperature and energy *)
Theorem C65_FillEos_refuses : forall junk o st lam,
  (f_rho o || f_temp o || f_sie o || f_press o || f_cv o || f_bmod o)%bool = false \/ f_rho o = true \/ (f_temp o = true /\ f_sie o = true) <->
  FillEos L s junk o st lam = None.
Proof.
  intros junk [fr ft fs fp fc fb] st lam. unfold FillEos. cbn [f_rho f_temp f_sie f_press f_cv f_bmod].
  destruct fr, ft, fs, fp, fc, fb; cbn; (split; intros H; [first [reflexivity|exfalso; intuition discriminate]|first [discriminate H|intuition]]).
Qed.

(** ** Interpolated tables do not overshoot, and linear relations between tables hold at every state *)
Lemma same_of d : In d [lP_ s; dPdRho_ s; dPdE_ s; dEdT_ s; lBMod_ s; entropy_ s; Xa_ s; Xh_ s; Xn_ s; Xp_ s; Abar_ s; Zbar_ s] ->
  d_Y d = d_Y (lE_ s) /\ d_T d = d_T (lE_ s) /\ d_R d = d_R (lE_ s).
Proof. intros H. exact (proj1 (Forall_forall _ _) (wf_same _ _ W) d H). Qed.
(** the state (rho, T, Ye) is inside the table *)
Definition in_table (rho T : R) (lam : Lam) : Prop :=
  rhoMin L s <= rho <= rhoMax L s /\ TMin L s <= T <= TMax L s /\ YeMin_ s <= l_Ye lam <= YeMax_ s.
Lemma rho_pw l : rho_ L l = pw10 L l.
Proof. unfold rho_, sc_fromLog. assert (X := lp_pos L HL l). cbv zeta. rewrite Rlt_bool_false by lra. ring. Qed.
Lemma in_table_spans rho T lam : tiny <= rhoMin L s -> tiny <= TMin L s -> in_table rho T lam ->
  in_span (d_R (lE_ s)) (lRho_ L rho) /\ in_span (d_T (lE_ s)) (lT_ L T) /\ in_span (d_Y (lE_ s)) (l_Ye lam).
Proof.
  intros H1 H2 (A & B & C). unfold in_span. destruct (wf_T _ _ W) as [<- <-]. destruct (wf_R _ _ W) as [<- <-]. destruct (wf_Y _ _ W) as [<- <-].
  unfold rhoMin, rhoMax, TMin, TMax, T_, sc_fromLog in *. rewrite !rho_pw in *. repeat split; try apply C; unfold lRho_, lT_;
    first [apply (toLog_below L HL)|apply (toLog_above L HL)]; lra.
Qed.
Theorem C65_no_overshoot : forall rho T lam lo hi, tiny <= rhoMin L s -> tiny <= TMin L s -> in_table rho T lam ->
  ((forall i j k, in3 (lE_ s) i j k -> lo <= d_at (lP_ s) i j k <= hi) -> pw10 L lo <= PressureFromDensityTemperature L s rho T lam <= pw10 L hi) /\
  ((forall i j k, in3 (lE_ s) i j k -> lo <= d_at (lE_ s) i j k <= hi) -> pw10 L lo - lEOffset_ s <= Energy rho T lam <= pw10 L hi - lEOffset_ s) /\
  ((forall i j k, in3 (lE_ s) i j k -> EPS <= lo /\ lo <= d_at (dEdT_ s) i j k <= hi) -> lo <= SpecificHeatFromDensityTemperature L s rho T lam <= hi) /\
  ((forall i j k, in3 (lE_ s) i j k -> EPS <= lo /\ lo <= d_at (entropy_ s) i j k <= hi) -> lo <= EntropyFromDensityTemperature L s rho T lam <= hi) /\
  ((forall i j k, in3 (lE_ s) i j k -> lo <= d_at (Abar_ s) i j k <= hi) -> lo <= MeanAtomicMassFromDensityTemperature L s rho T lam <= hi) /\
  ((forall i j k, in3 (lE_ s) i j k -> lo <= d_at (Zbar_ s) i j k <= hi) -> lo <= MeanAtomicNumberFromDensityTemperature L s rho T lam <= hi).
Proof.
  intros rho T lam lo hi H1 H2 IT. destruct (in_table_spans rho T lam H1 H2 IT) as (SR & ST & SY). assert (GG := wf_good _ _ W).
  assert (B : forall d lo hi, d_Y d = d_Y (lE_ s) /\ d_T d = d_T (lE_ s) /\ d_R d = d_R (lE_ s) ->
     (forall i j k, in3 (lE_ s) i j k -> lo <= d_at d i j k <= hi) -> lo <= atRhoT L d rho T lam <= hi).
  { intros d a b (E1 & E2 & E3) Q. unfold atRhoT. apply interp3_bounds; unfold good3, in3 in *; rewrite ?E1, ?E2, ?E3; assumption. }
  assert (Z3 : in3 (lE_ s) 0 0 0). { destruct GG as ([] & [] & []). unfold in3, in_grid. lia. }
  assert (FL : forall v, EPS <= lo -> lo <= v <= hi -> lo <= floor_EPS v <= hi).
  { intros v E V. unfold floor_EPS. case Rlt_bool_spec; intros; lra. }
  assert (PW : forall v off, lo <= v <= hi -> pw10 L lo - off <= sc_fromLog L v off <= pw10 L hi - off).
  { intros v off [V1 V2]. unfold sc_fromLog. apply (pw_incr_le L HL) in V1. apply (pw_incr_le L HL) in V2. lra. }
  refine (conj _ (conj _ (conj _ (conj _ (conj _ _))))); intros Q.
  - unfold PressureFromDensityTemperature, lP2P_. destruct (PW (atRhoT L (lP_ s) rho T lam) 0) as [P1 P2]; [|lra]. apply B; [apply same_of; cbn; tauto|exact Q].
  - unfold InternalEnergyFromDensityTemperature, le2e_. apply PW, B; [repeat split|exact Q].
  - unfold SpecificHeatFromDensityTemperature. destruct (Q 0%Z 0%Z 0%Z Z3) as [E0 _]. apply FL; [exact E0|]. apply B; [apply same_of; cbn; tauto|]. intros i j k I. apply (Q i j k I).
  - unfold EntropyFromDensityTemperature. destruct (Q 0%Z 0%Z 0%Z Z3) as [E0 _]. apply FL; [exact E0|]. apply B; [apply same_of; cbn; tauto|]. intros i j k I. apply (Q i j k I).
  - apply B; [apply same_of; cbn; tauto|exact Q].
  - apply B; [apply same_of; cbn; tauto|exact Q].
Qed.
(** mass fractions: if they sum to one at every entry of the table they sum to one at every state, even off the table; and they stay in
    [0, 1] inside it *)
Theorem C65_mass_fractions : forall rho T lam,
  (forall i j k, in3 (lE_ s) i j k -> d_at (Xa_ s) i j k + d_at (Xh_ s) i j k + d_at (Xn_ s) i j k + d_at (Xp_ s) i j k = 1) ->
  let '(xa, xh, xn, xp, ab, zb) := MassFractionsFromDensityTemperature L s rho T lam in
  xa + xh + xn + xp = 1 /\
  ab = MeanAtomicMassFromDensityTemperature L s rho T lam /\ zb = MeanAtomicNumberFromDensityTemperature L s rho T lam /\
  (tiny <= rhoMin L s -> tiny <= TMin L s -> in_table rho T lam ->
   (forall i j k, in3 (lE_ s) i j k -> 0 <= d_at (Xa_ s) i j k /\ 0 <= d_at (Xh_ s) i j k /\ 0 <= d_at (Xn_ s) i j k /\ 0 <= d_at (Xp_ s) i j k) ->
   0 <= xa <= 1 /\ 0 <= xh <= 1 /\ 0 <= xn <= 1 /\ 0 <= xp <= 1).
Proof.
  intros rho T lam S. unfold MassFractionsFromDensityTemperature. destruct (wf_good _ _ W) as (GY & GT & GR).
  assert (SUM : atRhoT L (Xa_ s) rho T lam + atRhoT L (Xh_ s) rho T lam + atRhoT L (Xn_ s) rho T lam + atRhoT L (Xp_ s) rho T lam = 1).
  { unfold atRhoT, interp3.
    destruct (same_of (Xa_ s) ltac:(cbn; tauto)) as (-> & -> & ->). destruct (same_of (Xh_ s) ltac:(cbn; tauto)) as (-> & -> & ->).
    destruct (same_of (Xn_ s) ltac:(cbn; tauto)) as (-> & -> & ->). destruct (same_of (Xp_ s) ltac:(cbn; tauto)) as (-> & -> & ->).
    assert (ADD : forall g a b x, interp1 g a x + interp1 g b x = interp1 g (fun i => a i + b i) x).
    { intros g a b x. unfold interp1, lerp. ring. }
    rewrite !ADD. rewrite <- (interp1_const (d_Y (lE_ s)) 1 (l_Ye lam)). apply interp1_ext; [exact GY|]. intros i Hi. cbv beta. rewrite !ADD.
    rewrite <- (interp1_const (d_T (lE_ s)) 1 (lT_ L T)). apply interp1_ext; [exact GT|]. intros j Hj. cbv beta. rewrite !ADD.
    rewrite <- (interp1_const (d_R (lE_ s)) 1 (lRho_ L rho)). apply interp1_ext; [exact GR|]. intros k Hk. apply S. unfold in3. auto. }
  split; [exact SUM|]. split; [reflexivity|]. split; [reflexivity|]. intros H1 H2 IT P. destruct (in_table_spans rho T lam H1 H2 IT) as (SR & ST & SY).
  assert (B : forall d, In d [Xa_ s; Xh_ s; Xn_ s; Xp_ s] -> 0 <= atRhoT L d rho T lam <= 1).
  { intros d D. assert (E : d_Y d = d_Y (lE_ s) /\ d_T d = d_T (lE_ s) /\ d_R d = d_R (lE_ s)) by (apply same_of; cbn in *; tauto).
    destruct E as (E1 & E2 & E3). unfold atRhoT. apply interp3_bounds; unfold good3, in3 in *; rewrite ?E1, ?E2, ?E3; try assumption; [tauto|].
    intros i j k I. specialize (P i j k I). specialize (S i j k I). cbn in D. destruct D as [D|[D|[D|[D|[]]]]]; subst d; lra. }
  repeat split; try (apply B; cbn; tauto).
Qed.
End Queries.
Print Assumptions C65_clamped_to_table.
Print Assumptions C65_temperature_from_energy.
Print Assumptions C65_temperature_at_nodes.
Print Assumptions C65_round_trip.
Print Assumptions C65_entry_points_agree.
Print Assumptions C65_floors.
Print Assumptions C65_lambda.
Print Assumptions C65_density_from_pressure.
Print Assumptions C65_FillEos_from_temperature.
Print Assumptions C65_FillEos_from_energy.
Print Assumptions C65_FillEos_refuses.
Print Assumptions C65_no_overshoot.
Print Assumptions C65_mass_fractions.
