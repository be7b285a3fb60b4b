(** C78: the vector calls of the EOSPAC class *)
From Coq Require Import ZArith Reals List Bool Lra Lia.
From Flocq Require Import Core.
From Coquelicot Require Import Coquelicot.
From Verif Require Import Robust_Model Thermo_Spec Thermo_Tools Sesame_Model Sesame_Spec Sesame_Tables_Props Vector_Model Vector_Spec Eospac_Model Eospac_Spec Eospac_Props.
Import ListNotations.
Local Open Scope R_scope.
Notation M := (Vector_Model.mem R).

(** ** Memory *)
Lemma wr_in a n v (m : M) i : (i < n)%nat -> rd (wr a n v m) a i = v i.
Proof.
  intros H. unfold rd, wr. rewrite (proj2 (Z.leb_le _ _)), (proj2 (Z.ltb_lt _ _)) by lia. cbn [andb]. f_equal. lia.
Qed.
Lemma wr_frame a n v (m : M) x : ~ inarr a n x -> wr a n v m x = m x.
Proof.
  intros H. unfold wr. destruct (Z.leb_spec a x) as [L|L]; [|reflexivity]. destruct (Z.ltb_spec x (a + Z.of_nat n)) as [L2|L2]; [|reflexivity].
  exfalso. apply H. exists (Z.to_nat (x - a)). split; lia.
Qed.
(** arrays of n cells at a and b that do not overlap *)
Definition apart (n : nat) (a b : Z) : Prop := (a + Z.of_nat n <= b \/ b + Z.of_nat n <= a)%Z.
Lemma wr_out a n v (m : M) b i : (i < n)%nat -> apart n a b -> rd (wr a n v m) b i = rd m b i.
Proof. intros H A. unfold rd. apply wr_frame. intros [j [Hj E]]. unfold apart in A. lia. Qed.
Lemma disj_apart n a b : (0 < n)%nat -> Vector_Spec.disj a n b n -> apart n a b.
Proof.
  intros H D. unfold apart. destruct (Z_le_gt_dec (a + Z.of_nat n) b) as [L|L]; [left; exact L|]. destruct (Z_le_gt_dec (b + Z.of_nat n) a) as [L2|L2]; [right; exact L2|].
  exfalso. destruct (Z_le_gt_dec a b) as [L3|L3].
  - apply (D b); [exists (Z.to_nat (b - a)); split; lia|exists 0%nat; split; lia].
  - apply (D a); [exists 0%nat; split; lia|exists (Z.to_nat (a - b)); split; lia].
Qed.
Lemma disj_buf n a s k j : (0 < n)%nat -> Vector_Spec.disj a n s (k * n) -> (j < k)%nat -> apart n a (buf s n j).
Proof.
  intros H D J. apply disj_apart; [exact H|]. intros x Hx [i [Hi E]]. apply (D x Hx). unfold buf in E. exists (j * n + i)%nat. split; [|lia].
  assert (S j * n <= k * n)%nat by (apply Nat.mul_le_mono_r; lia). lia.
Qed.
Lemma apart_sym n a b : apart n a b -> apart n b a.
Proof. unfold apart. intros [H|H]; [right|left]; exact H. Qed.
Lemma buf_apart n s j k : j <> k -> apart n (buf s n j) (buf s n k).
Proof.
  intros H. unfold apart, buf. destruct (Nat.lt_ge_cases j k) as [L|L].
  - left. assert (S j * n <= k * n)%nat by (apply Nat.mul_le_mono_r; lia). lia.
  - right. assert (S k * n <= j * n)%nat by (apply Nat.mul_le_mono_r; lia). lia.
Qed.
Lemma buf_in n s j k x : (j < k)%nat -> inarr (buf s n j) n x -> inarr s (k * n) x.
Proof.
  intros J [i [Hi E]]. unfold buf in E. exists (j * n + i)%nat. split; [|lia]. assert (S j * n <= k * n)%nat by (apply Nat.mul_le_mono_r; lia). lia.
Qed.
(** reads through writes *)
Ltac sep := first [assumption | apply apart_sym; assumption | apply buf_apart; discriminate | lia ].
Ltac reads := cbv beta; repeat (first [rewrite wr_in by assumption | rewrite wr_out by sep]; cbv beta).

(** ** Options *)
Lemma div_inv x y : y <> 0 -> x / (1 / y) = y * x. Proof. intros H. field. exact H. Qed.
Section Opts.
Variable t : trans.
Hypothesis G : good_trans t.
Lemma gx : 0 < get (t_x t). Proof. destruct G as [H _]. destruct (t_x t); cbn in *; lra. Qed.
Lemma gy : 0 < get (t_y t). Proof. destruct G as [_ H]. destruct (t_y t); cbn in *; lra. Qed.
Definition noXY (l : list opt) : Prop := forall o, In o l -> match o with Xconv _ | Yconv _ => False | _ => True end.
Lemma cx_app l l' : noXY l' -> cx (l ++ l') = cx l.
Proof.
  intros H. induction l as [|o l IH]; [cbn|destruct o; cbn; auto].
  induction l' as [|o l' IH]; [reflexivity|]. assert (K := H o (or_introl eq_refl)). destruct o; cbn; try contradiction; apply IH; intros q Hq; apply H; right; exact Hq.
Qed.
Lemma cy_app l l' : noXY l' -> cy (l ++ l') = cy l.
Proof.
  intros H. induction l as [|o l IH]; [cbn|destruct o; cbn; auto].
  induction l' as [|o l' IH]; [reflexivity|]. assert (K := H o (or_introl eq_refl)). destruct o; cbn; try contradiction; apply IH; intros q Hq; apply H; right; exact Hq.
Qed.
Lemma noXY_1 : noXY (OutputOption t). Proof. unfold OutputOption. destruct (is_set (t_f t)); [intros o [<-|[]]; exact I|intros o []]. Qed.
Lemma noXY_2 c : noXY (OutputOption2 t c). Proof. intros o [<-|[]]; exact I. Qed.
Lemma dt_cx : cx (DensityTemperatureOptions t) = 1 / get (t_x t).
Proof. unfold DensityTemperatureOptions. destruct (t_x t), (t_y t); cbn; try reflexivity; field. Qed.
Lemma dt_cy : cy (DensityTemperatureOptions t) = 1 / get (t_y t).
Proof. unfold DensityTemperatureOptions. destruct (t_x t), (t_y t); cbn; try reflexivity; field. Qed.
Lemma dt_cf l : cf (DensityTemperatureOptions t ++ l) = cf l.
Proof. unfold DensityTemperatureOptions. destruct (t_x t), (t_y t); reflexivity. Qed.
Lemma de_cx : cx (DensityEnergyOptions t) = 1 / get (t_x t).
Proof. unfold DensityEnergyOptions. destruct (t_x t), (t_y t); cbn -[pow]; try reflexivity; destruct (Req_bool _ _); cbn; field. Qed.
Lemma de_cy : cy (DensityEnergyOptions t) = 10 ^ 10 / get (t_y t).
Proof.
  assert (Y := gy). unfold DensityEnergyOptions. sesame. destruct (t_x t), (t_y t); cbn -[pow] in *.
  - field. lra.
  - field.
  - destruct (Req_bool_spec (10 ^ 10 * 1 / r) 1) as [E|E]; cbn -[pow]; [rewrite <- E|]; field; lra.
  - destruct (Req_bool_spec (10 ^ 10 * 1) 1) as [E|E]; cbn -[pow]; lra.
Qed.
Lemma de_cf l : cf (DensityEnergyOptions t ++ l) = cf l.
Proof. unfold DensityEnergyOptions. destruct (t_x t), (t_y t); cbn -[pow]; try reflexivity; destruct (Req_bool _ _); reflexivity. Qed.
Lemma o1_cf : cf (OutputOption t) = get (t_f t). Proof. unfold OutputOption. destruct (t_f t); reflexivity. Qed.
Lemma o2_cf c : cf (OutputOption2 t c) = 10 ^ 10 * get (t_f t).
Proof. unfold OutputOption2. sesame. destruct (t_f t); cbn [is_set get cf]; ring. Qed.
Lemma d_cx : cx (DensityOption t) = 1 / get (t_x t).
Proof. unfold DensityOption. destruct (t_x t); cbn; [reflexivity|field]. Qed.
Lemma d_cy : cy (DensityOption t) = 1. Proof. unfold DensityOption. destruct (t_x t); reflexivity. Qed.
Lemma d_cf : cf (DensityOption t) = 1. Proof. unfold DensityOption. destruct (t_x t); reflexivity. Qed.
Lemma set_get f : (if is_set f then get f else 1) = get f. Proof. destruct f; reflexivity. Qed.
Lemma set_get' f : (if is_set f then 1 / get f else 1) = 1 / get f. Proof. destruct f; cbn; [reflexivity|field]. Qed.
End Opts.

Section Vec.
Variables (p : eospac) (t : trans).
Hypothesis G : good_trans t.
Notation x := (get (t_x t)).
Notation y := (get (t_y t)).
Notation f := (get (t_f t)).
Lemma i_dt tab l rho T : noXY l -> i_f tab (DensityTemperatureOptions t ++ l) rho T = cf l * et tab (x * rho) (y * T).
Proof.
  intros H. assert (X := gx t G). assert (Y := gy t G). unfold i_f. rewrite dt_cf, cx_app, cy_app, dt_cx, dt_cy by exact H. rewrite !div_inv by lra. reflexivity.
Qed.
Lemma i_de tab l rho e : noXY l -> i_f tab (DensityEnergyOptions t ++ l) rho e = cf l * et tab (x * rho) (/ 10 ^ 10 * (y * e)).
Proof.
  intros H. assert (X := gx t G). assert (Y := gy t G). unfold i_f. rewrite de_cf, cx_app, cy_app, de_cx, (de_cy t G) by exact H. rewrite div_inv by lra.
  replace (e / (10 ^ 10 / y)) with (/ 10 ^ 10 * (y * e)) by (field; lra). reflexivity.
Qed.
Lemma i_de0 tab rho e : i_f tab (DensityEnergyOptions t) rho e = et tab (x * rho) (/ 10 ^ 10 * (y * e)).
Proof. rewrite <- (app_nil_r (DensityEnergyOptions t)), i_de by (intros o []). cbn. ring. Qed.
Lemma i_dt0 tab rho T : i_f tab (DensityTemperatureOptions t) rho T = et tab (x * rho) (y * T).
Proof. rewrite <- (app_nil_r (DensityTemperatureOptions t)), i_dt by (intros o []). cbn. ring. Qed.
Lemma dt_dx tab rho T : i_dx tab (DensityTemperatureOptions t) rho T = x * et_x tab (x * rho) (y * T).
Proof.
  assert (X := gx t G). assert (Y := gy t G). unfold i_dx. rewrite <- (app_nil_r (DensityTemperatureOptions t)), dt_cf, app_nil_r, dt_cx, dt_cy. cbn [cf].
  rewrite !div_inv by lra. ring.
Qed.
Lemma dt_dy tab rho T : i_dy tab (DensityTemperatureOptions t) rho T = y * et_y tab (x * rho) (y * T).
Proof.
  assert (X := gx t G). assert (Y := gy t G). unfold i_dy. rewrite <- (app_nil_r (DensityTemperatureOptions t)), dt_cf, app_nil_r, dt_cx, dt_cy. cbn [cf].
  rewrite !div_inv by lra. ring.
Qed.
Lemma d_f tab rho T : i_f tab (DensityOption t) rho T = et tab (x * rho) T.
Proof. assert (X := gx t G). unfold i_f. rewrite d_cx, d_cy, d_cf, div_inv by lra. rewrite Rmult_1_l. f_equal. field. Qed.
Lemma d_dx tab rho T : i_dx tab (DensityOption t) rho T = x * et_x tab (x * rho) T.
Proof. assert (X := gx t G). unfold i_dx. rewrite d_cx, d_cy, d_cf, !div_inv by lra. rewrite Rmult_1_r. do 2 f_equal. field. Qed.
Lemma d_dy tab rho T : i_dy tab (DensityOption t) rho T = et_y tab (x * rho) T.
Proof. assert (X := gx t G). unfold i_dy. rewrite d_cx, d_cy, d_cf, div_inv by lra. replace (1 / 1) with 1 by field. rewrite Rmult_1_l. f_equal. field. Qed.
Lemma bmod_same rho PRESS DPDR DPDT DEDR DEDT c : 0 < c ->
  bmod_x x rho PRESS (x * DPDR) (c * DPDT) (x * DEDR) (c * DEDT) = bmod_sesame (x * rho) PRESS DPDR DPDT DEDR DEDT.
Proof.
  intros C. assert (X := gx t G). unfold bmod_x, bmod_sesame.
  assert (B1 : Rlt_bool 0 (c * DEDT) = Rlt_bool 0 DEDT) by (destruct (Rlt_bool_spec 0 DEDT); [apply Rlt_bool_true|apply Rlt_bool_false]; nra).
  assert (B2 : Rlt_bool 0 (x * rho) = Rlt_bool 0 rho) by (destruct (Rlt_bool_spec 0 rho); [apply Rlt_bool_true|apply Rlt_bool_false]; nra).
  rewrite B1, B2. destruct (Rlt_bool_spec 0 DEDT) as [L|L]; destruct (Rlt_bool_spec 0 rho) as [L2|L2]; cbn [andb]; try reflexivity.
  - field. repeat split; lra.
  - f_equal. ring.
Qed.
(** A vector call gives every element the scalar answer at the density and input scaled by the Transform, times the output factor; it writes
    only the output array and as much scratch as scratch_size advertises. *)
Theorem C78_vector_calls : forall u q in1 in2 out scratch n (m : M), q <> SofE -> one_input (EcofD p) -> storage in1 in2 out scratch n (scratch_size (Some q) n) ->
  exists m', vector p q in1 in2 out scratch n t m = Some m' /\
  (forall i v, (i < n)%nat -> query p u q (x * rd m in1 i) (y * rd m in2 i) = Some v -> rd m' out i = f * v) /\
  (forall a, ~ inarr out n a -> ~ inarr scratch (scratch_size (Some q) n) a -> m' a = m a).
Proof.
  intros u q in1 in2 out scratch n m HQ HE (D1 & D2 & D3 & D4 & D5). cbn [scratch_size] in *. assert (X := gx t G). assert (Y := gy t G).
  assert (BI : forall j a, (j < nbuffers q)%nat -> ~ inarr scratch (nbuffers q * n) a -> ~ inarr (buf scratch n j) n a) by (intros j a J N K; apply N; exact (buf_in _ _ _ _ _ J K)).
  assert (A1 : (0 < n)%nat -> apart n in1 out) by (intros; apply disj_apart; assumption).
  assert (A2 : (0 < n)%nat -> apart n in2 out) by (intros; apply disj_apart; assumption).
  assert (B1 : forall j, (0 < n)%nat -> (j < nbuffers q)%nat -> apart n in1 (buf scratch n j)) by (intros j N J; exact (disj_buf _ _ _ _ _ N D3 J)).
  assert (B2 : forall j, (0 < n)%nat -> (j < nbuffers q)%nat -> apart n in2 (buf scratch n j)) by (intros j N J; exact (disj_buf _ _ _ _ _ N D4 J)).
  assert (B3 : forall j, (0 < n)%nat -> (j < nbuffers q)%nat -> apart n out (buf scratch n j)) by (intros j N J; exact (disj_buf _ _ _ _ _ N D5 J)).
  destruct q; try congruence; cbn [nbuffers] in *; (eexists; split; [reflexivity|]);
    (split; [intros i v Hi Q; assert (N : (0 < n)%nat) by lia; specialize (A1 N); specialize (A2 N); specialize (fun j => B1 j N); specialize (fun j => B2 j N); specialize (fun j => B3 j N)
            |intros a Ha Hs; unfold interp, loop; rewrite !wr_frame by (first [exact Ha|apply BI; [lia|exact Hs]]); reflexivity]);
    unfold interp, loop.
  all: assert (B10 := B1 0%nat ltac:(lia)); assert (B20 := B2 0%nat ltac:(lia)); assert (B30 := B3 0%nat ltac:(lia)).
  all: try (assert (B11 := B1 1%nat ltac:(lia)); assert (B21 := B2 1%nat ltac:(lia)); assert (B31 := B3 1%nat ltac:(lia))).
  all: try (assert (B12 := B1 2%nat ltac:(lia)); assert (B22 := B2 2%nat ltac:(lia)); assert (B32 := B3 2%nat ltac:(lia))).
  all: try (assert (B13 := B1 3%nat ltac:(lia)); assert (B23 := B2 3%nat ltac:(lia)); assert (B33 := B3 3%nat ltac:(lia))).
  all: try (assert (B14 := B1 4%nat ltac:(lia)); assert (B24 := B2 4%nat ltac:(lia)); assert (B34 := B3 4%nat ltac:(lia))).
  all: try (assert (B15 := B1 5%nat ltac:(lia)); assert (B25 := B2 5%nat ltac:(lia)); assert (B35 := B3 5%nat ltac:(lia))).
  all: clear B1 B2 B3 D1 D2 D3 D4 D5 BI; reads; cbn [query] in Q; set (r := rd m in1 i) in *; set (z := rd m in2 i) in *; clearbody r z.
  - (* T *) inversion Q. unfold T_e. sesame. rewrite i_de by apply noXY_1. rewrite o1_cf. reflexivity.
  - (* P(T) *) inversion Q. unfold P_T. sesame. rewrite i_dt by apply noXY_2. rewrite o2_cf. ring.
  - (* P(e) *) inversion Q. unfold P_e, i_f. cbn [cf cx cy]. sesame. change (f * _) with (f * (10 ^ 10 * 1 * et (PofRE p) (x * r / 1) (y * z / (10 ^ 10 * 1)))).
    fold (i_f (PofRE p) (DensityEnergyOptions t ++ OutputOption2 t (10 ^ 10 * 1)) r z). rewrite i_de by apply noXY_2. rewrite o2_cf.
    replace (x * r / 1) with (x * r) by field. replace (y * z / (10 ^ 10 * 1)) with (/ 10 ^ 10 * (y * z)) by (field; lra). ring.
  - (* Emin *) inversion Q. unfold E_min. rewrite i_dt by apply noXY_2. rewrite o2_cf. unfold i_f. cbn [cf cx cy]. sesame. replace (x * r / 1) with (x * r) by field. rewrite (HE (x * r) (y * r) (s_sie u / 1)). ring.
  - (* cv(T) *) rewrite dt_dy, set_get, set_get'. unfold C_T, FillEos, fill_rest in Q. cbn -[pow] in Q. sesame. inversion Q.
    set (d := et_y (EofRT p) (x * r) (y * z)). replace (Rmax (y * d) 0) with (y * Rmax d 0) by (rewrite <- RmaxRmult by lra; f_equal; ring). field. lra.
  - (* cv(e) *) rewrite d_dy, i_de0, set_get. unfold C_e, C_T, FillEos, fill_rest, T_e in Q. cbn -[pow] in Q. sesame. inversion Q. reflexivity.
  - (* B(T) *) rewrite !dt_dx, !dt_dy, i_dt0, !set_get, bmod_same by exact Y. unfold B_T, FillEos, fill_rest in Q. cbn -[pow bmod_sesame] in Q. sesame. inversion Q. reflexivity.
  - (* B(e) *) rewrite !d_dx, !d_dy, !d_f, i_de0, !set_get.
    assert (K := fun a b c d e => bmod_same r a b c d e 1 Rlt_0_1). setoid_rewrite Rmult_1_l in K. rewrite K.
    unfold B_e, B_T, FillEos, fill_rest, T_e in Q. cbn -[pow bmod_sesame] in Q. sesame. inversion Q. reflexivity.
  - (* G(T) *) rewrite !dt_dy, !set_get. inversion Q. unfold G_T. sesame. cbv zeta. do 4 f_equal.
    unfold Rdiv. rewrite Rinv_mult. 
    destruct (Req_dec (et_y (EofRT p) (x * r) (y * z)) 0) as [E|E]; [rewrite E, Rinv_0; ring|field; split; [exact E|lra]].
  - (* G(e) *) rewrite !d_dy, i_de0, !set_get. inversion Q. unfold G_e, G_T, T_e. sesame. reflexivity.
  - (* E *) unfold E_T, FillEos, fill_rest in Q. cbn -[pow] in Q. sesame. inversion Q. rewrite i_dt by apply noXY_2. rewrite o2_cf. ring.
  - (* S *) unfold S_T in Q. destruct (entropy_available p); [|discriminate]. sesame. inversion Q. rewrite i_dt by apply noXY_2. rewrite o2_cf. ring.
Qed.
End Vec.

Notation FoldMax := (fold_right Nat.max 0%nat).
(** The largest advertised scratch is enough for every call, and is what one of the calls needs. *)
Theorem C78_max_scratch : forall n, (forall q, (scratch_size q n <= max_scratch_size n)%nat) /\ exists q, scratch_size q n = max_scratch_size n.
Proof.
  intros n. split; [|exists (Some BofT); reflexivity]. intros q. change (max_scratch_size n) with (6 * n)%nat. destruct q as [q|]; [destruct q|]; cbn [scratch_size nbuffers]; unfold fill_nbuffers; lia.
Qed.

Lemma FOP_inv {A} (P : A -> A -> Prop) a l : ForallOrdPairs P (a :: l) -> List.Forall (P a) l /\ ForallOrdPairs P l.
Proof. intros H. inversion H. split; assumption. Qed.
Ltac split_forall := repeat match goal with
  | H : ForallOrdPairs _ (_ :: _) |- _ => apply FOP_inv in H; destruct H
  | H : ForallOrdPairs _ [] |- _ => clear H
  | H : List.Forall _ (_ :: _) |- _ => apply Forall_cons_iff in H; destruct H
  | H : List.Forall _ [] |- _ => clear H
  end.
(** ** FillEos on arrays *)
Section VFill.
Variables (m0 : material) (p : eospac).
Hypothesis V : view m0 p.
Variables (rhos temps energies presses cvs bmods : Z).
(** element i of the six arrays *)
Definition st (m : M) (i : nat) : fstate := mkS (rd m rhos i) (rd m temps i) (rd m energies i) (rd m presses i) (rd m cvs i) (rd m bmods i).
(** what the call may write besides scratch: the requested arrays, and also the energies when the specific heat or bulk modulus is wanted and the
    pressures when the bulk modulus is *)
Definition touched (o : flags) : list Z :=
  (if f_rho o then [rhos] else []) ++ (if f_temp o then [temps] else []) ++ (if (f_sie o || (f_cv o || f_bmod o))%bool then [energies] else []) ++
  (if (f_press o || f_bmod o)%bool then [presses] else []) ++ (if f_cv o then [cvs] else []) ++ (if f_bmod o then [bmods] else []).
Theorem C78_vector_fill : forall u o scratch n (m : M), any o = true ->
  fill_storage [rhos; temps; energies; presses; cvs; bmods] scratch n (scratch_size None n) ->
  (exists s rho T, determines m0 o s rho T) ->
  exists m', vfill p o rhos temps energies presses cvs bmods scratch n m = Some m' /\
  (forall i rho T, (i < n)%nat -> determines m0 o (st m i) rho T -> values_at p u o rho T (st m' i)) /\
  (forall a, (forall b, In b (touched o) -> ~ inarr b n a) -> ~ inarr scratch (scratch_size None n) a -> m' a = m a).
Proof.
  intros u o scratch n m HA (FO & FS) DET. unfold scratch_size, fill_nbuffers in *.
  assert (BI : forall j a, (j < 4)%nat -> ~ inarr scratch (4 * n) a -> ~ inarr (buf scratch n j) n a) by (intros j a J N K; apply N; exact (buf_in _ _ _ _ _ J K)).
  assert (AA : (0 < n)%nat -> ForallOrdPairs (apart n) [rhos; temps; energies; presses; cvs; bmods]).
  { intros N. clear - N FO. induction FO as [|a l H H1 IH]; constructor; [|exact IH]. revert H. apply Forall_impl. intros b. apply disj_apart. exact N. }
  assert (AB : (0 < n)%nat -> forall j, (j < 4)%nat -> List.Forall (fun a => apart n a (buf scratch n j)) [rhos; temps; energies; presses; cvs; bmods]).
  { intros N j J. revert FS. apply Forall_impl. intros b D. exact (disj_buf _ _ _ _ _ N D J). }
  clear FO FS. unfold vfill. rewrite HA. cbv zeta.
  assert (K : exists m1 m2, vfill_rho p o rhos temps presses (buf scratch n 0) (buf scratch n 1) n m = Some m1 /\ vfill_temp p o rhos temps energies presses (buf scratch n 0) (buf scratch n 1) n m1 = Some m2 /\
     (forall i rho T, (i < n)%nat -> determines m0 o (st m i) rho T -> rd m2 rhos i = rho /\ rd m2 temps i = T) /\
     (forall a, (f_rho o = true -> ~ inarr rhos n a) -> (f_temp o = true -> ~ inarr temps n a) -> ~ inarr scratch (4 * n) a -> m2 a = m a)).
  { assert (FR : forall m' : M, forall tab l X Y F, (forall a, (f_rho o = true -> ~ inarr rhos n a) -> (f_temp o = true -> ~ inarr temps n a) -> ~ inarr F n a) ->
        (forall a, (f_rho o = true -> ~ inarr rhos n a) -> (f_temp o = true -> ~ inarr temps n a) -> ~ inarr scratch (4 * n) a -> interp tab l n X Y F (buf scratch n 0) (buf scratch n 1) m' a = m' a)).
    { intros m' tab l X Y F HF a H1 H2 H3. unfold interp. rewrite !wr_frame; [reflexivity|apply HF; assumption|apply BI; [lia|exact H3]|apply BI; [lia|exact H3]]. }
    unfold vfill_rho, vfill_temp. destruct DET as (s & r0 & T0 & [A B|A B C|A B C|A B C D]).
    - rewrite A, B. exists m, m. split; [reflexivity|]. split; [reflexivity|]. split; [|reflexivity]. intros i rho T Hi Q. inversion Q; try congruence. split; reflexivity.
    - rewrite A, B, C. cbn [negb andb]. eexists. eexists. split; [reflexivity|]. split; [reflexivity|]. split.
      + intros i rho T Hi Q. inversion Q; try congruence. subst rho T. assert (N : (0 < n)%nat) by lia. specialize (AA N). 
        assert (AB0 := AB N 0%nat ltac:(lia)). assert (AB1 := AB N 1%nat ltac:(lia)). split_forall. unfold interp. split; reads; [|reflexivity].
        unfold i_f. cbn [cf cx cy]. sesame. rewrite (v_R _ _ V). cbn [st s_press s_temp]. rewrite Rmult_1_l. f_equal; field; lra.
      + intros a H1 H2 H3. apply FR; [intros b G _; apply G; exact A|intros X; apply H1; congruence|intros X; congruence|exact H3].
    - rewrite A, B, C. cbn [negb andb]. eexists. eexists. split; [reflexivity|]. split; [reflexivity|]. split.
      + intros i rho T Hi Q. inversion Q; try congruence. subst rho T. assert (N : (0 < n)%nat) by lia. specialize (AA N). 
        assert (AB0 := AB N 0%nat ltac:(lia)). assert (AB1 := AB N 1%nat ltac:(lia)). split_forall. unfold interp. split; reads; [reflexivity|].
        unfold i_f. cbn [cf cx cy]. sesame. destruct (ev_T _ _ _ _ (v_base _ _ V) (rd m rhos i / 1) (rd m energies i / (10 ^ 10 * 1))) as (-> & _ & _).
        cbn [st s_rho s_sie]. rewrite Rmult_1_l. f_equal; field; lra.
      + intros a H1 H2 H3. apply FR; [intros b _ G; apply G; exact B|intros X; congruence|intros X; apply H2; congruence|exact H3].
    - rewrite A, B, C, D. cbn [negb andb]. eexists. eexists. split; [reflexivity|]. split; [reflexivity|]. split.
      + intros i rho T Hi Q. inversion Q; try congruence. subst rho T. assert (N : (0 < n)%nat) by lia. specialize (AA N). 
        assert (AB0 := AB N 0%nat ltac:(lia)). assert (AB1 := AB N 1%nat ltac:(lia)). split_forall. unfold interp. split; reads; [reflexivity|].
        unfold i_f. cbn [cf cx cy]. sesame. rewrite (v_TP _ _ V). cbn [st s_rho s_press]. rewrite Rmult_1_l. f_equal; field; lra.
      + intros a H1 H2 H3. apply FR; [intros b _ G; apply G; exact B|intros X; congruence|intros X; apply H2; congruence|exact H3]. }
  destruct K as (m1 & m2 & K1 & K2 & K3 & K4). rewrite K1, K2. clear K1 K2. eexists. split; [reflexivity|]. split.
  - intros i rho T Hi Q. destruct (K3 i rho T Hi Q) as [K5 K6]. clear K3 K4.
    assert (N : (0 < n)%nat) by lia. specialize (AA N). assert (AB0 := AB N 0%nat ltac:(lia)). assert (AB1 := AB N 1%nat ltac:(lia)). assert (AB2 := AB N 2%nat ltac:(lia)). assert (AB3 := AB N 3%nat ltac:(lia)).
    clear AB BI. split_forall.
    assert (VE := ev_E _ _ _ _ (v_base _ _ V) rho T). assert (VP := ev_P _ _ _ _ (v_base _ _ V) rho T).
    assert (I1 : forall tab x y, i_f tab [Fconv (10 ^ 10 * 1)] x y = 10 ^ 10 * et tab x y).
    { intros tab x y. unfold i_f. cbn [cf cx cy]. rewrite Rmult_1_r. do 2 f_equal; field. }
    assert (I2 : forall tab x y, i_dx tab [Fconv (10 ^ 10 * 1)] x y = 10 ^ 10 * et_x tab x y).
    { intros tab x y. unfold i_dx. cbn [cf cx cy]. replace (10 ^ 10 * 1 / 1) with (10 ^ 10) by field. do 2 f_equal; field. }
    assert (I3 : forall tab x y, i_dy tab [Fconv (10 ^ 10 * 1)] x y = 10 ^ 10 * et_y tab x y).
    { intros tab x y. unfold i_dy. cbn [cf cx cy]. replace (10 ^ 10 * 1 / 1) with (10 ^ 10) by field. do 2 f_equal; field. }
    unfold values_at, st. rewrite (q_E m0 p V), (q_P m0 p V), (q_C m0 p V), (q_B m0 p V). cbn [s_rho s_temp s_sie s_press s_cv s_bmod].
    unfold interp, loop. sesame. destruct VE as (VE1 & VE2 & VE3). destruct VP as (VP1 & VP2 & VP3).
    assert (BM : bmod_sesame rho (P m0 rho T) (P_r m0 rho T) (P_t m0 rho T) (E_r m0 rho T) (E_t m0 rho T) = modulus_value m0 rho T) by reflexivity.
    destruct (f_sie o), (f_press o), (f_cv o), (f_bmod o); cbn [orb]; refine (conj _ (conj _ (conj _ (conj _ (conj _ _))))); try discriminate; intros _; reads;
      rewrite ?I1, ?I2, ?I3, ?K5, ?K6, ?VE1, ?VE2, ?VE3, ?VP1, ?VP2, ?VP3, ?s10, ?BM; reflexivity.
  - intros a Ha Hs. unfold touched in Ha.
    assert (H2 : m2 a = m a). { apply K4; [| |exact Hs]; intros E; apply Ha; rewrite E; rewrite !in_app_iff; cbn [In]; tauto. }
    rewrite <- H2. clear H2 K3 K4.
    destruct (f_sie o), (f_press o), (f_cv o), (f_bmod o); cbn [orb] in *; unfold interp, loop;
      rewrite ?wr_frame by (first [apply BI; [lia|exact Hs] | apply Ha; rewrite !in_app_iff; cbn [In]; tauto]); reflexivity.
Qed.
End VFill.

(** ** Energy shift over EOSPAC *)
Lemma sub_disj a n s k j l : Vector_Spec.disj a n s k -> (j + l <= k)%nat -> Vector_Spec.disj a n (s + Z.of_nat j)%Z l.
Proof. intros D H x Hx [i [Hi E]]. apply (D x Hx). exists (j + i)%nat. split; lia. Qed.
Lemma buf1 s n : buf s n 1 = (s + Z.of_nat n)%Z.
Proof. unfold buf. f_equal. lia. Qed.
(** ShiftedEOS<EOSPAC>: every vector call but the minimum energy gives the scalar answer of the shifted material within the advertised scratch. *)
Theorem C78_shifted_vector_calls : forall p u sh q in1 in2 out scratch n (m : M), q <> SofE -> q <> MinE -> one_input (EcofD p) ->
  storage in1 in2 out scratch n (modifier_scratch_size q n) ->
  exists m', shifted_vector p sh q in1 in2 out scratch n m = Some m' /\
  (forall i v, (i < n)%nat -> shifted_query (query p u) sh q (rd m in1 i) (rd m in2 i) = Some v -> rd m' out i = v) /\
  (forall a, ~ inarr out n a -> ~ inarr scratch (modifier_scratch_size q n) a -> m' a = m a).
Proof.
  intros p u sh q in1 in2 out scratch n m HS HM HO (D1 & D2 & D3 & D4 & D5).
  set (none := mkTr None None None). assert (GT : good_trans none) by (split; exact I).
  destruct (fromE q) eqn:FE.
  - (* energy input *)
    assert (SZ : modifier_scratch_size q n = (scratch_size (Some q) n + n)%nat) by (unfold modifier_scratch_size; rewrite FE; reflexivity).
    rewrite SZ in *. set (m1 := loop scratch n (fun i m => rd m in2 i - sh) m).
    assert (EQ : shifted_vector p sh q in1 in2 out scratch n m = vector p q in1 scratch out (buf scratch n 1) n none m1) by (destruct q; try discriminate; reflexivity).
    assert (EQ2 : shifted_query (query p u) sh q = fun rho x => query p u q rho (x - sh)) by (destruct q; try discriminate; reflexivity).
    rewrite EQ, EQ2.
    assert (ST : storage in1 scratch out (buf scratch n 1) n (scratch_size (Some q) n)).
    { rewrite buf1. split; [exact D1|]. split; [|split; [|split]].
      - intros a Ha Hb. apply (D5 a Hb). destruct Ha as [i [Hi Ea]]. exists i. split; [lia|exact Ea].
      - apply (sub_disj _ _ _ _ _ _ D3). lia.
      - intros a [i [Hi Ea]] [j [Hj Eb]]. lia.
      - apply (sub_disj _ _ _ _ _ _ D5). lia. }
    destruct (C78_vector_calls p none GT u q in1 scratch out (buf scratch n 1) n m1 HS HO ST) as (m' & E1 & E2 & E3).
    exists m'. split; [exact E1|]. split.
    + intros i v Hi Q. specialize (E2 i v Hi). cbn [get t_x t_y t_f none] in E2. rewrite !Rmult_1_l in E2. apply E2.
      assert (R1 : rd m1 in1 i = rd m in1 i).
      { unfold m1, loop, rd. apply wr_frame. intros [j [Hj Ej]]. apply (D3 (in1 + Z.of_nat i)%Z); [exists i; split; [lia|reflexivity]|exists j; split; [lia|exact Ej]]. }
      assert (R2 : rd m1 scratch i = rd m in2 i - sh) by (unfold m1, loop; apply wr_in; exact Hi).
      rewrite R1, R2. exact Q.
    + intros a Ha Hs. rewrite E3; [|exact Ha|].
      * unfold m1, loop. apply wr_frame. intros [j [Hj Ej]]. apply Hs. exists j. split; [lia|exact Ej].
      * rewrite buf1. intros [j [Hj Ej]]. apply Hs. exists (n + j)%nat. split; lia.
  - assert (SZ : modifier_scratch_size q n = scratch_size (Some q) n) by (unfold modifier_scratch_size; rewrite FE; lia).
    rewrite SZ in *. destruct (C78_vector_calls p none GT u q in1 in2 out scratch n m HS HO (conj D1 (conj D2 (conj D3 (conj D4 D5))))) as (m' & E1 & E2 & E3).
    cbn [get t_x t_y t_f none] in E2.
    destruct q; try discriminate; try congruence; cbn [shifted_vector shifted_query fromE];
      try (exists m'; split; [exact E1|]; split; [intros i v Hi Q; specialize (E2 i v Hi); rewrite !Rmult_1_l in E2; exact (E2 Q)|exact E3]).
    fold none. rewrite E1. eexists. split; [reflexivity|]. split.
    + intros i v Hi Q. unfold loop. rewrite wr_in by exact Hi. destruct (query p u EofT (rd m in1 i) (rd m in2 i)) as [w|] eqn:QW; [|discriminate]. inversion Q. subst v.
      f_equal. specialize (E2 i w Hi). rewrite !Rmult_1_l in E2. exact (E2 QW).
    + intros a Ha Hs. unfold loop. rewrite wr_frame by exact Ha. apply E3; assumption.
Qed.
Print Assumptions C78_vector_calls.
Print Assumptions C78_max_scratch.
Print Assumptions C78_vector_fill.
Print Assumptions C78_shifted_vector_calls.
