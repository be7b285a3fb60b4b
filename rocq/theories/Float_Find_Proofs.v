(** findRoot in doubles *)
From Coq Require Import ZArith Reals Bool Lia Lra Psatz List.
From Flocq Require Import Core IEEE754.BinarySingleNaN IEEE754.PrimFloat.
From Coq Require FloatOps.
From Verif Require Import Arith RootFinding_Model RootFinding_Proofs Float_Spec Float_Tools Float_Sum_Proofs Float_Root_Proofs.
Local Open Scope R_scope.

Section Find.
Context (f : float -> float) (t xmin xmax : float).
Context (Ft : fin t) (Ht : bpow radix2 (-400) <= Rabs (FR t) <= bpow radix2 400).
Context (Fn : fin xmin) (Fx : fin xmax) (Bn : Rabs (FR xmin) <= bpow radix2 400) (Bx : Rabs (FR xmax) <= bpow radix2 400).
Definition inb (x : float) : Prop := fin x /\ FR xmin <= FR x <= FR xmax.
Context (Hf : forall x, inb x -> fin (f x) /\ Rabs (FR (f x)) <= bpow radix2 400).
Definition g (x : float) : R := FR (f x) - FR t.
Definition r (x : float) : float := PrimFloat.sub (f x) t.

Lemma r_ok x : inb x -> fin (r x) /\ resid (FR (r x)) (g x).
Proof. intros H. destruct (Hf x H) as [A B]. apply residual_value; assumption. Qed.
Lemma inb_small x : inb x -> Rabs (FR x) <= bpow radix2 400.
Proof. intros [_ H]. apply Rabs_le_inv in Bn, Bx. apply Rabs_le. lra. Qed.
Lemma rr_le x y : inb x -> inb y -> PrimFloat.leb (PrimFloat.mul (r x) (r y)) PrimFloat.zero = Rle_bool (g x * g y) 0.
Proof. intros H K. destruct (r_ok x H), (r_ok y K). apply product_sign; assumption. Qed.
Lemma rr_lt x y : inb x -> inb y -> PrimFloat.ltb PrimFloat.zero (PrimFloat.mul (r x) (r y)) = Rlt_bool 0 (g x * g y).
Proof. intros H K. destruct (r_ok x H), (r_ok y K). apply product_sign; assumption. Qed.
Lemma inb_lo : FR xmin <= FR xmax -> inb xmin. Proof. intros. split; [exact Fn|lra]. Qed.
Lemma inb_hi : FR xmin <= FR xmax -> inb xmax. Proof. intros. split; [exact Fx|lra]. Qed.
Lemma inb_not_lt x : fin x -> PrimFloat.ltb x xmin = false -> PrimFloat.ltb xmax x = false -> inb x.
Proof. intros F. rewrite !ltb_value by assumption. intros H K. apply Rltb_false in H, K. split; [exact F|lra]. Qed.

(** ** region search *)
Definition quad (q : float * float * float * float) (x : float) : Prop :=
  let '(xl, xr, fl, fr) := q in fin xl /\ fin xr /\ FR xl <= FR x <= FR xr /\ fl = r xl /\ fr = r xr.
Lemma literal_growth : fin (@ofQ FArith 11 10) /\ 1 <= FR (@ofQ FArith 11 10) <= 111 / 100.
Proof. split; [reflexivity|]. rewrite FR_SF. vm_compute FloatOps.Prim2SF. unfold SF2R, F2R. cbn [Fnum Fexp cond_Zopp]. simpl. lra. Qed.
Lemma literal_start : fin (@ofQ FArith 1 100) /\ bpow radix2 (-10) <= FR (@ofQ FArith 1 100) <= 1.
Proof. split; [reflexivity|]. rewrite FR_SF. vm_compute FloatOps.Prim2SF. unfold SF2R, F2R. cbn [Fnum Fexp cond_Zopp]. simpl. lra. Qed.
Lemma growth_cap i : (i <= 1000)%nat -> (6 / 5) ^ i <= bpow radix2 334.
Proof.
  intros H. apply Rle_trans with ((6 / 5) ^ (3 * 334)); [apply Rle_pow; [lra|lia]|]. rewrite pow_mult.
  change (bpow radix2 334) with (IZR (Zpower radix2 334)). rewrite IZR_Zpower by lia. rewrite bpow_powerRZ. change (IZR radix2) with 2.
  change 334%Z with (Z.of_nat 334). rewrite <- pow_powerRZ. apply pow_incr. simpl. lra.
Qed.
Lemma rnd_cap v e : (-1074 <= e)%Z -> Rabs v <= bpow radix2 e -> Rabs (rnd v) <= bpow radix2 e.
Proof. intros He H. apply Rabs_le_inv in H. apply Rabs_le. rewrite <- (rnd_bpow e He) at 1 2. rewrite <- rnd_opp. split; apply rnd_le; lra. Qed.
Lemma region_step x grow : fin x -> Rabs (FR x) <= bpow radix2 400 -> fin grow -> 0 <= FR grow <= bpow radix2 334 ->
  let dx := PrimFloat.abs (PrimFloat.mul grow x) in
  fin (PrimFloat.sub x dx) /\ fin (PrimFloat.add x dx) /\ FR (PrimFloat.sub x dx) <= FR x <= FR (PrimFloat.add x dx).
Proof.
  intros Fx0 Bx0 Fg Bg dx.
  assert (P : Rabs (FR grow * FR x) <= bpow radix2 734).
  { rewrite Rabs_mult. change 734%Z with (334 + 400)%Z. rewrite bpow_plus. apply Rmult_le_compat; try apply Rabs_pos; [|exact Bx0]. rewrite Rabs_right by lra. lra. }
  assert (PR := rnd_cap _ 734 ltac:(lia) P).
  destruct (mul_value grow x Fg Fx0) as [Fm Em]. { apply Rle_lt_trans with (1 := PR). apply bpow_lt. lia. }
  destruct (abs_value _ Fm) as [Fd Ed]. fold dx in Fd, Ed. rewrite Em in Ed.
  assert (D0 : 0 <= FR dx) by (rewrite Ed; apply Rabs_pos). assert (D1 : FR dx <= bpow radix2 734) by (rewrite Ed; exact PR).
  assert (B4 : bpow radix2 400 <= bpow radix2 734) by (apply bpow_le; lia). apply Rabs_le_inv in Bx0.
  assert (B5 : bpow radix2 735 <= big) by (apply bpow_le; lia). change 735%Z with (734 + 1)%Z in B5. rewrite <- big_2 in B5.
  destruct (sub_err x dx Fx0 Fd) as (F1 & E1 & _). { apply Rabs_le. lra. }
  destruct (add_err x dx Fx0 Fd) as (F2 & E2 & _). { apply Rabs_le. lra. }
  refine (conj F1 (conj F2 _)). rewrite E1, E2. rewrite <- (rnd_FR x) at 2 3. split; apply rnd_le; lra.
Qed.
Lemma grow_step grow i : (i <= 998)%nat -> fin grow -> bpow radix2 (-10) <= FR grow <= (6 / 5) ^ i ->
  fin (@mul FArith grow (ofQ 11 10)) /\ bpow radix2 (-10) <= FR (@mul FArith grow (ofQ 11 10)) <= (6 / 5) ^ S i.
Proof.
  intros Hi Fg Bg. destruct literal_growth as [Fl Vl]. cbn [num mul FArith].
  pose proof (bpow_gt_0 radix2 (-10)) as P10. pose proof (growth_cap (S i) ltac:(lia)) as Cap. pose proof u_small. pose proof u_pos.
  assert (A : bpow radix2 (-10) <= FR grow * FR (@ofQ FArith 11 10) <= 111 / 100 * (6 / 5) ^ i) by nra.
  assert (L : bpow radix2 (-1022) <= bpow radix2 (-10)) by (apply bpow_le; lia).
  assert (K : rnd (FR grow * FR (@ofQ FArith 11 10)) <= (6 / 5) ^ S i).
  { destruct (rnd_rel (FR grow * FR (@ofQ FArith 11 10)) ltac:(lra)) as [_ K]. cbn [pow]. set (p := (6 / 5) ^ i) in *. set (z := rnd _) in *.
    apply Rmult_le_reg_l with (1 - u); [lra|]. apply Rle_trans with (1 := K). nra. }
  assert (M : bpow radix2 (-10) <= rnd (FR grow * FR (@ofQ FArith 11 10))). { rewrite <- (rnd_bpow (-10)) by lia. apply rnd_le. lra. }
  destruct (mul_value grow (@ofQ FArith 11 10) Fg Fl) as [F E].
  { rewrite Rabs_right by lra. apply Rle_lt_trans with (bpow radix2 334); [lra|apply bpow_lt; lia]. }
  rewrite E. auto.
Qed.
Lemma region x : inb x ->
  forall left i grow last q, (left + i <= 1000)%nat -> fin grow -> bpow radix2 (-10) <= FR grow <= (6 / 5) ^ i ->
  quad last x \/ (left > 0)%nat ->
  @bis_region FArith left i f t xmin xmax x grow last = Some q -> quad q x.
Proof.
  intros Hx. induction left as [|n IH]; intros i grow last q Hi Fg Bg Hl H; cbn [bis_region] in H.
  - injection H as <-. destruct Hl as [Hl|Hl]; [exact Hl|lia].
  - cbn [num add sub mul absn ltb FArith] in H. cbv zeta in H. pose proof (bpow_gt_0 radix2 (-10)).
    destruct (region_step x grow (proj1 Hx) (inb_small x Hx) Fg) as (F1 & F2 & L).
    { split; [lra|]. apply Rle_trans with (1 := proj2 Bg). apply growth_cap. lia. }
    assert (Q : quad (PrimFloat.sub x (PrimFloat.abs (PrimFloat.mul grow x)), PrimFloat.add x (PrimFloat.abs (PrimFloat.mul grow x)),
              PrimFloat.sub (f (PrimFloat.sub x (PrimFloat.abs (PrimFloat.mul grow x)))) t, PrimFloat.sub (f (PrimFloat.add x (PrimFloat.abs (PrimFloat.mul grow x)))) t) x).
    { unfold quad. auto. }
    destruct (orb _ _).
    + injection H as <-. exact Q.
    + destruct (Nat.ltb _ i) eqn:E; [discriminate|]. apply Nat.ltb_ge in E. unfold BISECT_REG_MAX in E.
      destruct (grow_step grow i ltac:(lia) Fg Bg) as [Fg' Bg']. eapply IH; [| | | |exact H]; [lia|exact Fg'|exact Bg'|left; exact Q].
Qed.

(** ** forcing the region into the bounds, and repairing the signs *)
Definition bracket (q : float * float * float * float) : Prop :=
  let '(xl, xr, fl, fr) := q in inb xl /\ inb xr /\ FR xl <= FR xr /\ fl = r xl /\ fr = r xr.
Lemma clamp_ok q x : inb x -> quad q x -> bracket (@bis_clamp FArith f t xmin xmax q).
Proof.
  intros [Fx0 Hx]. destruct q as [[[xl xr] fl] fr]. intros (F1 & F2 & L & -> & ->). unfold bis_clamp. cbn [num ltb sub FArith].
  rewrite !ltb_value by assumption.
  destruct (Rlt_bool_spec (FR xmax) (FR xr)), (Rlt_bool_spec (FR xl) (FR xmin)); unfold bracket, inb, r; repeat split; try assumption; lra.
Qed.
Lemma fixsign_ok q q' : bracket q -> @bis_fixsign FArith f t xmin xmax q = Some q' ->
  bracket q' /\ (let '(xl, xr, _, _) := q' in g xl * g xr <= 0).
Proof.
  destruct q as [[[xl xr] fl] fr]. intros (I1 & I2 & L & -> & ->).
  assert (Hm : FR xmin <= FR xmax) by (destruct I1; lra). pose proof (inb_lo Hm) as IL. pose proof (inb_hi Hm) as IH.
  unfold bis_fixsign. rewrite lit_zero. cbn [num ltb sub mul FArith]. fold (r xmin) (r xmax). rewrite !rr_lt by assumption.
  destruct (Rlt_bool_spec 0 (g xl * g xr)).
  2: { intros E; injection E as <-. split; [|assumption]. unfold bracket. auto. }
  destruct (Rlt_bool_spec 0 (g xmin * g xr)).
  2: { intros E; injection E as <-. split; [|assumption]. unfold bracket. destruct I2. repeat split; try assumption; lra. }
  destruct (Rlt_bool_spec 0 (g xmin * g xmax)); [discriminate|].
  intros E; injection E as <-. split; [|assumption]. unfold bracket. repeat split; try assumption; lra.
Qed.

(** ** bisection *)
Lemma loop_ok xtol : fin xtol ->
  forall left q st xl xr, bracket q -> (let '(xl, xr, _, _) := q in g xl * g xr <= 0) ->
  @bis_loop FArith left f t xtol q = (st, (xl, xr)) ->
  inb xl /\ inb xr /\ FR xl <= FR xr /\ g xl * g xr <= 0 /\ (st = SUCCESS -> FR xr - FR xl < FR xtol).
Proof.
  intros Fxt.
  assert (W : forall a b, inb a -> inb b -> FR a <= FR b -> PrimFloat.ltb (PrimFloat.sub b a) xtol = true -> FR b - FR a < FR xtol).
  { intros a b Ia Ib Hab E. pose proof (inb_small a Ia) as Ba. pose proof (inb_small b Ib) as Bb.
    destruct (sub_err b a (proj1 Ib) (proj1 Ia)) as (F & V & _).
    { apply Rle_trans with (bpow radix2 401); [|apply bpow_le; lia]. change 401%Z with (400 + 1)%Z. rewrite <- big_2. apply Rabs_le_inv in Ba, Bb. apply Rabs_le. lra. }
    rewrite ltb_value in E by assumption. apply Rltb_true in E. rewrite V in E.
    destruct (Rlt_or_le (FR b - FR a) (FR xtol)) as [K|K]; [exact K|]. apply rnd_le in K. rewrite rnd_FR in K. lra. }
  induction left as [|n IH]; intros [[[pl pr] fl] fr] st xl xr (I1 & I2 & L & -> & ->) S H; cbn [bis_loop] in H.
  - injection H as <- <- <-. repeat split; try assumption; try apply I1; try apply I2. discriminate.
  - rewrite lit_zero in H. cbn [num leb ltb add sub FArith] in H. cbv zeta in H.
    destruct (midpoint pl pr (proj1 I1) (proj1 I2) (inb_small _ I1) (inb_small _ I2) L) as [Fm Bm].
    set (xm := @mul FArith (ofQ 1 2) (PrimFloat.add pl pr)) in *.
    assert (Im : inb xm). { destruct I1, I2. split; [exact Fm|lra]. }
    fold (r xm) in H. change (@mul FArith (r pl) (r xm)) with (PrimFloat.mul (r pl) (r xm)) in H. rewrite rr_le in H by assumption.
    destruct (Rle_bool_spec (g pl * g xm) 0) as [K|K].
    + destruct (PrimFloat.ltb (PrimFloat.sub xm pl) xtol) eqn:E.
      * injection H as <- <- <-. refine (conj I1 (conj Im (conj _ (conj K _)))); [lra|]. intros _. apply W; [assumption|assumption|lra|assumption].
      * apply IH in H; [exact H| |exact K]. unfold bracket. repeat split; try assumption; try apply I1; try apply Im; lra.
    + assert (S' : g xm * g pr <= 0).
      { destruct (Rtotal_order (g pl) 0) as [L1|[L1|L1]]; [|rewrite L1 in K; lra|].
        - assert (g xm < 0) by nra. nra.
        - assert (0 < g xm) by nra. nra. }
      destruct (PrimFloat.ltb (PrimFloat.sub pr xm) xtol) eqn:E.
      * injection H as <- <- <-. refine (conj Im (conj I2 (conj _ (conj S' _)))); [lra|]. intros _. apply W; [assumption|assumption|lra|assumption].
      * apply IH in H; [exact H| |exact S']. unfold bracket. repeat split; try assumption; try apply I2; try apply Im; lra.
Qed.
Lemma bisect_float xguess xtol st ox : fin xtol ->
  inb (if PrimFloat.ltb (PrimFloat.abs xguess) xtol then PrimFloat.add xguess (@mul FArith (lit 2) xtol) else xguess) ->
  @bisect FArith f t xguess xmin xmax xtol = (st, ox) ->
  match ox with
  | None => st = FAIL
  | Some x => fin x /\ exists v w, inb v /\ inb w /\ FR v <= FR x <= FR w /\ g v * g w <= 0 /\ (st = SUCCESS -> FR w - FR v < FR xtol)
  end.
Proof.
  intros Fxt Hx H. unfold bisect in H. cbn [num ltb add absn FArith] in H. cbv zeta in H.
  set (x := if PrimFloat.ltb (PrimFloat.abs xguess) xtol then _ else xguess) in *.
  destruct (bis_region _ _ _ _ _ _ _ _ _) as [q|] eqn:E.
  2: { injection H as <- <-. reflexivity. }
  destruct literal_start as [Fs Vs].
  apply (region x Hx) in E; [|unfold BISECT_REG_MAX; lia|exact Fs|simpl pow; exact Vs|right; unfold BISECT_REG_MAX; lia].
  pose proof (clamp_ok q x Hx E) as C.
  destruct (bis_fixsign _ _ _ _ _) as [q'|] eqn:F.
  2: { injection H as <- <-. reflexivity. }
  destruct (fixsign_ok _ _ C F) as [F1 F2].
  destruct (bis_loop _ _ _ _ _) as [st' [xl xr]] eqn:L. injection H as <- <-.
  destruct (loop_ok xtol Fxt _ _ _ _ _ F1 F2 L) as (I1 & I2 & K & S & T).
  destruct (midpoint xl xr (proj1 I1) (proj1 I2) (inb_small _ I1) (inb_small _ I2) K) as [Fm Bm].
  split; [exact Fm|]. exists xl, xr. auto.
Qed.

(** ** the residual test *)
Context (ytol : float) (Fyt : fin ytol) (Byt : bpow radix2 (-100) <= FR ytol <= 1).
Definition rel_err (x : float) : float := PrimFloat.div (PrimFloat.abs (r x)) (PrimFloat.add (PrimFloat.abs (f x)) ytol).
Definition met (x : float) : Prop := Rabs (g x) <= (1 + 8 * u) * FR ytol * (Rabs (FR (f x)) + FR ytol).
Lemma rel_err_ok x : inb x -> fin (rel_err x) /\ 0 <= FR (rel_err x) /\ (FR (rel_err x) <= FR ytol -> met x).
Proof.
  intros Hx. destruct (Hf x Hx) as [Fy By]. destruct (r_ok x Hx) as [Fr [z0 zp zn zb zk zg zgb]].
  destruct (abs_value _ Fr) as [Fa Ea]. destruct (abs_value _ Fy) as [Fya Eya].
  assert (P100 : 0 < bpow radix2 (-100)) by apply bpow_gt_0. pose proof (Rabs_pos (FR (f x))) as PY. pose proof u_pos. pose proof u_small.
  assert (BD : Rabs (FR (PrimFloat.abs (f x)) + FR ytol) <= big).
  { rewrite Eya, Rabs_right by lra. apply Rle_trans with (bpow radix2 401); [|apply bpow_le; lia]. change 401%Z with (400 + 1)%Z. rewrite <- big_2.
    assert (1 <= bpow radix2 400). { change 1 with (bpow radix2 0). apply bpow_le. lia. } lra. }
  destruct (add_err _ _ Fya Fyt BD) as (Fd & _ & Kd). rewrite Eya in Kd. rewrite (Rabs_right (Rabs (FR (f x)) + FR ytol)) in Kd by lra.
  set (d := FR (PrimFloat.add (PrimFloat.abs (f x)) ytol)) in *. set (D := Rabs (FR (f x)) + FR ytol) in *.
  assert (D0 : bpow radix2 (-100) <= D) by (unfold D; lra). apply Rabs_le_inv in Kd.
  assert (d0 : (1 - u) * D <= d <= (1 + u) * D) by lra. assert (dp : bpow radix2 (-101) <= d).
  { assert (E : bpow radix2 (-100) = 2 * bpow radix2 (-101)) by (rewrite big_2; reflexivity). pose proof (bpow_gt_0 radix2 (-101)). nra. }
  assert (dB : d <= bpow radix2 403).
  { assert (D <= 2 * bpow radix2 400). { assert (1 <= bpow radix2 400) by (change 1 with (bpow radix2 0); apply bpow_le; lia). unfold D. lra. }
    assert (E : bpow radix2 403 = 8 * bpow radix2 400) by (change 403%Z with (3 + 400)%Z; rewrite bpow_plus; change (bpow radix2 3) with 8; ring). pose proof (bpow_gt_0 radix2 400). nra. }
  pose proof (bpow_gt_0 radix2 (-101)) as P101. pose proof (bpow_gt_0 radix2 403) as P403.
  set (n := FR (PrimFloat.abs (r x))) in *. assert (n0 : 0 <= n) by (rewrite Ea; apply Rabs_pos). assert (nB : n <= bpow radix2 402) by (rewrite Ea; exact zb).
  assert (Q0 : 0 <= n / d) by (apply Rmult_le_pos; [lra|left; apply Rinv_0_lt_compat; lra]).
  assert (QB : n / d <= bpow radix2 503).
  { apply Rmult_le_reg_r with d; [lra|]. unfold Rdiv. rewrite Rmult_assoc, Rinv_l by lra. rewrite Rmult_1_r. apply Rle_trans with (1 := nB).
    change 402%Z with (503 + -101)%Z. rewrite bpow_plus. apply Rmult_le_compat_l; [apply bpow_ge_0|exact dp]. }
  assert (PR : Rabs (rnd (n / d)) <= bpow radix2 503) by (apply rnd_cap; [lia|rewrite Rabs_right; lra]).
  destruct (div_value (PrimFloat.abs (r x)) (PrimFloat.add (PrimFloat.abs (f x)) ytol) Fa) as [Fq Eq]; fold d.
  { lra. }
  { fold n. apply Rle_lt_trans with (1 := PR). apply bpow_lt. lia. }
  fold n d in Eq. unfold rel_err. rewrite Eq. refine (conj Fq (conj (rnd_nonneg _ Q0) _)). intros H1. unfold met. fold D.
  pose proof (Rabs_pos (g x)) as Pg.
  destruct zg as [zg|zg]. { rewrite zg, Rabs_R0. apply Rmult_le_pos; [apply Rmult_le_pos|]; lra. }
  assert (nl : (1 - u) * Rabs (g x) <= n).
  { rewrite Ea. pose proof (Rabs_triang_inv (g x) (FR (r x))). rewrite Rabs_minus_sym in zk. lra. }
  assert (nl2 : bpow radix2 (-461) <= n).
  { assert (E : bpow radix2 (-460) = 2 * bpow radix2 (-461)) by (rewrite big_2; reflexivity). pose proof (bpow_gt_0 radix2 (-461)). nra. }
  assert (QL : bpow radix2 (-1022) <= n / d).
  { apply Rmult_le_reg_r with d; [lra|]. unfold Rdiv. rewrite Rmult_assoc, Rinv_l by lra. rewrite Rmult_1_r. apply Rle_trans with (2 := nl2).
    apply Rle_trans with (bpow radix2 (-1022) * bpow radix2 403); [apply Rmult_le_compat_l; [apply bpow_ge_0|exact dB]|]. rewrite <- bpow_plus. apply bpow_le. lia. }
  destruct (rnd_rel (n / d) QL) as [K _].
  assert (K2 : (1 - u) * n <= FR ytol * d).
  { apply Rmult_le_reg_r with (/ d); [apply Rinv_0_lt_compat; lra|]. replace (FR ytol * d * / d) with (FR ytol) by (field; lra). unfold Rdiv in K. lra. }
  assert (K3 : (1 - u) * ((1 - u) * Rabs (g x)) <= FR ytol * ((1 + u) * D)) by nra.
  assert (T0 : 0 <= FR ytol * D) by (apply Rmult_le_pos; lra). set (T := FR ytol * D) in *. replace ((1 + 8 * u) * FR ytol * D) with ((1 + 8 * u) * T) by (unfold T; ring).
  apply Rmult_le_reg_l with ((1 - u) * (1 - u)); [nra|]. apply Rle_trans with ((1 + u) * T); [unfold T; lra|].
  assert ((1 + u) <= (1 - u) * (1 - u) * (1 + 8 * u)) by nra. nra.
Qed.
Lemma met_lt x : inb x -> PrimFloat.ltb (rel_err x) ytol = true -> met x.
Proof. intros Hx H. destruct (rel_err_ok x Hx) as (F & _ & K). rewrite ltb_value in H by assumption. apply Rltb_true in H. apply K. lra. Qed.
Lemma met_nlt x : inb x -> PrimFloat.ltb ytol (PrimFloat.abs (rel_err x)) = false -> met x.
Proof.
  intros Hx H. destruct (rel_err_ok x Hx) as (F & P & K). destruct (abs_value _ F) as [Fa Ea]. rewrite ltb_value in H by assumption. apply Rltb_false in H.
  rewrite Ea, Rabs_right in H by lra. apply K. lra.
Qed.

(** ** findRoot *)
Context (xtol : float) (Fxt : fin xtol) (P1 : 0 < FR xtol) (P2 : 3 * FR xtol <= FR xmax) (P3 : FR xmin + 2 * FR xtol <= FR xmax).
Lemma finite_of x : PrimFloat.is_nan x = false -> PrimFloat.is_infinity x = false -> fin x.
Proof.
  unfold fin. unfold PrimFloat.is_finite. intros -> ->. reflexivity.
Qed.
Lemma upd_in v : let x := @sec_update FArith f t xmin xmax xtol v in is_num x -> PrimFloat.leb xmin x = true /\ PrimFloat.leb x xmax = true.
Proof.
  unfold sec_update. cbn [num ltb add sub mul div absn FArith]. cbv zeta. match goal with |- context [PrimFloat.ltb ?z xmin] => generalize z; intros y end.
  assert (L : PrimFloat.leb xmin xmax = true) by (rewrite leb_value by assumption; apply Rle_bool_true; lra).
  assert (R1 : PrimFloat.leb xmin xmin = true) by (apply leb_refl, fin_num, Fn). assert (R2 : PrimFloat.leb xmax xmax = true) by (apply leb_refl, fin_num, Fx).
  destruct (PrimFloat.ltb y xmin) eqn:E.
  - destruct (PrimFloat.ltb xmax xmin); intros _; split; assumption.
  - destruct (PrimFloat.ltb xmax y) eqn:E2; intros N; [split; assumption|].
    apply nltb_leb in E; [|exact N|apply fin_num, Fn]. apply nltb_leb in E2; [split; assumption|apply fin_num, Fx|exact N].
Qed.
Lemma leb_inb x : fin x -> PrimFloat.leb xmin x = true -> PrimFloat.leb x xmax = true -> inb x.
Proof. intros F. rewrite !leb_value by assumption. intros A B. apply Rleb_true in A, B. split; [exact F|lra]. Qed.
Lemma findRoot_float xguess x0 x : fin xguess ->
  @findRoot FArith f t xguess xmin xmax xtol ytol x0 = (SUCCESS, x) ->
  inb x /\ (met x \/ exists v w, inb v /\ inb w /\ FR v <= FR x <= FR w /\ FR w - FR v < FR xtol /\ g v * g w <= 0).
Proof.
  intros Fg H. assert (Hm : FR xmin <= FR xmax) by lra. pose proof (inb_lo Hm) as IL. pose proof (inb_hi Hm) as IH.
  unfold findRoot in H. cbn [num absn sub add div ltb leb isnan isinf FArith] in H. cbv zeta in H. fold (r xmax) (r xmin) in H. fold (rel_err xmax) (rel_err xmin) in H.
  destruct (PrimFloat.ltb (rel_err xmax) ytol) eqn:L1. { injection H as <-. split; [exact IH|left; apply met_lt; assumption]. }
  destruct (PrimFloat.ltb (rel_err xmin) ytol) eqn:L2. { injection H as <-. split; [exact IL|left; apply met_lt; assumption]. }
  clear L1 L2. set (x1 := if PrimFloat.leb xmax xguess then _ else _) in H. set (xg := if PrimFloat.leb x1 xmin then _ else _) in H.
  apply Rabs_le_inv in Bn as Bn'. apply Rabs_le_inv in Bx as Bx'.
  assert (BB : bpow radix2 402 <= big) by (apply bpow_le; lia). assert (E402 : bpow radix2 402 = 4 * bpow radix2 400) by (change 402%Z with (2 + 400)%Z; rewrite bpow_plus; change (bpow radix2 2) with 4; ring).
  assert (I1 : fin x1 /\ FR x1 <= FR xmax).
  { unfold x1. rewrite leb_value by assumption. destruct (Rle_bool_spec (FR xmax) (FR xguess)).
    - destruct (sub_err xmax xtol Fx Fxt) as (F & E & _). { apply Rabs_le. lra. } split; [exact F|]. rewrite E. rewrite <- (rnd_FR xmax) at 2. apply rnd_le. lra.
    - split; [exact Fg|lra]. }
  assert (Ig : inb xg).
  { unfold xg. rewrite leb_value by (apply I1 || assumption). destruct (Rle_bool_spec (FR x1) (FR xmin)).
    - destruct (add_err xmin xtol Fn Fxt) as (F & E & _). { apply Rabs_le. lra. } split; [exact F|]. rewrite E. rewrite <- (rnd_FR xmax), <- (rnd_FR xmin) at 1. split; apply rnd_le; lra.
    - split; [apply I1|]. destruct I1. lra. }
  destruct (@secant FArith f t xg xmin xmax xtol ytol) as [st ox] eqn:S. destruct st.
  - apply secant_success in S as (y & -> & N1 & N2 & (v & E) & K). injection H as <-. cbn [num isnan isinf FArith] in N1, N2.
    pose proof (finite_of y N1 N2) as Fy. pose proof (upd_in v) as U. rewrite <- E in U. destruct (U N1) as [U1 U2]. pose proof (leb_inb y Fy U1 U2) as Iy.
    split; [exact Iy|left]. apply met_nlt; [exact Iy|exact K].
  - destruct (bisect _ _ _ _ _ _) as [st xb] eqn:B.
    apply bisect_float in B; [|exact Fxt|].
    2: { destruct (abs_value xg (proj1 Ig)) as [Fa Ea]. rewrite ltb_value by assumption. rewrite Ea. destruct (Rlt_bool_spec (Rabs (FR xg)) (FR xtol)) as [L|L]; [|exact Ig].
         rewrite lit_two. cbn [num mul FArith]. destruct FR_two as [F2 V2]. apply Rabs_def2 in L.
         assert (D : rnd (2 * FR xtol) = 2 * FR xtol) by (apply fmt_double, FR_format).
         destruct (mul_value PrimFloat.two xtol F2 Fxt) as [Fm Em].
         { rewrite V2, D. rewrite Rabs_right by lra. apply Rle_lt_trans with (bpow radix2 400); [lra|apply bpow_lt; lia]. }
         rewrite V2, D in Em. destruct (add_err xg _ (proj1 Ig) Fm) as (F & E & _). { rewrite Em. apply Rabs_le. destruct Ig. lra. }
         split; [exact F|]. rewrite E, Em. rewrite <- (rnd_FR xmax), <- (rnd_FR xmin) at 1. destruct Ig. split; apply rnd_le; lra. }
    destruct xb as [y|].
    + destruct B as (Fy & v & w & Iv & Iw & K & S' & T).
      assert (Iy : inb y) by (destruct Iv, Iw; split; [exact Fy|lra]).
      destruct (orb _ _); [discriminate|]. destruct (PrimFloat.ltb y xmin); [discriminate|]. destruct (PrimFloat.ltb xmax y); [discriminate|].
      injection H as -> <-. split; [exact Iy|right]. exists v, w. auto 8.
    + subst st. destruct (orb _ _); [discriminate|]. destruct (PrimFloat.ltb _ xmin); [discriminate|]. destruct (PrimFloat.ltb xmax _); discriminate.
Qed.
End Find.

(** whatever the callable returns, NaN included *)
Lemma findRoot_any (f : float -> float) t xguess xmin xmax xtol ytol x0 x : PrimFloat.leb xmin xmax = true ->
  @findRoot FArith f t xguess xmin xmax xtol ytol x0 = (SUCCESS, x) -> PrimFloat.leb xmin x = true /\ PrimFloat.leb x xmax = true.
Proof.
  intros L H. destruct (leb_num _ _ L) as [Nn Nx]. assert (R1 : PrimFloat.leb xmin xmin = true) by (apply leb_refl, Nn). assert (R2 : PrimFloat.leb xmax xmax = true) by (apply leb_refl, Nx).
  unfold findRoot in H. cbn [num absn sub add div ltb leb isnan isinf FArith] in H. cbv zeta in H.
  destruct (PrimFloat.ltb _ ytol). { injection H as <-. split; assumption. }
  destruct (PrimFloat.ltb _ ytol). { injection H as <-. split; assumption. }
  match type of H with context [@secant FArith f t ?g xmin xmax xtol ytol] => set (xg := g) in H end.
  destruct (@secant FArith f t xg xmin xmax xtol ytol) as [st ox] eqn:S. destruct st.
  - apply secant_success in S as (y & -> & N1 & N2 & (v & E) & K). injection H as <-. cbn [num isnan FArith] in N1. subst y. revert N1.
    unfold sec_update. cbn [num ltb add sub mul div absn FArith]. cbv zeta. match goal with |- context [PrimFloat.ltb ?z xmin] => generalize z; intros y end.
    destruct (PrimFloat.ltb y xmin) eqn:E.
    + destruct (PrimFloat.ltb xmax xmin); intros _; split; assumption.
    + destruct (PrimFloat.ltb xmax y) eqn:E2; intros N; [split; assumption|].
      apply nltb_leb in E; [|exact N|exact Nn]. apply nltb_leb in E2; [split; assumption|exact Nx|exact N].
  - destruct (bisect _ _ _ _ _ _) as [st xb]. match type of H with context [PrimFloat.ltb ?z xmin] => set (x2 := z) in H end.
    change (match xb with Some x => x | None => match ox with Some x => x | None => x0 end end) with x2 in H.
    destruct (PrimFloat.is_nan x2) eqn:N; [discriminate|]. cbn [orb] in H. destruct (PrimFloat.is_infinity x2); [discriminate|].
    destruct (PrimFloat.ltb x2 xmin) eqn:E1; [discriminate|]. destruct (PrimFloat.ltb xmax x2) eqn:E2; [discriminate|]. injection H as _ <-.
    apply nltb_leb in E1; [|exact N|exact Nn]. apply nltb_leb in E2; [split; assumption|exact Nx|exact N].
Qed.
