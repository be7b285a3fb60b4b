(** C87, C88: the root finders in IEEE double precision. [@xxx FArith] runs the model on binary64 numbers;
    [f] is any function of a double: it may return NaN or an infinity. *)
From Coq Require Import ZArith Reals Bool Lia Lra List.
From Flocq Require Import Core IEEE754.BinarySingleNaN IEEE754.PrimFloat.
From Coq Require FloatOps.
From Verif Require Import Arith RootFinding_Model RootFinding_Proofs Float_Spec Float_Tools Float_Sum_Proofs Float_Root_Proofs Float_Find_Proofs.
Local Open Scope R_scope.
Notation float := PrimFloat.float.

(** * C87 *)
(** regula falsi stops, whatever the function does, unless xtol < 0 (xtol = NaN is fine too) *)
Theorem C87_regula_falsi_terminates : forall (f : float -> float) ytarget guess a b xtol ytol,
  PrimFloat.ltb xtol PrimFloat.zero = false ->
  @regula_falsi FArith f ytarget guess a b xtol ytol <> RFDiverge.
Proof. intros f ytarget guess a b xtol ytol H. apply regula_falsi_terminates. apply width_stops. exact H. Qed.

(** Newton: SUCCESS means the computed residual beats the tolerance, and the result is in [a,b] or is NaN; it is NaN only
    for a function that meets the target at NaN *)
Theorem C87_newton_success : forall (f : float -> float * float) ytarget guess a b ytol x n,
  PrimFloat.leb a guess = true -> PrimFloat.leb guess b = true ->
  @newton_raphson FArith f ytarget guess a b ytol true = (SUCCESS, x, n) ->
  PrimFloat.ltb (PrimFloat.abs (PrimFloat.sub (fst (f x)) ytarget)) (PrimFloat.abs (PrimFloat.mul ytol ytarget)) = true /\
  (PrimFloat.leb a x = true /\ PrimFloat.leb x b = true \/ PrimFloat.is_nan x = true /\ PrimFloat.is_nan (fst (f x)) = false).
Proof.
  intros f ytarget guess a b ytol x n Ha Hb H. apply newton_success in H as [H1 H2]. cbn [num ltb absn sub mul FArith] in H1. split; [exact H1|].
  assert (N : PrimFloat.is_nan (fst (f x)) = false).
  { apply ltb_num in H1 as [H1 _]. unfold is_num in H1. destruct (PrimFloat.is_nan (fst (f x))) eqn:E; [|reflexivity]. rewrite <- H1. symmetry.
    revert E. rewrite !is_nan_equiv, abs_equiv, sub_equiv. destruct (Prim2B (fst (f x))); try discriminate. destruct (Prim2B ytarget); reflexivity. }
  destruct H2 as [->|[w ->]]; [left; split; assumption|].
  destruct (clamp_float w a b (leb_trans _ _ _ Ha Hb)) as [K|K]; [right; split; assumption|left; exact K].
Qed.

(** findRoot: a SUCCESS result is a number in [xmin,xmax], whatever the function does *)
Theorem C87_findRoot_success_in_bounds : forall (f : float -> float) ytarget xguess xmin xmax xtol ytol x0 x,
  PrimFloat.leb xmin xmax = true ->
  @findRoot FArith f ytarget xguess xmin xmax xtol ytol x0 = (SUCCESS, x) ->
  PrimFloat.leb xmin x = true /\ PrimFloat.leb x xmax = true.
Proof. exact findRoot_any. Qed.

(** findRoot: for a function that is finite on [xmin,xmax] and a target that is not tiny, SUCCESS means that the exact
    residual meets the relative tolerance up to 8 units of 2^-53, or that the result lies between two doubles closer together
    than xtol at which the function takes values exactly on both sides of the target *)
Theorem C87_findRoot_success_tolerance : forall (f : float -> float) ytarget xguess xmin xmax xtol ytol x0 x,
  fin ytarget -> fin xguess -> fin xmin -> fin xmax -> fin xtol -> fin ytol ->
  bpow radix2 (-400) <= Rabs (FR ytarget) <= bpow radix2 400 ->
  Rabs (FR xmin) <= bpow radix2 400 -> Rabs (FR xmax) <= bpow radix2 400 ->
  (forall z, fin z -> FR xmin <= FR z <= FR xmax -> fin (f z) /\ Rabs (FR (f z)) <= bpow radix2 400) ->
  bpow radix2 (-100) <= FR ytol <= 1 ->
  0 < FR xtol -> 3 * FR xtol <= FR xmax -> FR xmin + 2 * FR xtol <= FR xmax ->
  @findRoot FArith f ytarget xguess xmin xmax xtol ytol x0 = (SUCCESS, x) ->
  fin x /\ FR xmin <= FR x <= FR xmax /\
  (Rabs (FR (f x) - FR ytarget) <= (1 + 8 * bpow radix2 (-53)) * FR ytol * (Rabs (FR (f x)) + FR ytol) \/
   exists v w, fin v /\ fin w /\ FR xmin <= FR v /\ FR v <= FR x <= FR w /\ FR w <= FR xmax /\ FR w - FR v < FR xtol /\
     (FR (f v) - FR ytarget) * (FR (f w) - FR ytarget) <= 0).
Proof.
  intros f ytarget xguess xmin xmax xtol ytol x0 x Ft Fg Fn Fx Fxt Fyt Ht Bn Bx Hf Byt P1 P2 P3 H.
  destruct (findRoot_float f ytarget xmin xmax Ft Ht Fn Fx Bn Bx (fun z K => Hf z (proj1 K) (proj2 K)) ytol Fyt Byt xtol Fxt P1 P2 P3 xguess x0 x Fg H) as [[F I] C].
  refine (conj F (conj I _)). destruct C as [C|(v & w & [Fv Iv] & [Fw Iw] & K1 & K2 & K3)]; [left; exact C|right].
  exists v, w. repeat split; try assumption; try apply K1; try apply Iv; try apply Iw.
Qed.

(** * C88: what goes wrong in doubles *)
Definition flit (p : Z) (q : positive) : float := @ofQ FArith p q.
Definition tenth_power (k : nat) : float := Nat.iter k (fun y => PrimFloat.div y (flit 10 1)) PrimFloat.one.

Lemma rf_run (r : RFResult FArith) (P : float -> bool) :
  (match r with RFDone SUCCESS (Some x) _ => P x | _ => false end) = true -> exists x n, r = RFDone SUCCESS (Some x) n /\ P x = true.
Proof. destruct r as [|[] [x|] n]; try discriminate. intros H; exists x, n; auto. Qed.
Lemma nr_run (r : Status * num FArith * nat) (P : float -> bool) :
  (match r with (SUCCESS, x, _) => P x | _ => false end) = true -> exists x n, r = (SUCCESS, x, n) /\ P x = true.
Proof. destruct r as [[[] x] n]; try discriminate. intros H; exists x, n; auto. Qed.
Lemma fr_run (st : Status) (r : Status * num FArith) (P : float -> bool) :
  (match fst r, st with SUCCESS, SUCCESS | FAIL, FAIL => P (snd r) | _, _ => false end) = true -> exists x, r = (st, x) /\ P x = true.
Proof. destruct r as [[] x], st; try discriminate; intros H; exists x; auto. Qed.
Lemma bs_run (r : Status * option (num FArith)) (P : float -> bool) :
  (match r with (SUCCESS, Some x) => P x | _ => false end) = true -> exists x, r = (SUCCESS, Some x) /\ P x = true.
Proof. destruct r as [[] [x|]]; try discriminate; intros H; exists x; auto. Qed.

(** regula falsi treats NaN as an exact root: SUCCESS at a point where the function is not a number *)
Theorem C88_regula_falsi_nan_refuted : exists (f : float -> float) x n,
  @regula_falsi FArith f PrimFloat.zero PrimFloat.one PrimFloat.zero PrimFloat.one (flit 1 1000000) (flit 1 1000000) = RFDone SUCCESS (Some x) n /\
  PrimFloat.is_nan (f x) = true /\ PrimFloat.is_nan x = false.
Proof.
  pose (f := fun x => if PrimFloat.ltb x (flit 1 10) then flit (-1) 1 else if PrimFloat.ltb (flit 9 10) x then flit 3 1 else PrimFloat.nan). exists f.
  match goal with |- exists x n, ?r = _ /\ _ => destruct (rf_run r (fun x => PrimFloat.is_nan (f x) && negb (PrimFloat.is_nan x))%bool) as (x & n & E & P) end; [vm_compute; reflexivity|].
  apply andb_prop in P as [P1 P2]. apply negb_true_iff in P2. exists x, n. auto.
Qed.
(** in general: whenever the first trial point of a sign-changing bracket gives NaN *)
Theorem C88_regula_falsi_nan_step_refuted : forall (f : float -> float) ytarget guess a b xtol ytol,
  let ya := PrimFloat.sub (f a) ytarget in let yg := PrimFloat.sub (f guess) ytarget in
  let c := PrimFloat.div (PrimFloat.sub (PrimFloat.mul a yg) (PrimFloat.mul guess ya)) (PrimFloat.sub yg ya) in
  PrimFloat.leb (PrimFloat.mul ya yg) PrimFloat.zero = true -> PrimFloat.ltb ya PrimFloat.zero = true -> PrimFloat.ltb xtol PrimFloat.zero = false ->
  PrimFloat.ltb (PrimFloat.mul PrimFloat.two xtol) (PrimFloat.sub guess a) = true -> PrimFloat.ltb ytol (PrimFloat.abs ya) = true ->
  PrimFloat.eqb c a = false -> PrimFloat.eqb c guess = false -> PrimFloat.is_nan (f c) = true ->
  PrimFloat.mul ya PrimFloat.one = ya -> PrimFloat.mul yg PrimFloat.one = yg ->
  @regula_falsi FArith f ytarget guess a b xtol ytol = @RFDone FArith SUCCESS (Some (PrimFloat.mul (flit 1 2) (PrimFloat.add c c))) 1.
Proof.
  intros f ytarget guess a b xtol ytol ya yg c Hb Hs Hx W Y Ca Cg Nc E1 E2.
  unfold regula_falsi, regula_falsi_fuel, rf_bracket, check_bracket. cbn [num mul leb sub FArith]. rewrite lit_zero. fold ya yg. rewrite Hb.
  cbn [num ltb FArith]. rewrite Hs. change (@lit FArith 1) with (@ofQ FArith 1 1). replace (@ofQ FArith 1 1) with PrimFloat.one by (vm_compute; reflexivity). cbn [num mul FArith]. rewrite E1, E2.
  rewrite rf_loop_go.
  2: { unfold rf_cond. cbn [num rf_a rf_b rf_ya rf_yb rf_it ltb absn sub mul FArith]. rewrite lit_two, W, Y. reflexivity. }
  unfold rf_step. cbn [num rf_a rf_b rf_ya rf_yb rf_b1 rf_b2 rf_it sub mul div eqb ltb FArith]. cbv zeta. fold c. rewrite Ca, Cg, lit_zero.
  assert (NN : forall z, PrimFloat.is_nan z = true -> forall w, PrimFloat.ltb z w = false /\ PrimFloat.ltb w z = false).
  { intros z Hz w. split; match goal with |- ?l = false => destruct l eqn:L; [exfalso|reflexivity] end; apply ltb_num in L as [L1 L2]; unfold is_num in *; congruence. }
  assert (N2 : PrimFloat.is_nan (PrimFloat.mul PrimFloat.one (PrimFloat.sub (f c) ytarget)) = true).
  { revert Nc. rewrite !is_nan_equiv, mul_equiv, sub_equiv. destruct (Prim2B (f c)); try discriminate. intros _.
    destruct (Prim2B ytarget); cbn [Bminus]; destruct (Prim2B PrimFloat.one); reflexivity. }
  destruct (NN _ N2 PrimFloat.zero) as [-> ->].
  rewrite rf_loop_stop.
  2: { unfold rf_cond. cbn [num rf_a rf_b ltb sub mul FArith]. change (@ltb FArith) with PrimFloat.ltb. change (@sub FArith) with PrimFloat.sub. pose proof (width_stops xtol Hx c) as Z. cbn [num ltb mul sub FArith] in Z. rewrite Z. reflexivity. }
  cbn [rf_it rf_a rf_b num mul add FArith]. reflexivity.
Qed.
(** an overflow in the secant formula makes the answer itself NaN, with SUCCESS *)
Theorem C88_regula_falsi_overflow_refuted : exists (f : float -> float) a b x n,
  PrimFloat.is_finite (f a) = true /\ PrimFloat.is_finite (f b) = true /\
  @regula_falsi FArith f PrimFloat.zero b a b (flit 1 1000000) (flit 1 1000000) = RFDone SUCCESS (Some x) n /\ PrimFloat.is_nan x = true.
Proof.
  exists (fun x => PrimFloat.div (PrimFloat.sub x (flit 15000000000 1)) (tenth_power 289)), (flit 10000000000 1), (flit 20000000000 1).
  match goal with |- exists x n, _ /\ _ /\ ?r = _ /\ _ => destruct (rf_run r PrimFloat.is_nan) as (x & n & E & P) end; [vm_compute; reflexivity|].
  exists x, n. split; [vm_compute; reflexivity|]. split; [vm_compute; reflexivity|]. split; assumption.
Qed.
(** the product of two residuals of the same sign underflows to zero and passes for a sign change: regula falsi leaves [a,b],
    bisection converges to a point that is no root *)
Theorem C88_underflow_bracket_refuted :
  (exists (f : float -> float) x n,
     (forall z, f z = PrimFloat.mul (tenth_power 170) (PrimFloat.add z (flit 7 1))) /\
     @regula_falsi FArith f PrimFloat.zero PrimFloat.one PrimFloat.zero PrimFloat.one (flit 1 1000000) (tenth_power 200) = RFDone SUCCESS (Some x) n /\
     PrimFloat.ltb x PrimFloat.zero = true) /\
  (exists (f : float -> float) x,
     (forall z, f z = PrimFloat.mul (tenth_power 200) (PrimFloat.sub z (flit 7 1))) /\
     @bisect FArith f PrimFloat.zero PrimFloat.one PrimFloat.zero (flit 10 1) (flit 1 1000000000) = (SUCCESS, Some x) /\
     PrimFloat.ltb x PrimFloat.one = true /\ f (flit 7 1) = PrimFloat.zero).
Proof.
  split.
  - exists (fun z => PrimFloat.mul (tenth_power 170) (PrimFloat.add z (flit 7 1))). 
    match goal with |- exists x n, _ /\ ?r = _ /\ _ => destruct (rf_run r (fun x => PrimFloat.ltb x PrimFloat.zero)) as (x & n & E & P) end; [vm_compute; reflexivity|].
    exists x, n. split; [reflexivity|]. split; assumption.
  - exists (fun z => PrimFloat.mul (tenth_power 200) (PrimFloat.sub z (flit 7 1))). 
    match goal with |- exists x, _ /\ ?r = _ /\ _ => destruct (bs_run r (fun x => PrimFloat.ltb x PrimFloat.one)) as (x & E & P) end; [vm_compute; reflexivity|].
    exists x. split; [reflexivity|]. split; [exact E|]. split; [exact P|]. vm_compute. reflexivity.
Qed.
(** xtol is absolute: where doubles are further apart than xtol findRoot reports FAIL on a bracketed sign change although it has
    found one of the two neighbouring doubles around it *)
Theorem C88_findRoot_spacing_refuted : exists (f : float -> float) s x,
  (forall z, f z = if PrimFloat.ltb z s then flit (-1) 1 else flit 1 1) /\
  @findRoot FArith f PrimFloat.zero (flit 1000 1) PrimFloat.zero (flit 1000000 1) (tenth_power 12) (tenth_power 12) PrimFloat.zero = (FAIL, x) /\
  PrimFloat.ltb (PrimFloat.abs (PrimFloat.sub x s)) (flit 1 10000000000) = true.
Proof.
  exists (fun z => if PrimFloat.ltb z (flit 123456789 1000) then flit (-1) 1 else flit 1 1), (flit 123456789 1000). 
  match goal with |- exists x, _ /\ ?r = _ /\ PrimFloat.ltb (PrimFloat.abs (PrimFloat.sub x ?s)) ?e = true => destruct (fr_run FAIL r (fun x => PrimFloat.ltb (PrimFloat.abs (PrimFloat.sub x s)) e)) as (x & E & P) end; [vm_compute; reflexivity|].
  exists x. split; [reflexivity|]. split; assumption.
Qed.
(** findRoot's residual test lets NaN through: SUCCESS at a point where the function is not a number *)
Theorem C88_findRoot_nan_refuted : exists (f : float -> float) x,
  @findRoot FArith f PrimFloat.one PrimFloat.two PrimFloat.zero (flit 3 1) (flit 1 1000000) (flit 1 1000000) PrimFloat.zero = (SUCCESS, x) /\
  PrimFloat.is_nan (f x) = true.
Proof.
  pose (f := fun x => if PrimFloat.eqb x PrimFloat.one then PrimFloat.nan else x). exists f.
  match goal with |- exists x, ?r = _ /\ _ => apply (fr_run SUCCESS r (fun x => PrimFloat.is_nan (f x))) end. vm_compute. reflexivity.
Qed.
(** Newton's clamp lets NaN through: SUCCESS with a NaN result *)
Theorem C88_newton_nan_refuted : exists (f : float -> float * float) x n,
  @newton_raphson FArith f PrimFloat.one (flit 1 2) PrimFloat.zero PrimFloat.one (flit 1 1000000) true = (SUCCESS, x, n) /\
  PrimFloat.is_nan x = true.
Proof.
  exists (fun x => if PrimFloat.is_nan x then (PrimFloat.one, PrimFloat.one) else (PrimFloat.two, PrimFloat.nan)). apply (nr_run _ PrimFloat.is_nan). vm_compute. reflexivity.
Qed.

(** * Hypotheses hold of real runs *)
Ltac fval := rewrite FR_SF; vm_compute FloatOps.Prim2SF; unfold SF2R, F2R; cbn [Fnum Fexp cond_Zopp]; simpl; lra.
Example C87_findRoot_nonvacuous :
  let f := fun x : float => x in let t := PrimFloat.one in let lo := PrimFloat.zero in let hi := PrimFloat.two in let tol := flit 1 1024 in
  bpow radix2 (-400) <= Rabs (FR t) <= bpow radix2 400 /\ Rabs (FR lo) <= bpow radix2 400 /\ Rabs (FR hi) <= bpow radix2 400 /\
  (forall z, fin z -> FR lo <= FR z <= FR hi -> fin (f z) /\ Rabs (FR (f z)) <= bpow radix2 400) /\
  bpow radix2 (-100) <= FR tol <= 1 /\ 0 < FR tol /\ 3 * FR tol <= FR hi /\ FR lo + 2 * FR tol <= FR hi /\
  (exists x, @findRoot FArith f t (flit 3 10) lo hi tol tol lo = (SUCCESS, x)) /\
  (exists x, @findRoot FArith (fun z => if PrimFloat.ltb z t then PrimFloat.zero else PrimFloat.two) t (flit 3 10) lo hi tol tol lo = (SUCCESS, x)).
Proof.
  cbv zeta. assert (V0 : FR PrimFloat.zero = 0) by (rewrite FR_SF; reflexivity). assert (V1 : FR PrimFloat.one = 1) by fval. assert (V2 : FR PrimFloat.two = 2) by fval.
  assert (VT : FR (flit 1 1024) = / 1024) by fval.
  assert (B : 2 <= bpow radix2 400). { change 2 with (bpow radix2 1). apply bpow_le. lia. } assert (S : bpow radix2 (-400) <= 1) by (change 1 with (bpow radix2 0); apply bpow_le; lia).
  assert (S1 : bpow radix2 (-100) <= / 1024). { replace (/ 1024) with (bpow radix2 (-10)) by (simpl; lra). apply bpow_le. lia. }
  rewrite V0, V1, V2, VT. refine (conj (conj _ _) (conj _ (conj _ (conj _ (conj (conj _ _) (conj _ (conj _ (conj _ (conj _ _))))))))); try (rewrite Rabs_right by lra; lra); try (rewrite Rabs_R0; lra); try lra.
  - intros z Fz Bz. split; [exact Fz|]. apply Rabs_le. lra.
  - match goal with |- exists x, ?r = _ => destruct (fr_run SUCCESS r (fun _ => true)) as (x & E & _) end; [vm_compute; reflexivity|]. exists x. exact E.
  - match goal with |- exists x, ?r = _ => destruct (fr_run SUCCESS r (fun _ => true)) as (x & E & _) end; [vm_compute; reflexivity|]. exists x. exact E.
Qed.
Example C87_newton_nonvacuous :
  exists x n, @newton_raphson FArith (fun z => (PrimFloat.mul z z, PrimFloat.mul PrimFloat.two z)) PrimFloat.two PrimFloat.one PrimFloat.zero PrimFloat.two (flit 1 1000000) true = (SUCCESS, x, n) /\
  PrimFloat.leb PrimFloat.zero PrimFloat.one = true /\ PrimFloat.leb PrimFloat.one PrimFloat.two = true.
Proof. match goal with |- exists x n, ?r = _ /\ _ => destruct (nr_run r (fun _ => true)) as (x & n & E & _) end; [vm_compute; reflexivity|]. exists x, n. auto. Qed.
Example C87_termination_nonvacuous :
  PrimFloat.ltb (flit 1 1000) PrimFloat.zero = false /\ PrimFloat.ltb PrimFloat.nan PrimFloat.zero = false /\
  exists n x, @regula_falsi FArith (fun z => PrimFloat.mul z z) PrimFloat.two PrimFloat.one PrimFloat.zero PrimFloat.two (flit 1 1000) (flit 1 1000) = RFDone SUCCESS (Some x) n.
Proof. split; [reflexivity|]. split; [reflexivity|]. 
  match goal with |- exists n x, ?r = _ => destruct (rf_run r (fun _ => true)) as (x & n & E & _) end; [vm_compute; reflexivity|]. exists n, x. exact E. Qed.
Example C88_nan_step_nonvacuous :
  let f := fun x => if PrimFloat.ltb x (flit 1 10) then flit (-1) 1 else if PrimFloat.ltb (flit 9 10) x then flit 3 1 else PrimFloat.nan in
  let ya := PrimFloat.sub (f PrimFloat.zero) PrimFloat.zero in let yg := PrimFloat.sub (f PrimFloat.one) PrimFloat.zero in
  let c := PrimFloat.div (PrimFloat.sub (PrimFloat.mul PrimFloat.zero yg) (PrimFloat.mul PrimFloat.one ya)) (PrimFloat.sub yg ya) in
  PrimFloat.leb (PrimFloat.mul ya yg) PrimFloat.zero = true /\ PrimFloat.ltb ya PrimFloat.zero = true /\
  PrimFloat.eqb c PrimFloat.zero = false /\ PrimFloat.eqb c PrimFloat.one = false /\ PrimFloat.is_nan (f c) = true /\
  PrimFloat.mul ya PrimFloat.one = ya /\ PrimFloat.mul yg PrimFloat.one = yg.
Proof. cbv zeta. repeat split; vm_compute; reflexivity. Qed.
Print Assumptions C87_regula_falsi_terminates.
Print Assumptions C87_newton_success.
Print Assumptions C87_findRoot_success_in_bounds.
Print Assumptions C87_findRoot_success_tolerance.
Print Assumptions C88_regula_falsi_nan_refuted.
Print Assumptions C88_regula_falsi_nan_step_refuted.
Print Assumptions C88_regula_falsi_overflow_refuted.
Print Assumptions C88_underflow_bracket_refuted.
Print Assumptions C88_findRoot_spacing_refuted.
Print Assumptions C88_findRoot_nan_refuted.
Print Assumptions C88_newton_nan_refuted.
