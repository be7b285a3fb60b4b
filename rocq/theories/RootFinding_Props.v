(** Property theorems C06, C07, C08 (root finders). Model: RootFinding_Model.v.
    [@xxx RArith] = exact real arithmetic, [@xxx FArith] = IEEE binary64 execution. *)
From Coq Require Import ZArith List Bool Reals Lra Lia Ranalysis1 Floats.
From Flocq Require Import Core.Raux.
From Verif Require Import Arith RootFinding_Model RootFinding_Proofs.
Import ListNotations.
Local Open Scope R_scope.

(** helpers to run binary64 witnesses with vm_compute at type bool *)
Lemma rf_run (r : RFResult FArith) (P : float -> bool) :
  (match r with RFDone SUCCESS (Some x) _ => P x | _ => false end) = true ->
  exists x n, r = RFDone SUCCESS (Some x) n /\ P x = true.
Proof. destruct r as [|[] [x|] n]; try discriminate. intros H; exists x, n; auto. Qed.
Lemma nr_run (r : Status * num FArith * nat) (P : float -> bool) :
  (match r with (SUCCESS, x, _) => P x | _ => false end) = true ->
  exists x n, r = (SUCCESS, x, n) /\ P x = true.
Proof. destruct r as [[[] x] n]; try discriminate. intros H; exists x, n; auto. Qed.
Lemma fr_run (st : Status) (r : Status * num FArith) (P : float -> bool) :
  (match fst r, st with SUCCESS, SUCCESS | FAIL, FAIL => P (snd r) | _, _ => false end) = true ->
  exists x, r = (st, x) /\ P x = true.
Proof. destruct r as [[] x], st; try discriminate; intros H; exists x; auto. Qed.

(** ** C06 regula_falsi *)

(** Termination in any arithmetic in which x - x is never greater than 2*xtol. *)
Theorem C06_regula_falsi_terminates :
  forall (A : Arith) (f : num A -> num A) ytarget guess a b xtol ytol,
    (forall x : num A, ltb (mul (lit 2) xtol) (sub x x) = false) ->
    regula_falsi f ytarget guess a b xtol ytol <> RFDiverge.
Proof. exact @regula_falsi_terminates. Qed.
Print Assumptions C06_regula_falsi_terminates.

Theorem C06_regula_falsi_terminates_R :
  forall f ytarget guess a b xtol ytol, 0 <= xtol ->
    @regula_falsi RArith f ytarget guess a b xtol ytol <> RFDiverge.
Proof. intros. apply regula_falsi_terminates, eq_width_stops_R; assumption. Qed.
Print Assumptions C06_regula_falsi_terminates_R.

(** Without that, the loop can run for ever: the two [continue] branches are not counted. *)
Theorem C55_regula_falsi_negative_xtol_refuted :
  exists f ytarget guess a b xtol ytol, forall fuel,
    @regula_falsi_fuel RArith fuel f ytarget guess a b xtol ytol = RFDiverge.
Proof.
  exists (fun x => x), 0, 1, 0, 1, (-1), 0. intros fuel.
  unfold regula_falsi_fuel, rf_bracket, check_bracket, lit.
  cbn [num add sub mul div ltb leb eqb ofQ RArith]. cbv zeta.
  rewrite (Rle_bool_true ((0 - 0) * (1 - 0)) (0/1)) by lra.
  rewrite (Rlt_bool_false (0 - 0) (0/1)) by lra.
  match goal with |- context [rf_loop fuel ?g ?s ?x ?y ?st] =>
    assert (H : forall n a b b1 b2, (a = 0 /\ (b = 0 \/ b = 1)) ->
      @rf_loop RArith n g s x y (mkRF (A:=RArith) a b ((0-0)*s) ((1-0)*s) b1 b2 0) = None) end.
  { assert (C : forall a b b1 b2, a = 0 -> b = 0 \/ b = 1 ->
        @rf_cond RArith (-1) 0 (mkRF (A:=RArith) a b ((0-0)*(-1/1)) ((1-0)*(-1/1)) b1 b2 0) = true).
    { intros a b b1 b2 -> Hb. unfold rf_cond, lit; cbn [rf_a rf_b rf_ya rf_yb rf_it ltb absn sub mul ofQ RArith].
      rewrite (Rlt_bool_true (2/1 * -1)) by (destruct Hb; subst; lra).
      rewrite (Rlt_bool_true 0 (Rabs ((1 - 0) * (-1/1)))).
      2: { apply Rabs_pos_lt. lra. }
      rewrite orb_true_r. reflexivity. }
    induction n as [|n IH]; intros a b b1 b2 [-> Hb]; cbn [rf_loop]; rewrite C by auto; [reflexivity|].
    unfold rf_step; cbn [rf_a rf_b rf_ya rf_yb rf_b1 rf_b2 rf_it num sub mul div eqb RArith]. cbv zeta.
    rewrite Req_bool_true.
    2: { destruct Hb; subst; lra. }
    apply IH. auto. }
  rewrite H by (split; [reflexivity|right; reflexivity]). reflexivity.
Qed.
Print Assumptions C55_regula_falsi_negative_xtol_refuted.

(** At most 1000 counted iterations, whatever the function. *)
Theorem C06_regula_falsi_iteration_bound :
  forall (A : Arith) (f : num A -> num A) ytarget guess a b xtol ytol st x n,
    regula_falsi f ytarget guess a b xtol ytol = RFDone st x n -> (n <= 1000)%nat.
Proof. exact @regula_falsi_iters. Qed.
Print Assumptions C06_regula_falsi_iteration_bound.

(** Enclosure. If the function changes sign between a and guess or between guess and b, a
    SUCCESS result is in [a,b], and so is an exact root r; the result is within xtol of r, or
    f meets ytol at one end of the final bracket [u,v] and, up to a factor 2 per iteration at most, at the other.
    *)
Theorem C06_regula_falsi_enclosure :
  forall f ytarget guess a b xtol ytol x n,
    a <= guess <= b -> 0 <= xtol -> 0 <= ytol ->
    (forall z, a <= z <= b -> continuity_pt f z) ->
    (f a - ytarget) * (f guess - ytarget) <= 0 \/ (f guess - ytarget) * (f b - ytarget) <= 0 ->
    @regula_falsi RArith f ytarget guess a b xtol ytol = RFDone SUCCESS (Some x) n ->
    a <= x <= b /\
    exists u v r, a <= u /\ u <= r <= v /\ v <= b /\ u <= x <= v /\ f r = ytarget /\
      (Rabs (x - r) <= xtol \/
       exists k : nat, (k <= n)%nat /\
         (Rabs (f u - ytarget) <= ytol /\ Rabs (f v - ytarget) <= ytol * 2 ^ k \/
          Rabs (f u - ytarget) <= ytol * 2 ^ k /\ Rabs (f v - ytarget) <= ytol)).
Proof. exact rf_root_near_k. Qed.
Print Assumptions C06_regula_falsi_enclosure.

(** non-vacuity of the enclosure theorem: a run with one loop iteration *)
Ltac rdec :=
  repeat match goal with
  | |- context [Rlt_bool ?x ?y] =>
      first [rewrite (Rlt_bool_true x y) by lra | rewrite (Rlt_bool_false x y) by lra]
  | |- context [Rle_bool ?x ?y] =>
      first [rewrite (Rle_bool_true x y) by lra | rewrite (Rle_bool_false x y) by lra]
  | |- context [Req_bool ?x ?y] =>
      first [rewrite (Req_bool_true x y) by lra | rewrite (Req_bool_false x y) by lra]
  end.

Example C06_enclosure_nonvacuous :
  let f := fun x : R => x in
  (0 <= 3 <= 3) /\ 0 <= /8 /\ 0 <= /8 /\ (forall z, 0 <= z <= 3 -> continuity_pt f z) /\
  (f 0 - 1) * (f 3 - 1) <= 0 /\
  exists x, @regula_falsi RArith f 1 3 0 3 (/8) (/8) = RFDone SUCCESS (Some x) 1.
Proof.
  cbv zeta. repeat split; try lra.
  { intros z _. apply derivable_continuous_pt, derivable_pt_id. }
  eexists.
  unfold regula_falsi, regula_falsi_fuel, rf_bracket, check_bracket, lit.
  cbn [num add sub mul div ltb leb eqb ofQ RArith]. cbv zeta.
  rewrite (Rle_bool_true ((0 - 1) * (3 - 1)) (0/1)) by lra.
  rewrite (Rlt_bool_true (0 - 1) (0/1)) by lra.
  rewrite rf_loop_go.
  2: { unfold rf_cond, lit; cbn [rf_a rf_b rf_ya rf_yb rf_it ltb absn sub mul ofQ RArith].
       rewrite (Rlt_bool_true (2/1 * /8) (3 - 0)) by lra.
       rewrite (Rlt_bool_true (/8) (Rabs ((0 - 1) * (1/1)))) by (rewrite Rabs_left; lra).
       reflexivity. }
  unfold rf_step; cbn [rf_a rf_b rf_ya rf_yb rf_b1 rf_b2 rf_it num add sub mul div eqb ltb ofQ RArith].
  cbv zeta. unfold lit. cbn [ofQ RArith].
  replace ((0 * ((3 - 1) * (1 / 1)) - 3 * ((0 - 1) * (1 / 1))) / ((3 - 1) * (1 / 1) - (0 - 1) * (1 / 1)))
    with 1 by field.
  rewrite (Req_bool_false 1 0) by lra. rewrite (Req_bool_false 1 3) by lra.
  rewrite (Rlt_bool_false (0/1) (1/1 * (1 - 1))) by lra.
  rewrite (Rlt_bool_false (1/1 * (1 - 1)) (0/1)) by lra.
  rewrite rf_loop_stop.
  2: { unfold rf_cond, lit; cbn [rf_a rf_b rf_ya rf_yb rf_it ltb absn sub mul ofQ RArith].
       rewrite (Rlt_bool_false (2/1 * /8) (1 - 1)) by lra. reflexivity. }
  cbn [rf_it rf_a rf_b]. reflexivity.
Qed.

(** The full claim is false: the residual test looks only at the end points of the bracket, but
    the mid point is returned. Here the function is a parabola; SUCCESS is reported with a residual
    of 1/4 > ytol at a distance 1/2 > xtol from the nearest roots. *)
Theorem C55_regula_falsi_tolerance_refuted :
  exists f ytarget guess a b xtol ytol x n,
    a <= guess <= b /\ 0 < xtol /\ 0 < ytol /\ (forall z, continuity_pt f z) /\
    @regula_falsi RArith f ytarget guess a b xtol ytol = RFDone SUCCESS (Some x) n /\
    Rabs (f x - ytarget) > ytol /\
    (forall r, f r = ytarget -> Rabs (x - r) > xtol).
Proof.
  exists (fun x => x * (1 - x)), 0, 1, 0, 1, (/10), (/10), (1/2), 0%nat.
  repeat split; try lra.
  - intros z. apply continuity_pt_mult; [apply derivable_continuous_pt, derivable_pt_id|].
    apply continuity_pt_minus; [|apply derivable_continuous_pt, derivable_pt_id]. apply continuity_pt_const. intros p q; reflexivity.
  - unfold regula_falsi, regula_falsi_fuel, rf_bracket, check_bracket, lit.
    cbn [num add sub mul div ltb leb eqb ofQ RArith]. cbv zeta.
    rewrite (Rle_bool_true ((0 * (1 - 0) - 0) * (1 * (1 - 1) - 0)) (0/1)) by lra.
    rewrite (Rlt_bool_false (0 * (1 - 0) - 0) (0/1)) by lra.
    rewrite rf_loop_stop.
    2: { unfold rf_cond, lit; cbn [rf_a rf_b rf_ya rf_yb rf_it ltb absn sub mul ofQ RArith].
         replace ((0 * (1 - 0) - 0) * (-1 / 1)) with 0 by lra.
         replace ((1 * (1 - 1) - 0) * (-1 / 1)) with 0 by lra.
         rewrite Rabs_R0. rewrite (Rlt_bool_false (/10) 0) by lra.
         rewrite andb_false_r. reflexivity. }
    cbn [rf_a rf_b rf_it add mul ofQ RArith Nat.eqb SECANT_NITER_MAX].
    f_equal. f_equal. lra.
  - rewrite Rabs_right; lra.
  - intros r Hr. assert (r = 0 \/ r = 1) as [-> | ->].
    { assert (r * (1 - r) = 0) by lra. apply Rmult_integral in H as [H|H]; [left|right]; lra. }
    + rewrite Rabs_right; lra.
    + rewrite Rabs_left; lra.
Qed.
Print Assumptions C55_regula_falsi_tolerance_refuted.

(** Second cause, for a non-decreasing function in binary64: the Illinois halving of a stored end
    point residual is itself compared with ytol. SUCCESS with residual 1 > ytol = 0.3, and the sign
    change (at 0.6) is further than xtol = 0.01 from the returned point. *)
Definition step_fun (x : float) : float := if PrimFloat.ltb x 0.6 then (-1)%float else 0.01%float.
Theorem C55_regula_falsi_illinois_refuted :
  exists x n,
    @regula_falsi FArith step_fun 0%float 1%float 0%float 1%float 0.01%float 0.3%float
      = RFDone SUCCESS (Some x) n /\
    (PrimFloat.ltb 0.3 (PrimFloat.abs (step_fun x)) && PrimFloat.ltb x (0.6 - 0.1))%bool = true.
Proof. apply rf_run. vm_compute. reflexivity. Qed.
Print Assumptions C55_regula_falsi_illinois_refuted.

(** Third cause: the bracket search (set_bracket) leaves [a,b]: dx is not refined, so samples go up to
    a + 31.5*(b-a). SUCCESS with a root outside [a,b]. *)
Theorem C55_regula_falsi_in_bounds_refuted :
  exists (f : float -> float) x n,
    @regula_falsi FArith f 0%float 0.25%float 0%float 1%float 1e-6%float 1e-6%float
      = RFDone SUCCESS (Some x) n /\ PrimFloat.ltb 1 x = true.
Proof.
  exists (fun x => (1.25 - x)%float). apply rf_run. vm_compute. reflexivity.
Qed.
Print Assumptions C55_regula_falsi_in_bounds_refuted.

(** ** C07 newton_raphson *)
(** Refuted: a guess outside [a,b] can make the initial bracket reversed; the width test then stops the loop at once and the midpoint
    is reported as SUCCESS although it is neither in [a,b] nor near a root, and [a,b] does bracket one. *)
Theorem C55_regula_falsi_guess_outside_refuted :
  exists f guess a b x, a < b /\ guess < a /\ f a * f b < 0 /\ (forall z, continuity_pt f z) /\
    @regula_falsi RArith f 0 guess a b (/1000000) (/1000000) = RFDone SUCCESS (Some x) 0 /\
    x < a /\ Rabs (f x) >= 1 /\ forall r, f r = 0 -> Rabs (x - r) >= 1 / 2.
Proof.
  exists (fun x => (x + 1 / 2) * (x - 2)), (-1), 1, 3, 0.
  refine (conj _ (conj _ (conj _ (conj _ (conj _ (conj _ (conj _ _))))))); try lra.
  - intros z. apply derivable_continuous_pt.
    apply derivable_pt_mult; [apply derivable_pt_plus|apply derivable_pt_minus]; try apply derivable_pt_id; apply derivable_pt_const.
  - unfold regula_falsi, regula_falsi_fuel, rf_bracket, check_bracket, lit.
    cbn [num add sub mul div ltb leb eqb ofQ RArith]. cbv zeta.
    rewrite (Rle_bool_true _ (0/1)) by lra.
    match goal with |- context [@rf_loop RArith (S ?k) ?g ?s ?xt ?yt ?st] => change (@rf_loop RArith (S k) g s xt yt st) with
      (if @rf_cond RArith xt yt st then @rf_loop RArith k g s xt yt (@rf_step RArith g s st) else Some st);
      assert (E : @rf_cond RArith xt yt st = false) end.
    { unfold rf_cond, lit. cbn [num add sub mul div ltb leb eqb ofQ RArith rf_a rf_b]. rewrite Rlt_bool_false by lra. reflexivity. }
    rewrite E. cbn [rf_it rf_a rf_b Nat.eqb SECANT_NITER_MAX num add sub mul div ofQ RArith]. f_equal. f_equal. lra.
  - rewrite Rabs_left; lra.
  - intros r Hr. apply Rmult_integral in Hr. destruct Hr as [Hr|Hr].
    + rewrite Rabs_right; lra.
    + rewrite Rabs_left; lra.
Qed.
Print Assumptions C55_regula_falsi_guess_outside_refuted.

Theorem C07_newton_iteration_bound :
  forall (A : Arith) (f : num A -> num A * num A) ytarget guess a b ytol fb st x it,
    newton_raphson f ytarget guess a b ytol fb = (st, x, it) -> (it <= 100)%nat.
Proof. exact @newton_iters. Qed.
Print Assumptions C07_newton_iteration_bound.

(** with the default fail_on_bound_root = true *)
Theorem C07_newton_success :
  forall f ytarget guess a b ytol x n,
    a <= guess <= b ->
    @newton_raphson RArith f ytarget guess a b ytol true = (SUCCESS, x, n) ->
    a <= x <= b /\ Rabs (fst (f x) - ytarget) < Rabs (ytol * ytarget).
Proof. exact newton_success_R. Qed.
Print Assumptions C07_newton_success.

Example C07_newton_success_nonvacuous :
  0 <= 2 <= 3 /\
  @newton_raphson RArith (fun x => (x, 1)) 1 2 0 3 (/4) true = (SUCCESS, 1, 1%nat).
Proof.
  split; [lra|]. unfold newton_raphson.
  change NEWTON_RAPHSON_NITER_MAX with (S (S 98)). rewrite nr_loop_S. cbv zeta.
  cbn [num add sub mul div ltb leb absn RArith].
  rewrite (Rlt_bool_false (Rabs (2 - 1)) (Rabs (/4 * 1))).
  2: { rewrite !Rabs_right; lra. }
  replace (2 - (2 - 1) / 1) with 1 by field.
  rewrite (Rle_bool_false 1 0) by lra. rewrite (Rle_bool_false 3 1) by lra. cbn [andb orb].
  unfold amax, amin; cbn [ltb RArith]. rewrite (Rlt_bool_false 3 1) by lra. 
  rewrite (Rlt_bool_false 1 0) by lra.
  rewrite nr_loop_S. cbn [num add sub mul div ltb leb absn RArith].
  rewrite (Rlt_bool_true (Rabs (1 - 1)) (Rabs (/4 * 1))); [reflexivity|].
  replace (1 - 1) with 0 by lra. rewrite Rabs_R0, Rabs_right; lra.
Qed.

(** with fail_on_bound_root = false SUCCESS is returned with an unclamped, unconverged abscissa *)
Theorem C55_newton_bound_root_refuted :
  exists (f : float -> float * float) x n,
    @newton_raphson FArith f 5%float 0.5%float 0%float 1%float 1e-6%float false = (SUCCESS, x, n) /\
    (PrimFloat.ltb 1 x && PrimFloat.ltb 1 (PrimFloat.abs (fst (f x) - 5)))%bool = true.
Proof. exists (fun x => (x, 0.5%float)). apply nr_run. vm_compute. reflexivity. Qed.
Print Assumptions C55_newton_bound_root_refuted.

(** the tolerance is purely relative: no run for target 0 can ever report success *)
Theorem C07_newton_zero_target_never_succeeds :
  forall f guess a b ytol,
    fst (fst (@newton_raphson RArith f 0 guess a b ytol true)) = FAIL.
Proof. exact newton_zero_target. Qed.
Print Assumptions C07_newton_zero_target_never_succeeds.

(** ** C08 findRoot *)
Theorem C08_findRoot_success_in_bounds :
  forall f ytarget xguess xmin xmax xtol ytol x0 x,
    xmin <= xmax ->
    @findRoot RArith f ytarget xguess xmin xmax xtol ytol x0 = (SUCCESS, x) ->
    xmin <= x <= xmax.
Proof. exact findRoot_success_bounds. Qed.
Print Assumptions C08_findRoot_success_in_bounds.

Theorem C08_findRoot_success_tolerance :
  forall f ytarget xguess xmin xmax xtol ytol x0 x,
    0 < xtol -> 3 * xtol <= xmax -> xmin + 2 * xtol <= xmax -> 0 < ytol ->
    @findRoot RArith f ytarget xguess xmin xmax xtol ytol x0 = (SUCCESS, x) ->
    xmin <= x <= xmax /\
    (Rabs (f x - ytarget) <= ytol * (Rabs (f x) + ytol) \/
     exists u v, xmin <= u /\ u <= x <= v /\ v <= xmax /\ v - u < xtol /\
       (f u - ytarget) * (f v - ytarget) <= 0).
Proof. exact findRoot_success. Qed.
Print Assumptions C08_findRoot_success_tolerance.

(** in exact arithmetic a failed search still returns an in-bounds abscissa ... *)
Theorem C08_findRoot_fail_in_bounds :
  forall f ytarget xguess xmin xmax xtol ytol x0 x,
    0 < xtol -> 3 * xtol <= xmax -> xmin + 2 * xtol <= xmax ->
    @findRoot RArith f ytarget xguess xmin xmax xtol ytol x0 = (FAIL, x) ->
    xmin <= x <= xmax.
Proof. exact findRoot_fail_bounds. Qed.
Print Assumptions C08_findRoot_fail_in_bounds.

(** ... but in binary64 a zero secant slope at an exact root gives 0/0: findRoot reports FAIL although
    the guess 12 *is* the root, and returns the caller's out-of-bounds initial value -5. *)
Theorem C55_findRoot_fail_in_bounds_refuted :
  exists f : float -> float,
    f 12%float = 1%float /\
    exists x, @findRoot FArith f 1%float 12%float 0%float 100%float 1e-12%float 1e-12%float (-5)%float
      = (FAIL, x) /\ PrimFloat.eqb x (-5) = true.
Proof.
  exists (fun x => ((x - 12) * (x - 12) + 1)%float). split; [vm_compute; reflexivity|].
  apply fr_run. vm_compute. reflexivity.
Qed.
Print Assumptions C55_findRoot_fail_in_bounds_refuted.

(** non-vacuity: hypotheses and a SUCCESS run of findRoot (upper bound is the root) *)
Example C08_findRoot_nonvacuous :
  0 < /100 /\ 3 * /100 <= 2 /\ 0 + 2 * /100 <= 2 /\ 0 < /100 /\
  @findRoot RArith (fun x => x) 2 1 0 2 (/100) (/100) 0 = (SUCCESS, 2).
Proof.
  repeat split; try lra. unfold findRoot. cbn [absn sub add div ltb RArith].
  rewrite Rlt_bool_true; [reflexivity|].
  replace (2 - 2) with 0 by lra. rewrite Rabs_R0. unfold Rdiv. rewrite Rmult_0_l. lra.
Qed.

(** a failing run also exists: constant function away from the target, FAIL in bounds *)
Example C08_findRoot_float_runs :
  (exists x, @findRoot FArith (fun x => x * x)%float 2%float 1%float 0%float 100%float 1e-12%float 1e-12%float 0%float
     = (SUCCESS, x) /\ PrimFloat.ltb (PrimFloat.abs (x - 1.41421356237)) 1e-10 = true) /\
  (exists x, @findRoot FArith (fun x => 1)%float 2%float 1%float 0%float 100%float 1e-12%float 1e-12%float 0%float
     = (FAIL, x) /\ PrimFloat.leb 0 x = true).
Proof. split; apply fr_run; vm_compute; reflexivity. Qed.
