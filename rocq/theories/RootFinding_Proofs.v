(** Lemmas about the 1D root finders. *)
From Coq Require Import ZArith List Bool Reals Lra Lia Ranalysis5 Ranalysis1.
From Flocq Require Import Core.Raux.
From Verif Require Import Arith RootFinding_Model.
Import ListNotations.

(* ------------------------------------------------------------------ *)
(** * Generic facts (any arithmetic) *)

Section Generic.
  Context {A : Arith}.
  Notation T := (num A).

  Lemma rf_loop_stop fuel (func : T -> T) sign xtol ytol s :
    rf_cond xtol ytol s = false -> rf_loop fuel func sign xtol ytol s = Some s.
  Proof. intros H; destruct fuel; cbn [rf_loop]; rewrite H; reflexivity. Qed.
  Lemma rf_loop_go n (func : T -> T) sign xtol ytol s :
    rf_cond xtol ytol s = true ->
    rf_loop (S n) func sign xtol ytol s = rf_loop n func sign xtol ytol (rf_step func sign s).
  Proof. intros H; cbn [rf_loop]; rewrite H; reflexivity. Qed.
  Lemma nr_loop_S n iter (f : T -> T * T) ytarget a b ytol x :
    nr_loop (S n) iter f ytarget a b ytol x =
        let (yg, dfunc) := f x in
        if ltb (absn (sub yg ytarget)) (absn (mul ytol ytarget)) then (x, iter, NRConverged)
        else
          let x1 := sub x (div (sub yg ytarget) dfunc) in
          if orb (andb (leb x1 a) (leb x a)) (andb (leb b x1) (leb b x))
          then (x1, iter, NRBound)
          else nr_loop n (S iter) f ytarget a b ytol (amax (amin x1 b) a).
  Proof. reflexivity. Qed.

  (** iteration counter never exceeds its cap *)
  Lemma rf_step_it (func : T -> T) sign (s : RF) :
    (rf_it (rf_step func sign s) <= S (rf_it s))%nat.
  Proof.
    unfold rf_step.
    repeat match goal with |- context [if ?c then _ else _] => destruct c; simpl end; lia.
  Qed.

  Lemma rf_loop_it fuel (func : T -> T) sign xtol ytol s s' :
    rf_loop fuel func sign xtol ytol s = Some s' ->
    (rf_it s <= SECANT_NITER_MAX)%nat -> (rf_it s' <= SECANT_NITER_MAX)%nat.
  Proof.
    revert s; induction fuel as [|n IH]; intros s H Hit; cbn [rf_loop] in H.
    - destruct (rf_cond _ _ _) eqn:E; [discriminate|]. injection H as <-. exact Hit.
    - destruct (rf_cond _ _ _) eqn:E.
      + apply IH in H; auto.
        unfold rf_cond in E. apply andb_prop in E as [_ E]. apply Nat.ltb_lt in E.
        pose proof (rf_step_it func sign s). lia.
      + injection H as <-. exact Hit.
  Qed.

  (** Termination. The only uncounted iterations ([continue]) make a = b; if then the loop
      condition is false (true in exact arithmetic and in IEEE arithmetic for xtol >= 0), the
      loop stops within 1001 iterations, whatever the function. *)
  Definition eq_width_stops (xtol : T) : Prop :=
    forall x : T, ltb (mul (lit 2) xtol) (sub x x) = false.

  Lemma rf_loop_terminates (func : T -> T) sign xtol ytol :
    eq_width_stops xtol ->
    forall fuel s, (SECANT_NITER_MAX - rf_it s < fuel)%nat ->
    rf_loop fuel func sign xtol ytol s <> None.
  Proof.
    intros Hs. induction fuel as [|n IH]; intros s Hf; [lia|].
    cbn [rf_loop]. destruct (rf_cond _ _ _) eqn:E; [|discriminate].
    unfold rf_cond in E. apply andb_prop in E as [_ E]. apply Nat.ltb_lt in E.
    assert (Hstop : forall x ya yb b1 b2 it,
              rf_loop n func sign xtol ytol (mkRF x x ya yb b1 b2 it) <> None).
    { intros x ya yb b1 b2 it.
      assert (Hc : rf_cond xtol ytol (mkRF x x ya yb b1 b2 it) = false).
      { unfold rf_cond; cbn [rf_a rf_b]. rewrite Hs. reflexivity. }
      destruct n; cbn [rf_loop]; rewrite Hc; discriminate. }
    unfold rf_step.
    destruct (eqb _ _); [apply Hstop|].
    destruct (eqb _ _); [apply Hstop|].
    destruct (ltb _ _); [apply IH; cbn [rf_it]; lia|].
    destruct (ltb _ _); [apply IH; cbn [rf_it]; lia|].
    apply Hstop.
  Qed.

  Lemma regula_falsi_terminates (f : T -> T) ytarget guess a b xtol ytol :
    eq_width_stops xtol ->
    regula_falsi f ytarget guess a b xtol ytol <> RFDiverge.
  Proof.
    intros Hs. unfold regula_falsi, regula_falsi_fuel.
    destruct (rf_bracket _ _ _ _) as [[[[a1 b1] ya1] yb1]|]; [|discriminate].
    match goal with |- context [rf_loop ?n ?f ?s ?x ?y ?st] =>
      pose proof (rf_loop_terminates f s x y Hs n st) as Ht;
      destruct (rf_loop n f s x y st) eqn:E end.
    - discriminate.
    - exfalso. apply Ht; [cbn [rf_it]; lia | reflexivity].
  Qed.

  (** more fuel does not change the outcome *)
  Lemma rf_loop_mono fuel fuel' (func : T -> T) sign xtol ytol s r :
    rf_loop fuel func sign xtol ytol s = Some r -> (fuel <= fuel')%nat ->
    rf_loop fuel' func sign xtol ytol s = Some r.
  Proof.
    revert fuel' s; induction fuel as [|n IH]; intros fuel' s H Hle.
    - cbn [rf_loop] in H. destruct (rf_cond xtol ytol s) eqn:E; [discriminate|].
      destruct fuel'; cbn [rf_loop]; rewrite E; exact H.
    - destruct fuel' as [|m]; [lia|]. cbn [rf_loop] in *.
      destruct (rf_cond xtol ytol s); [|exact H]. apply IH; [exact H|lia].
  Qed.

  Lemma regula_falsi_iters (f : T -> T) ytarget guess a b xtol ytol st x n :
    regula_falsi f ytarget guess a b xtol ytol = RFDone st x n ->
    (n <= SECANT_NITER_MAX)%nat.
  Proof.
    unfold regula_falsi, regula_falsi_fuel.
    destruct (rf_bracket _ _ _ _) as [[[[a1 b1] ya1] yb1]|].
    - match goal with |- context [rf_loop ?n ?f ?s ?x ?y ?st] =>
        destruct (rf_loop n f s x y st) eqn:E end; [|discriminate].
      intros H; injection H as _ _ <-. eapply rf_loop_it; [exact E|]. cbn [rf_it]. lia.
    - intros H; injection H as _ _ <-. lia.
  Qed.

  (** Newton: the exit reasons *)
  Lemma nr_loop_iter left : forall iter (f : T -> T * T) ytarget a b ytol x x' it' e,
    nr_loop left iter f ytarget a b ytol x = (x', it', e) ->
    (it' <= iter + left)%nat.
  Proof.
    induction left as [|n IH]; intros iter f yt a b ytol x x' it' e H; cbn [nr_loop] in H.
    - injection H as _ <- _. lia.
    - destruct (f x) as [yg df].
      destruct (ltb _ _). { injection H as _ <- _. lia. }
      destruct (orb _ _). { injection H as _ <- _. lia. }
      apply IH in H. lia.
  Qed.

  Lemma nr_loop_converged left : forall iter (f : T -> T * T) ytarget a b ytol x x' it',
    nr_loop left iter f ytarget a b ytol x = (x', it', NRConverged) ->
    ltb (absn (sub (fst (f x')) ytarget)) (absn (mul ytol ytarget)) = true
    /\ (x' = x \/ exists w, x' = amax (amin w b) a).
  Proof.
    induction left as [|n IH]; intros iter f yt a b ytol x x' it' H; cbn [nr_loop] in H.
    - discriminate.
    - destruct (f x) as [yg df] eqn:Ef.
      destruct (ltb (absn (sub yg yt)) _) eqn:E.
      { injection H as <- <-. rewrite Ef. split; [exact E|left; reflexivity]. }
      destruct (orb _ _). { discriminate. }
      apply IH in H as [H1 H2]. split; [exact H1|]. right.
      destruct H2 as [->|[w ->]]; eexists; reflexivity.
  Qed.

  Lemma newton_success (f : T -> T * T) ytarget guess a b ytol x it :
    newton_raphson f ytarget guess a b ytol true = (SUCCESS, x, it) ->
    ltb (absn (sub (fst (f x)) ytarget)) (absn (mul ytol ytarget)) = true
    /\ (x = guess \/ exists w, x = amax (amin w b) a).
  Proof.
    unfold newton_raphson.
    destruct (nr_loop _ _ _ _ _ _ _ _) as [[x' it'] e] eqn:E.
    destruct e; intros H; try discriminate. injection H as <- <-.
    eapply nr_loop_converged; exact E.
  Qed.

  Lemma newton_iters (f : T -> T * T) ytarget guess a b ytol fb st x it :
    newton_raphson f ytarget guess a b ytol fb = (st, x, it) ->
    (it <= NEWTON_RAPHSON_NITER_MAX)%nat.
  Proof.
    unfold newton_raphson.
    destruct (nr_loop _ _ _ _ _ _ _ _) as [[x' it'] e] eqn:E.
    apply nr_loop_iter in E.
    destruct e; intros H; injection H as _ _ <-; lia.
  Qed.

  (** secant: what success guarantees, in any arithmetic *)
  Lemma sec_loop_stop left : forall iter (f : T -> T) yt xmin xmax xtol x x_last x' xl' it',
    sec_loop left iter f yt xmin xmax xtol x x_last = SecStop x' xl' it' ->
    (left > 0)%nat ->
    isnan x' = false /\ isinf x' = false /\
    exists w, x' = sec_update f yt xmin xmax xtol w.
  Proof.
    induction left as [|n IH]; intros iter f yt xmin xmax xtol x x_last x' xl' it' H Hl; [lia|].
    cbn [sec_loop] in H.
    destruct (orb _ _) eqn:E; [discriminate|]. apply orb_false_elim in E as [E1 E2].
    destruct (ltb _ _).
    - injection H as <- <- <-. eauto.
    - destruct n as [|m].
      + cbn [sec_loop] in H. injection H as <- <- <-. eauto.
      + apply IH in H; [exact H|lia].
  Qed.

  Lemma secant_success (f : T -> T) yt xguess xmin xmax xtol ytol ox :
    secant f yt xguess xmin xmax xtol ytol = (SUCCESS, ox) ->
    exists x, ox = Some x /\ isnan x = false /\ isinf x = false
      /\ (exists w, x = sec_update f yt xmin xmax xtol w)
      /\ ltb ytol (absn (div (absn (sub (f x) yt)) (add (absn (f x)) ytol))) = false.
  Proof.
    unfold secant.
    destruct (sec_loop _ _ _ _ _ _ _ _ _) as [|x xl it] eqn:E; [discriminate|].
    destruct (orb _ _) eqn:F; [discriminate|]. intros H; injection H as <-.
    apply orb_false_elim in F as [F F4]. apply orb_false_elim in F as [F F3].
    apply orb_false_elim in F as [F1 F2].
    apply sec_loop_stop in E; [|unfold SECANT_NITER_MAX; lia].
    destruct E as (E1 & E2 & E3). exists x. auto.
  Qed.
End Generic.

(* ------------------------------------------------------------------ *)
(** * Exact reals *)
Local Open Scope R_scope.

Ltac bool_cases :=
  repeat match goal with
  | |- context [Rlt_bool ?a ?b] => destruct (Rlt_bool_spec a b)
  | |- context [Rle_bool ?a ?b] => destruct (Rle_bool_spec a b)
  | |- context [Req_bool ?a ?b] => destruct (Req_bool_spec a b)
  end.

Lemma Rltb_true x y : Rlt_bool x y = true -> x < y.
Proof. destruct (Rlt_bool_spec x y); [auto|discriminate]. Qed.
Lemma Rltb_false x y : Rlt_bool x y = false -> y <= x.
Proof. destruct (Rlt_bool_spec x y); [discriminate|auto]. Qed.
Lemma Rleb_true x y : Rle_bool x y = true -> x <= y.
Proof. destruct (Rle_bool_spec x y); [auto|discriminate]. Qed.
Lemma Rleb_false x y : Rle_bool x y = false -> y < x.
Proof. destruct (Rle_bool_spec x y); [discriminate|auto]. Qed.

Lemma eq_width_stops_R xtol : 0 <= xtol -> @eq_width_stops RArith xtol.
Proof.
  intros H x. unfold lit; cbn [ltb mul sub ofQ RArith]. apply Rlt_bool_false. 
  rewrite Rminus_diag_eq by reflexivity. lra.
Qed.

(** scaled-down residuals: value divided by a power of two *)
Definition shrunk (y y0 : R) (k : nat) : Prop := y = y0 / 2 ^ k.

Lemma shrunk_refl y : shrunk y y 0.
Proof. unfold shrunk. simpl. field. Qed.
Lemma shrunk_half y y0 k : shrunk y y0 k -> shrunk (y * (1/2)) y0 (S k).
Proof. unfold shrunk. intros ->. simpl. field. apply pow_nonzero. lra. Qed.
Lemma shrunk_one y y0 k : shrunk y y0 k -> shrunk (y * (1/1)) y0 k.
Proof. unfold shrunk. intros ->. field. apply pow_nonzero. lra. Qed.

(** invariant of the regula-falsi loop on [a0,b0] for func g and sign s *)
Definition rf_inv (g : R -> R) (sgn a0 b0 : R) (s : @RF RArith) : Prop :=
  a0 <= rf_a s /\ rf_a s <= rf_b s /\ rf_b s <= b0 /\
  ((exists i j : nat, (i = 0 \/ j = 0)%nat /\ (i + j <= rf_it s)%nat /\
    shrunk (rf_ya s) (sgn * g (rf_a s)) i /\ shrunk (rf_yb s) (sgn * g (rf_b s)) j /\
    ((rf_ya s <= 0 /\ 0 <= rf_yb s) \/ rf_ya s = 0))
   \/ (rf_a s = rf_b s /\ g (rf_a s) = 0)).

Lemma shrunk_zero y y0 k : shrunk y y0 k -> y = 0 -> y0 = 0.
Proof.
  unfold shrunk. intros -> H. apply Rmult_integral in H as [H|H]; [exact H|].
  exfalso. apply Rinv_neq_0_compat in H; [auto|]. apply pow_nonzero; lra.
Qed.
Lemma shrunk_neg y y0 k : shrunk y y0 k -> y <= 0 -> y0 <= 0.
Proof.
  unfold shrunk. intros -> H. assert (0 < 2 ^ k) by (apply pow_lt; lra).
  assert (0 < / 2 ^ k) by (apply Rinv_0_lt_compat; lra). unfold Rdiv in H. nra.
Qed.
Lemma shrunk_pos y y0 k : shrunk y y0 k -> 0 <= y -> 0 <= y0.
Proof.
  unfold shrunk. intros -> H. assert (0 < 2 ^ k) by (apply pow_lt; lra).
  assert (0 < / 2 ^ k) by (apply Rinv_0_lt_compat; lra). unfold Rdiv in H. nra.
Qed.

Lemma between_convex a b ya yb :
  a <= b -> ya <= 0 -> 0 <= yb -> yb - ya <> 0 ->
  let c := (a * yb - b * ya) / (yb - ya) in a <= c <= b.
Proof.
  intros Hab Ha Hb Hn c. assert (Hd : 0 < yb - ya) by lra.
  unfold c. split.
  - apply Rmult_le_reg_r with (yb - ya); [exact Hd|].
    unfold Rdiv. rewrite Rmult_assoc, Rinv_l by lra. nra.
  - apply Rmult_le_reg_r with (yb - ya); [exact Hd|].
    unfold Rdiv. rewrite Rmult_assoc, Rinv_l by lra. nra.
Qed.

Lemma rf_step_inv g sgn a0 b0 xtol ytol s :
  (sgn = 1 \/ sgn = -1) -> 0 <= xtol -> 0 <= ytol ->
  rf_inv g sgn a0 b0 s -> @rf_cond RArith xtol ytol s = true ->
  rf_inv g sgn a0 b0 (@rf_step RArith g sgn s).
Proof.
  intros Hsg Hxt Hyt (Ha0 & Hab & Hb0 & Hcase) Hc.
  unfold rf_cond in Hc. apply andb_prop in Hc as [Hc _]. apply andb_prop in Hc as [Hw Hy].
  unfold lit in Hw; cbn [ltb mul sub ofQ RArith] in Hw. apply Rltb_true in Hw.
  cbn [ltb absn RArith] in Hy.
  destruct Hcase as [(i & j & Hij & Hk & Hsa & Hsb & Hsign)|[Heq Hz]].
  2: { exfalso. rewrite Heq in Hw. lra. }
  assert (Hnz : rf_yb s - rf_ya s <> 0).
  { intros Hd. assert (rf_ya s = 0 /\ rf_yb s = 0) as [Z1 Z2] by (destruct Hsign as [[? ?]|?]; lra).
    rewrite Z1, Z2 in Hy. rewrite Rabs_R0 in Hy.
    apply orb_prop in Hy as [Hy|Hy]; apply Rltb_true in Hy; lra. }
  unfold rf_step. unfold lit. cbn [num add sub mul div ltb eqb ofQ RArith].
  set (c := (rf_a s * rf_yb s - rf_b s * rf_ya s) / (rf_yb s - rf_ya s)).
  destruct (Req_bool_spec c (rf_a s)) as [Hca|Hca].
  { (* c = a : then ya = 0, a is an exact root *)
    assert (rf_ya s = 0).
    { assert (c * (rf_yb s - rf_ya s) = rf_a s * rf_yb s - rf_b s * rf_ya s).
      { unfold c. field. exact Hnz. }
      rewrite Hca in H. assert (rf_ya s * (rf_b s - rf_a s) = 0) by lra.
      apply Rmult_integral in H0 as [H0|H0]; lra. }
    unfold rf_inv; cbn [rf_a rf_b rf_ya rf_yb]. repeat split; try lra.
    right. split; [reflexivity|].
    apply (shrunk_zero _ _ _ Hsa) in H. destruct Hsg as [-> | ->]; lra. }
  destruct (Req_bool_spec c (rf_b s)) as [Hcb|Hcb].
  { assert (rf_yb s = 0).
    { assert (c * (rf_yb s - rf_ya s) = rf_a s * rf_yb s - rf_b s * rf_ya s).
      { unfold c. field. exact Hnz. }
      rewrite Hcb in H. assert (rf_yb s * (rf_b s - rf_a s) = 0) by lra.
      apply Rmult_integral in H0 as [H0|H0]; lra. }
    unfold rf_inv; cbn [rf_a rf_b rf_ya rf_yb]. repeat split; try lra.
    right. split; [reflexivity|].
    apply (shrunk_zero _ _ _ Hsb) in H. destruct Hsg as [-> | ->]; lra. }
  assert (Hya : rf_ya s <> 0).
  { intros H. apply Hca. unfold c. rewrite H. field. lra. }
  destruct Hsign as [[Hn Hp]|]; [|contradiction].
  pose proof (between_convex _ _ _ _ Hab Hn Hp Hnz) as Hbt. cbv zeta in Hbt. fold c in Hbt.
  set (yc := sgn * g c).
  assert (Hhalf : forall y y0 (n k : nat), shrunk y y0 k -> exists k', (k' <= S k)%nat /\
     shrunk (y * (if Nat.ltb 1 n then 1 / 2 else 1 / 1)) y0 k').
  { intros y y0 n k H. destruct (Nat.ltb 1 n); [exists (S k); split; [lia|apply shrunk_half; exact H]|exists k; split; [lia|apply shrunk_one; exact H]]. }
  assert (Hle0 : forall y (n : nat), y <= 0 -> y * (if Nat.ltb 1 n then 1 / 2 else 1 / 1) <= 0).
  { intros y n H. destruct (Nat.ltb 1 n); lra. }
  assert (Hge0 : forall y (n : nat), 0 <= y -> 0 <= y * (if Nat.ltb 1 n then 1 / 2 else 1 / 1)).
  { intros y n H. destruct (Nat.ltb 1 n); lra. }
  destruct (Rlt_bool_spec (0/1) yc) as [H1|H1].
  { unfold rf_inv; cbn [rf_a rf_b rf_ya rf_yb]. repeat split; try lra.
    left. destruct (Hhalf _ _ (S (rf_b1 s)) i Hsa) as (i' & Li & Hi'). exists i', 0%nat. cbn [rf_it].
    split; [right; reflexivity|]. split; [lia|]. split; [exact Hi'|]. split; [apply shrunk_refl | left; split; [apply Hle0; lra|lra]]. }
  destruct (Rlt_bool_spec yc (0/1)) as [H2|H2].
  { unfold rf_inv; cbn [rf_a rf_b rf_ya rf_yb]. repeat split; try lra.
    left. destruct (Hhalf _ _ (S (rf_b2 s)) j Hsb) as (j' & Lj & Hj'). exists 0%nat, j'. cbn [rf_it].
    split; [left; reflexivity|]. split; [lia|]. split; [apply shrunk_refl|]. split; [exact Hj'|left; split; [lra|apply Hge0; lra]]. }
  unfold rf_inv; cbn [rf_a rf_b rf_ya rf_yb]. repeat split; try lra.
  right. split; [reflexivity|].
  assert (yc = 0) by lra. unfold yc in H. destruct Hsg as [-> | ->]; lra.
Qed.

Lemma rf_loop_inv g sgn a0 b0 xtol ytol :
  (sgn = 1 \/ sgn = -1) -> 0 <= xtol -> 0 <= ytol ->
  forall fuel s s', rf_inv g sgn a0 b0 s ->
  @rf_loop RArith fuel g sgn xtol ytol s = Some s' ->
  rf_inv g sgn a0 b0 s' /\ @rf_cond RArith xtol ytol s' = false.
Proof.
  intros Hsg Hxt Hyt. induction fuel as [|n IH]; intros s s' Hi H; cbn [rf_loop] in H.
  - destruct (rf_cond _ _ _) eqn:E; [discriminate|]. injection H as <-. auto.
  - destruct (rf_cond _ _ _) eqn:E.
    + eapply IH; [|exact H]. apply rf_step_inv with (xtol := xtol) (ytol := ytol); assumption.
    + injection H as <-. auto.
Qed.

(** sign change between two abscissae, i.e. the two residuals are not strictly of the same sign *)
Definition sign_change (g : R -> R) (u v : R) : Prop := g u * g v <= 0.

Lemma rf_inv_sign_change g sgn a0 b0 s :
  (sgn = 1 \/ sgn = -1) -> rf_inv g sgn a0 b0 s -> sign_change g (rf_a s) (rf_b s).
Proof.
  intros Hsg (_ & _ & _ & [(i & j & _ & _ & Ha & Hb & H)|[E Z]]); unfold sign_change.
  - destruct H as [[Hn Hp]|H].
    + apply (shrunk_neg _ _ _ Ha) in Hn. apply (shrunk_pos _ _ _ Hb) in Hp.
      destruct Hsg as [-> | ->]; nra.
    + apply (shrunk_zero _ _ _ Ha) in H.
      assert (g (rf_a s) = 0) by (destruct Hsg as [-> | ->]; lra). rewrite H0. lra.
  - rewrite Z. lra.
Qed.

(** how the residual test can end the search: one end of the bracket meets the tolerance, the other does after at most k of the
    halvings of the Illinois variant *)
Definition ends_meet (ru rv tol : R) (k : nat) : Prop := (ru <= tol /\ rv <= tol * 2 ^ k) \/ (ru <= tol * 2 ^ k /\ rv <= tol).
Lemma ends_meet_min ru rv tol k : ends_meet ru rv tol k -> Rmin ru rv <= tol.
Proof. intros [[A _]|[_ A]]; [apply Rle_trans with ru; [apply Rmin_l|exact A]|apply Rle_trans with rv; [apply Rmin_r|exact A]]. Qed.

(** what a SUCCESS result means when the initial bracket has a sign change (whatever the guess) *)
Lemma rf_from_bracket_k f ytarget guess a b lo hi a1 b1 xtol ytol x n :
  0 <= xtol -> 0 <= ytol ->
  @rf_bracket RArith (fun z => f z - ytarget) guess a b = Some (a1, b1, f a1 - ytarget, f b1 - ytarget) ->
  lo <= a1 -> a1 <= b1 -> b1 <= hi -> (f a1 - ytarget) * (f b1 - ytarget) <= 0 ->
  @regula_falsi RArith f ytarget guess a b xtol ytol = RFDone SUCCESS (Some x) n ->
  exists u v, lo <= u /\ u <= v /\ v <= hi /\ x = (u + v) / 2 /\
    sign_change (fun z => f z - ytarget) u v /\
    (v - u <= 2 * xtol \/
     exists k : nat, (k <= n)%nat /\ ends_meet (Rabs (f u - ytarget)) (Rabs (f v - ytarget)) ytol k).
Proof.
  intros Hxt Hyt Hq Ha1 Hab1 Hb1 Hs H.
  unfold regula_falsi, regula_falsi_fuel in H.
  cbv zeta in H.
  set (g := fun z : num RArith => @sub RArith (f z) ytarget) in H.
  assert (Hg' : forall z, g z = f z - ytarget) by reflexivity.
  change (@rf_bracket RArith g guess a b = Some (a1, b1, g a1, g b1)) in Hq. change (g a1 * g b1 <= 0) in Hs.
  rewrite Hq in H.
  set (sgn := if ltb (g a1) (lit 0) then lit 1 else lit (-1)) in H.
  assert (Hsg : sgn = 1 \/ sgn = -1).
  { unfold sgn, lit; cbn [ltb ofQ RArith]. destruct (Rlt_bool _ _); [left|right]; lra. }
  match type of H with context [rf_loop ?fu ?gg ?ss ?xx ?yy ?st] =>
    destruct (rf_loop fu gg ss xx yy st) as [s|] eqn:E end; [|discriminate].
  injection H as Hst Hx Hn.
  assert (Hi : rf_inv g sgn lo hi s /\ @rf_cond RArith xtol ytol s = false).
  { eapply rf_loop_inv; [exact Hsg|exact Hxt|exact Hyt| |exact E].
    unfold rf_inv; cbn [rf_a rf_b rf_ya rf_yb mul RArith]. repeat split; try lra.
    left. exists 0%nat, 0%nat. cbn [rf_it]. split; [left; reflexivity|]. split; [lia|]. split; [rewrite Rmult_comm; apply shrunk_refl|].
    split; [rewrite Rmult_comm; apply shrunk_refl|].
    unfold sgn, lit; cbn [ltb ofQ RArith].
    destruct (Rlt_bool_spec (g a1) (0/1)) as [L|L]; cbn [ofQ RArith].
    - left. split; nra.
    - destruct (Req_dec (g a1) 0) as [Z|Z]; [right; rewrite Z; lra|].
      left. split; nra. }
  destruct Hi as [Hi Hc].
  pose proof (rf_inv_sign_change _ _ _ _ _ Hsg Hi) as Hsc.
  destruct Hi as (I1 & I2 & I3 & I4).
  exists (rf_a s), (rf_b s). repeat split; try assumption.
  - rewrite <- Hx. cbn [mul add ofQ RArith]. lra.
  - unfold rf_cond in Hc. apply andb_false_elim in Hc as [Hc|Hc].
    + apply andb_false_elim in Hc as [Hc|Hc].
      * left. unfold lit in Hc; cbn [ltb mul sub ofQ RArith] in Hc.
        apply Rltb_false in Hc. lra.
      * destruct I4 as [(i & j & Hij & Hk & Sa & Sb & _)|[Eq Z]].
        -- right. apply orb_false_elim in Hc as [C1 C2]. cbn [ltb absn RArith] in C1, C2.
           apply Rltb_false in C1. apply Rltb_false in C2.
           assert (K : forall y z k, shrunk y (sgn * g z) k -> Rabs y <= ytol -> Rabs (f z - ytarget) <= ytol * 2 ^ k).
           { intros y z k Hsh Hle. unfold shrunk in Hsh. rewrite Hsh in Hle.
             assert (P : 0 < 2 ^ k) by (apply pow_lt; lra).
             unfold Rdiv in Hle. rewrite Rabs_mult, (Rabs_right (/ 2 ^ k)) in Hle.
             2: { apply Rle_ge, Rlt_le, Rinv_0_lt_compat; exact P. }
             rewrite Rabs_mult in Hle.
             replace (Rabs sgn) with 1 in Hle.
             2: { destruct Hsg as [-> | ->]; [rewrite Rabs_R1; reflexivity|].
                  rewrite Rabs_left; lra. }
             rewrite Rmult_1_l in Hle. rewrite Hg' in Hle.
             apply Rmult_le_reg_r with (/ 2 ^ k); [apply Rinv_0_lt_compat; exact P|].
             rewrite Rmult_assoc, Rinv_r by lra. lra. }
           pose proof (K _ _ _ Sa C1) as Hi'. pose proof (K _ _ _ Sb C2) as Hj'. cbn [num RArith] in *.
           destruct Hij as [-> | ->].
           ++ exists j. split; [lia|]. left. rewrite pow_O, Rmult_1_r in Hi'. split; assumption.
           ++ exists i. split; [lia|]. right. rewrite pow_O, Rmult_1_r in Hj'. split; assumption.
        -- left. rewrite Eq. lra.
    + (* iteration cap: status would be FAIL *)
      apply Nat.ltb_ge in Hc.
      destruct (Nat.eqb (rf_it s) SECANT_NITER_MAX) eqn:Q; [discriminate|].
      apply Nat.eqb_neq in Q. exfalso.
      assert (rf_it s <= SECANT_NITER_MAX)%nat.
      { eapply rf_loop_it; [exact E|]. cbn [rf_it]. lia. }
      lia.
Qed.

Lemma rf_bracketed_k f ytarget guess a b xtol ytol x n :
  a <= guess <= b -> 0 <= xtol -> 0 <= ytol ->
  (f a - ytarget) * (f guess - ytarget) <= 0 \/ (f guess - ytarget) * (f b - ytarget) <= 0 ->
  @regula_falsi RArith f ytarget guess a b xtol ytol = RFDone SUCCESS (Some x) n ->
  exists u v, a <= u /\ u <= v /\ v <= b /\ x = (u + v) / 2 /\
    sign_change (fun z => f z - ytarget) u v /\
    (v - u <= 2 * xtol \/
     exists k : nat, (k <= n)%nat /\ ends_meet (Rabs (f u - ytarget)) (Rabs (f v - ytarget)) ytol k).
Proof.
  intros Hg Hxt Hyt Hbr H.
  set (g := fun z : R => f z - ytarget).
  assert (Hg' : forall z, g z = f z - ytarget) by reflexivity.
  assert (Hq : exists a1 b1, @rf_bracket RArith g guess a b = Some (a1, b1, g a1, g b1)
            /\ a <= a1 /\ a1 <= b1 /\ b1 <= b /\ g a1 * g b1 <= 0).
  { unfold rf_bracket, check_bracket, lit; cbn [leb mul ofQ RArith].
    destruct (Rle_bool_spec (g a * g guess) (0/1)) as [H1|H1].
    - exists a, guess. repeat split; try lra.
    - destruct (Rle_bool_spec (g guess * g b) (0/1)) as [H2|H2].
      + exists guess, b. repeat split; try lra.
      + exfalso. rewrite !Hg' in *. destruct Hbr; lra. }
  destruct Hq as (a1 & b1 & Hq & Ha1 & Hab1 & Hb1 & Hs).
  exact (rf_from_bracket_k f ytarget guess a b a b a1 b1 xtol ytol x n Hxt Hyt Hq Ha1 Hab1 Hb1 Hs H).
Qed.

(** from a sign change to a root *)
Lemma sign_change_root g u v :
  u <= v -> (forall z, u <= z <= v -> continuity_pt g z) -> sign_change g u v ->
  exists r, u <= r <= v /\ g r = 0.
Proof.
  intros Huv Hc Hs. unfold sign_change in Hs.
  destruct (Req_dec (g u) 0) as [Z|Z]; [exists u; split; [lra|exact Z]|].
  destruct (Req_dec (g v) 0) as [Z'|Z']; [exists v; split; [lra|exact Z']|].
  assert (Hne : u < v). { destruct Huv as [|E]; [assumption|]. subst v. exfalso. nra. }
  destruct (Rlt_dec (g u) 0) as [L|L].
  - destruct (IVT_interv g u v Hc Hne L) as [z [Hz1 Hz2]]; [nra|]. eauto.
  - assert (0 < g u) by lra.
    destruct (IVT_interv (fun z => - g z) u v) as [z [Hz1 Hz2]]; try lra.
    + intros z Hz. apply continuity_pt_opp. apply Hc; exact Hz.
    + nra.
    + exists z. split; [exact Hz1|lra].
Qed.

Lemma rf_root_near_k f ytarget guess a b xtol ytol x n :
  a <= guess <= b -> 0 <= xtol -> 0 <= ytol ->
  (forall z, a <= z <= b -> continuity_pt f z) ->
  (f a - ytarget) * (f guess - ytarget) <= 0 \/ (f guess - ytarget) * (f b - ytarget) <= 0 ->
  @regula_falsi RArith f ytarget guess a b xtol ytol = RFDone SUCCESS (Some x) n ->
  a <= x <= b /\
  exists u v r, a <= u /\ u <= r <= v /\ v <= b /\ u <= x <= v /\ f r = ytarget /\
    (Rabs (x - r) <= xtol \/
     exists k : nat, (k <= n)%nat /\ ends_meet (Rabs (f u - ytarget)) (Rabs (f v - ytarget)) ytol k).
Proof.
  intros Hg Hxt Hyt Hc Hbr H.
  destruct (rf_bracketed_k _ _ _ _ _ _ _ _ _ Hg Hxt Hyt Hbr H)
    as (u & v & Hu & Huv & Hv & Hx & Hs & Hex).
  split; [lra|].
  destruct (sign_change_root (fun z => f z - ytarget) u v Huv) as (r & Hr & Hr0); [|exact Hs|].
  { intros z Hz. apply continuity_pt_minus; [apply Hc; lra|].
    apply continuity_pt_const. intros p q; reflexivity. }
  exists u, v, r. repeat split; try lra.
  destruct Hex as [W|W]; [left|right; exact W].
  apply Rabs_le. lra.
Qed.

(** the same with the short form of the residual exit *)
Lemma rf_from_bracket f ytarget guess a b lo hi a1 b1 xtol ytol x n :
  0 <= xtol -> 0 <= ytol ->
  @rf_bracket RArith (fun z => f z - ytarget) guess a b = Some (a1, b1, f a1 - ytarget, f b1 - ytarget) ->
  lo <= a1 -> a1 <= b1 -> b1 <= hi -> (f a1 - ytarget) * (f b1 - ytarget) <= 0 ->
  @regula_falsi RArith f ytarget guess a b xtol ytol = RFDone SUCCESS (Some x) n ->
  exists u v, lo <= u /\ u <= v /\ v <= hi /\ x = (u + v) / 2 /\
    sign_change (fun z => f z - ytarget) u v /\
    (v - u <= 2 * xtol \/
     Rmin (Rabs (f u - ytarget)) (Rabs (f v - ytarget)) <= ytol).
Proof.
  intros H1 H2 H3 H4 H5 H6 H7 H8. destruct (rf_from_bracket_k f ytarget guess a b lo hi a1 b1 xtol ytol x n H1 H2 H3 H4 H5 H6 H7 H8) as (u & v & A1 & A2 & A3 & A4 & A5 & A6).
  exists u, v. refine (conj A1 (conj A2 (conj A3 (conj A4 (conj A5 _))))).
  destruct A6 as [A6|(k & _ & A6)]; [left; exact A6|right; apply ends_meet_min in A6; exact A6].
Qed.
Lemma rf_bracketed f ytarget guess a b xtol ytol x n :
  a <= guess <= b -> 0 <= xtol -> 0 <= ytol ->
  (f a - ytarget) * (f guess - ytarget) <= 0 \/ (f guess - ytarget) * (f b - ytarget) <= 0 ->
  @regula_falsi RArith f ytarget guess a b xtol ytol = RFDone SUCCESS (Some x) n ->
  exists u v, a <= u /\ u <= v /\ v <= b /\ x = (u + v) / 2 /\
    sign_change (fun z => f z - ytarget) u v /\
    (v - u <= 2 * xtol \/
     Rmin (Rabs (f u - ytarget)) (Rabs (f v - ytarget)) <= ytol).
Proof.
  intros H1 H2 H3 H4 H5. destruct (rf_bracketed_k f ytarget guess a b xtol ytol x n H1 H2 H3 H4 H5) as (u & v & A1 & A2 & A3 & A4 & A5 & A6).
  exists u, v. refine (conj A1 (conj A2 (conj A3 (conj A4 (conj A5 _))))).
  destruct A6 as [A6|(k & _ & A6)]; [left; exact A6|right; apply ends_meet_min in A6; exact A6].
Qed.
Lemma rf_root_near f ytarget guess a b xtol ytol x n :
  a <= guess <= b -> 0 <= xtol -> 0 <= ytol ->
  (forall z, a <= z <= b -> continuity_pt f z) ->
  (f a - ytarget) * (f guess - ytarget) <= 0 \/ (f guess - ytarget) * (f b - ytarget) <= 0 ->
  @regula_falsi RArith f ytarget guess a b xtol ytol = RFDone SUCCESS (Some x) n ->
  a <= x <= b /\
  exists u v r, a <= u /\ u <= r <= v /\ v <= b /\ u <= x <= v /\ f r = ytarget /\
    (Rabs (x - r) <= xtol \/
     Rmin (Rabs (f u - ytarget)) (Rabs (f v - ytarget)) <= ytol).
Proof.
  intros H1 H2 H3 H4 H5 H6. destruct (rf_root_near_k f ytarget guess a b xtol ytol x n H1 H2 H3 H4 H5 H6) as (A0 & u & v & r & A1 & A2 & A3 & A4 & A5 & A6).
  split; [exact A0|]. exists u, v, r. refine (conj A1 (conj A2 (conj A3 (conj A4 (conj A5 _))))).
  destruct A6 as [A6|(k & _ & A6)]; [left; exact A6|right; apply ends_meet_min in A6; exact A6].
Qed.

(** ** Newton *)
Lemma clamp_R w a b : a <= b -> a <= @amax RArith (@amin RArith w b) a <= b.
Proof.
  intros H. unfold amax, amin; cbn [ltb RArith].
  cbn [num RArith] in w. destruct (Rlt_bool_spec b w);
    match goal with |- context [Rlt_bool ?x ?y] => destruct (Rlt_bool_spec x y) end; lra.
Qed.

Lemma newton_success_R f ytarget guess a b ytol x n :
  a <= guess <= b ->
  @newton_raphson RArith f ytarget guess a b ytol true = (SUCCESS, x, n) ->
  a <= x <= b /\ Rabs (fst (f x) - ytarget) < Rabs (ytol * ytarget).
Proof.
  intros Hg H. apply newton_success in H as [H1 H2].
  cbn [ltb absn sub mul RArith] in H1. apply Rltb_true in H1. split; [|exact H1].
  destruct H2 as [->|[w ->]]; [exact Hg|]. apply clamp_R; lra.
Qed.

Lemma newton_zero_target f guess a b ytol :
  fst (fst (@newton_raphson RArith f 0 guess a b ytol true)) = FAIL.
Proof.
  destruct (@newton_raphson RArith f 0 guess a b ytol true) as [[st x] n] eqn:E. simpl.
  destruct st; [|reflexivity]. exfalso. apply newton_success in E as [H _].
  cbn [ltb absn sub mul RArith] in H. apply Rltb_true in H.
  rewrite Rmult_0_r, Rabs_R0 in H. pose proof (Rabs_pos (fst (f x) - 0)). lra.
Qed.

(** ** secant / bisect / findRoot *)
Lemma sec_update_bounds f yt xmin xmax xtol w :
  xmin <= xmax -> xmin <= @sec_update RArith f yt xmin xmax xtol w <= xmax.
Proof.
  intros H. unfold sec_update. cbn [num ltb add sub mul div absn ofQ RArith]. cbv zeta.
  match goal with |- context [Rlt_bool ?z xmin] => generalize z; intros y end.
  cbn [num RArith] in *. destruct (Rlt_bool_spec y xmin);
    match goal with |- context [Rlt_bool xmax ?z] => destruct (Rlt_bool_spec xmax z) end; lra.
Qed.

Lemma secant_success_R f yt xguess xmin xmax xtol ytol ox :
  xmin <= xmax ->
  @secant RArith f yt xguess xmin xmax xtol ytol = (SUCCESS, ox) ->
  exists x, ox = Some x /\ xmin <= x <= xmax /\
    Rabs (Rabs (f x - yt) / (Rabs (f x) + ytol)) <= ytol.
Proof.
  intros Hm H. apply secant_success in H as (x & -> & _ & _ & (w & Hw) & He).
  exists x. split; [reflexivity|]. split.
  - rewrite Hw. apply sec_update_bounds; exact Hm.
  - cbn [ltb absn div sub add RArith] in He. apply Rltb_false in He. exact He.
Qed.

Lemma secant_fail_bounds_R f yt xguess xmin xmax xtol ytol :
  xmin <= xmax ->
  exists x, snd (@secant RArith f yt xguess xmin xmax xtol ytol) = Some x /\ xmin <= x <= xmax.
Proof.
  intros Hm. unfold secant.
  destruct (sec_loop _ _ _ _ _ _ _ _ _) as [|x xl it] eqn:E.
  - exfalso. revert E. generalize xguess at 2 as x1. generalize xguess as x0. generalize O as it.
    generalize SECANT_NITER_MAX as left. induction left as [|k IH]; intros it x0 x1 H; cbn [sec_loop] in H.
    + discriminate.
    + cbn [isnan isinf RArith orb] in H.
      destruct (ltb _ _); [discriminate|]. apply IH in H; exact H.
  - apply sec_loop_stop in E; [|unfold SECANT_NITER_MAX; lia]. destruct E as (_ & _ & w & ->).
    exists (@sec_update RArith f yt xmin xmax xtol w). split.
    + destruct (orb _ _); reflexivity.
    + apply sec_update_bounds; exact Hm.
Qed.

(** a bisection quadruple is consistent with f and brackets *)
Definition bq_ok (f : R -> R) (yt : R) (q : R * R * R * R) : Prop :=
  let '(xl, xr, fl, fr) := q in fl = f xl - yt /\ fr = f xr - yt.

Lemma bis_region_ok f yt xmin xmax x :
  forall left i grow last q, bq_ok f yt last \/ (left > 0)%nat ->
  @bis_region RArith left i f yt xmin xmax x grow last = Some q ->
  bq_ok f yt q /\ ((left > 0)%nat ->
     let '(xl, xr, _, _) := q in xl <= x <= xr).
Proof.
  induction left as [|n IH]; intros i grow last q Hl H; cbn [bis_region] in H.
  - injection H as <-. split; [destruct Hl; [assumption|lia]|lia].
  - cbn [num add sub mul absn ltb ofQ RArith] in H. cbv zeta in H.
    destruct (orb _ _).
    + injection H as <-. split; [split; reflexivity|]. intros _.
      pose proof (Rabs_pos (grow * x)). lra.
    + destruct (Nat.ltb _ i); [discriminate|].
      destruct n as [|m].
      * cbn [bis_region] in H. injection H as <-. split; [split; reflexivity|].
        intros _. pose proof (Rabs_pos (grow * x)). lra.
      * eapply IH in H; [|right; lia]. destruct H as [H1 H2].
        split; [exact H1|]. intros _. apply H2. lia.
Qed.

Lemma bis_clamp_ok f yt xmin xmax q x :
  bq_ok f yt q -> (let '(xl, xr, _, _) := q in xl <= x <= xr) -> xmin <= x <= xmax ->
  bq_ok f yt (@bis_clamp RArith f yt xmin xmax q) /\
  (let '(xl, xr, _, _) := @bis_clamp RArith f yt xmin xmax q in
   xmin <= xl /\ xl <= xr /\ xr <= xmax).
Proof.
  destruct q as [[[xl xr] fl] fr]. intros [-> ->] Hx Hm.
  unfold bis_clamp. cbn [ltb sub RArith].
  destruct (Rlt_bool_spec xmax xr); destruct (Rlt_bool_spec xl xmin);
    (split; [split; reflexivity|lra]).
Qed.

Lemma bis_fixsign_ok f yt xmin xmax q q' :
  bq_ok f yt q ->
  (let '(xl, xr, _, _) := q in xmin <= xl /\ xl <= xr /\ xr <= xmax) ->
  @bis_fixsign RArith f yt xmin xmax q = Some q' ->
  bq_ok f yt q' /\
  (let '(xl, xr, fl, fr) := q' in xmin <= xl /\ xl <= xr /\ xr <= xmax /\ fl * fr <= 0).
Proof.
  destruct q as [[[xl xr] fl] fr]. intros [-> ->] Hb. unfold bis_fixsign, lit.
  cbn [ltb sub mul ofQ RArith].
  destruct (Rlt_bool_spec (0/1) ((f xl - yt) * (f xr - yt))).
  2: { intros H'; injection H' as <-. split; [split; reflexivity|lra]. }
  destruct (Rlt_bool_spec (0/1) ((f xmin - yt) * (f xr - yt))).
  2: { intros H'; injection H' as <-. split; [split; reflexivity|lra]. }
  destruct (Rlt_bool_spec (0/1) ((f xmin - yt) * (f xmax - yt))).
  { discriminate. }
  intros H'; injection H' as <-. split; [split; reflexivity|lra].
Qed.

Lemma bis_loop_ok f yt xtol xmin xmax :
  forall left q st xl xr, bq_ok f yt q ->
  (let '(xl, xr, fl, fr) := q in xmin <= xl /\ xl <= xr /\ xr <= xmax /\ fl * fr <= 0) ->
  @bis_loop RArith left f yt xtol q = (st, (xl, xr)) ->
  xmin <= xl /\ xl <= xr /\ xr <= xmax /\ sign_change (fun z => f z - yt) xl xr /\
  (st = SUCCESS -> xr - xl < xtol).
Proof.
  induction left as [|n IH]; intros [[[pl pr] fl] fr] st xl xr [-> ->] Hb H; cbn [bis_loop] in H.
  - injection H as <- <- <-. unfold sign_change. repeat split; try lra. discriminate.
  - unfold lit in H. cbn [leb ltb add sub mul ofQ RArith] in H. cbv zeta in H.
    set (xm := 1/2 * (pl + pr)) in H.
    assert (Hxm : pl <= xm <= pr) by (unfold xm; lra).
    destruct (Rle_bool_spec ((f pl - yt) * (f xm - yt)) (0/1)) as [L|L].
    + destruct (Rlt_bool_spec (xm - pl) xtol) as [W|W].
      * injection H as <- <- <-. unfold sign_change. repeat split; lra.
      * apply IH in H; [exact H|split; reflexivity|lra].
    + assert (Hs : (f xm - yt) * (f pr - yt) <= 0).
      { destruct Hb as (_ & _ & _ & Hb). 
        destruct (Rtotal_order (f pl - yt) 0) as [L1|[L1|L1]]; [|rewrite L1 in L; lra|].
        - assert (f xm - yt < 0) by nra. nra.
        - assert (0 < f xm - yt) by nra. nra. }
      destruct (Rlt_bool_spec (pr - xm) xtol) as [W|W].
      * injection H as <- <- <-. unfold sign_change. repeat split; lra.
      * apply IH in H; [exact H|split; reflexivity|lra].
Qed.

Lemma bisect_ok f yt xguess xmin xmax xtol st ox :
  (let x := if Rlt_bool (Rabs xguess) xtol then xguess + 2 * xtol else xguess in xmin <= x <= xmax) ->
  @bisect RArith f yt xguess xmin xmax xtol = (st, ox) ->
  match ox with
  | None => st = FAIL
  | Some x => exists u v, xmin <= u /\ u <= x <= v /\ v <= xmax /\ 
                sign_change (fun z => f z - yt) u v /\ (st = SUCCESS -> v - u < xtol)
  end.
Proof.
  intros Hx H. unfold bisect in H. unfold lit in H. cbn [ltb add sub mul ofQ absn RArith] in H.
  cbv zeta in Hx.
  set (x := if Rlt_bool (Rabs xguess) xtol then xguess + 2 / 1 * xtol else xguess) in H.
  assert (Hxx : xmin <= x <= xmax).
  { unfold x. destruct (Rlt_bool (Rabs xguess) xtol); lra. }
  destruct (bis_region _ _ _ _ _ _ _ _ _) as [q|] eqn:E.
  2: { injection H as <- <-. reflexivity. }
  apply bis_region_ok in E; [|right; unfold BISECT_REG_MAX; lia].
  destruct E as [E1 E2].
  assert (E2' : let '(xl, xr, _, _) := q in xl <= x <= xr) by (apply E2; unfold BISECT_REG_MAX; lia).
  destruct (bis_clamp_ok f yt xmin xmax q x E1 E2' Hxx) as [C1 C2].
  destruct (bis_fixsign _ _ _ _ _) as [q'|] eqn:F.
  2: { injection H as <- <-. reflexivity. }
  destruct (bis_fixsign_ok f yt xmin xmax _ _ C1 C2 F) as [F1 F2].
  destruct (bis_loop _ _ _ _ _) as [st' [xl xr]] eqn:L.
  injection H as <- <-.
  destruct (bis_loop_ok f yt xtol xmin xmax _ _ _ _ _ F1 F2 L) as (L1 & L2 & L3 & L4 & L5).
  exists xl, xr. repeat split; try lra; try assumption.
Qed.

Lemma findRoot_success_bounds f yt xguess xmin xmax xtol ytol x0 x :
  xmin <= xmax ->
  @findRoot RArith f yt xguess xmin xmax xtol ytol x0 = (SUCCESS, x) ->
  xmin <= x <= xmax.
Proof.
  intros Hm H. unfold findRoot in H.
  destruct (ltb _ ytol). { injection H as <-. lra. }
  destruct (ltb _ ytol). { injection H as <-. lra. }
  match type of H with context [secant f yt ?g xmin xmax xtol ytol] => set (xg := g) in H end.
  destruct (secant f yt xg xmin xmax xtol ytol) as [st ox] eqn:S.
  destruct st.
  - apply secant_success_R in S as (x1 & -> & Hb & _); [|exact Hm]. injection H as <-. exact Hb.
  - destruct (bisect _ _ _ _ _ _) as [st xb] eqn:B.
    cbn [isnan isinf ltb RArith orb] in H.
    match type of H with context [Rlt_bool ?z xmin] => set (x2 := z) in H end.
    destruct (Rlt_bool_spec x2 xmin); [discriminate|].
    destruct (Rlt_bool_spec xmax x2); [discriminate|].
    injection H as _ <-. lra.
Qed.

(** where the guess ends up after the two adjustments in findRoot *)
Lemma findRoot_success f yt xguess xmin xmax xtol ytol x0 x :
  0 < xtol -> 3 * xtol <= xmax -> xmin + 2 * xtol <= xmax -> 0 < ytol ->
  @findRoot RArith f yt xguess xmin xmax xtol ytol x0 = (SUCCESS, x) ->
  xmin <= x <= xmax /\
  (Rabs (f x - yt) <= ytol * (Rabs (f x) + ytol) \/
   exists u v, xmin <= u /\ u <= x <= v /\ v <= xmax /\ v - u < xtol /\
     sign_change (fun z => f z - yt) u v).
Proof.
  intros Hxt Hx3 Hx2 Hyt H. assert (Hm : xmin <= xmax) by lra.
  split; [eapply findRoot_success_bounds; eauto|].
  assert (K : forall z e, Rabs (z - yt) / (Rabs z + ytol) <= e ->
     Rabs (z - yt) <= e * (Rabs z + ytol)).
  { intros z e Hz. pose proof (Rabs_pos z).
    apply Rmult_le_reg_r with (/ (Rabs z + ytol)); [apply Rinv_0_lt_compat; lra|].
    rewrite Rmult_assoc, Rinv_r by lra. unfold Rdiv in Hz. lra. }
  unfold findRoot in H. cbn [absn sub add div ltb leb isnan isinf RArith] in H. cbv zeta in H.
  destruct (Rlt_bool_spec (Rabs (f xmax - yt) / (Rabs (f xmax) + ytol)) ytol) as [L1|L1].
  { injection H as <-. left. apply K. lra. }
  destruct (Rlt_bool_spec (Rabs (f xmin - yt) / (Rabs (f xmin) + ytol)) ytol) as [L2|L2].
  { injection H as <-. left. apply K. lra. }
  match type of H with context [secant f yt ?g xmin xmax xtol ytol] => set (xg := g) in H end.
  assert (Hxg : xmin < xg < xmax).
  { unfold xg. destruct (Rle_bool_spec xmax xguess).
    - destruct (Rle_bool_spec (xmax - xtol) xmin); lra.
    - destruct (Rle_bool_spec xguess xmin); lra. }
  destruct (secant f yt xg xmin xmax xtol ytol) as [st ox] eqn:S.
  destruct st.
  - apply secant_success_R in S as (x1 & -> & Hb & He); [|exact Hm]. injection H as <-.
    left. apply K. eapply Rle_trans; [apply Rle_abs|exact He].
  - destruct (bisect _ _ _ _ _ _) as [st xb] eqn:B.
    apply bisect_ok in B.
    2: { cbv zeta. destruct (Rlt_bool_spec (Rabs xg) xtol) as [L|L]; [|lra].
         apply Rabs_def2 in L. lra. }
    cbn [orb] in H.
    destruct xb as [y|].
    + destruct B as (u & v & B1 & B2 & B3 & B4 & B5).
      destruct (Rlt_bool y xmin); [discriminate|]. destruct (Rlt_bool xmax y); [discriminate|].
      injection H as -> <-. right. exists u, v. repeat split; try lra; auto.
    + subst st. destruct (Rlt_bool _ xmin); [discriminate|]. destruct (Rlt_bool xmax _); discriminate.
Qed.

(** when the root find fails the output is still inside the bounds (exact arithmetic) *)
Lemma findRoot_fail_bounds f yt xguess xmin xmax xtol ytol x0 x :
  0 < xtol -> 3 * xtol <= xmax -> xmin + 2 * xtol <= xmax ->
  @findRoot RArith f yt xguess xmin xmax xtol ytol x0 = (FAIL, x) ->
  xmin <= x <= xmax.
Proof.
  intros Hxt Hx3 Hx2 H. assert (Hm : xmin <= xmax) by lra.
  unfold findRoot in H. cbn [absn sub add div ltb leb isnan isinf RArith] in H. cbv zeta in H.
  destruct (Rlt_bool _ ytol); [discriminate|].
  destruct (Rlt_bool _ ytol); [discriminate|].
  match type of H with context [secant f yt ?g xmin xmax xtol ytol] => set (xg := g) in H end.
  assert (Hxg : xmin < xg < xmax).
  { unfold xg. destruct (Rle_bool_spec xmax xguess).
    - destruct (Rle_bool_spec (xmax - xtol) xmin); lra.
    - destruct (Rle_bool_spec xguess xmin); lra. }
  destruct (secant f yt xg xmin xmax xtol ytol) as [st ox] eqn:S.
  destruct (secant_fail_bounds_R f yt xg xmin xmax xtol ytol Hm) as (x1 & E1 & Hb1).
  rewrite S in E1. simpl in E1. subst ox.
  destruct st; [discriminate|].
  destruct (bisect _ _ _ _ _ _) as [st xb] eqn:B.
  apply bisect_ok in B.
  2: { cbv zeta. destruct (Rlt_bool_spec (Rabs xg) xtol) as [L|L]; [|lra].
       apply Rabs_def2 in L. lra. }
  assert (Hy : xmin <= (match xb with Some y => y | None => x1 end) <= xmax).
  { destruct xb as [y|]; [|exact Hb1]. destruct B as (u & v & B1 & B2 & B3 & _). lra. }
  cbn [orb] in H.
  destruct (Rlt_bool _ xmin). { injection H as <-. exact Hy. }
  destruct (Rlt_bool xmax _). { injection H as <-. exact Hy. }
  injection H as _ <-. exact Hy.
Qed.
