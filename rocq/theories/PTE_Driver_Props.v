(** C35: PTESolver terminates within its budget and reports convergence truthfully *)
From Coq Require Import ZArith Bool List Lia Reals Lra Floats.
From Flocq Require Import Core.
From Verif Require Import Arith Robust_Model Robust_Proofs Thermo_Spec Thermo_Tools PTE_Driver_Model.
Local Open Scope R_scope.

(** ** Any arithmetic, any system *)
Section Generic.
Context {A : Arith} {S : Type}.
Variable rat : num A -> num A -> num A.
Variable sys : System A S.
Let p := sParams sys.

Definition max_iter : nat := (sNmat sys * pte_max_iter_per_mat p)%nat.

Ltac step_cases H :=
  unfold newton_step in H;
  destruct (sCheckPTE sys (dS _)) as [cv ce] eqn:EC in H.

Lemma step_spec N n d d1 brk : newton_step rat sys N n d = (d1, brk) -> dSlow d = false ->
  dMaxN d1 = Nat.max (dMaxN d) n /\
  ( (brk = true /\ dConv d1 = true /\ dSlow d1 = false /\ dS d1 = dS d /\ fst (sCheckPTE sys (dS d1)) = true /\ dErr d1 = dErr d /\ dMaxL d1 = dMaxL d)
  \/ (brk = true /\ dConv d1 = false /\ dSlow d1 = false /\ dErr d1 = dErr d /\ dMaxL d1 = dMaxL d)
  \/ (exists s2 s3 sc s4 err maxl, fst (sCheckPTE sys (dS d)) = false /\
        sSolve sys (sJacobian sys (dS d)) = (s2, true) /\ sScaleDx sys s2 = (s3, sc) /\
        line_search rat sys s3 (amin (lit 1) sc) (dErr d) (dMaxL d) = (s4, err, maxl) /\
        dS d1 = sFixup sys s4 /\ dErr d1 = err /\ dMaxL d1 = maxl /\
        ((brk = true /\ dConv d1 = true /\ dSlow d1 = true /\ snd (sCheckPTE sys (dS d)) = true /\
           (ltb (mul (pte_slow_convergence_thresh p) (dErr d)) err = true \/ n = N - 1)%nat)
         \/ (brk = false /\ dConv d1 = false /\ dSlow d1 = false)))).
Proof.
  intros H HS. unfold newton_step in H.
  destruct (sCheckPTE sys (dS d)) as [cv ce] eqn:EC.
  destruct cv.
  { inversion H; subst; cbn. split; [reflexivity|]. left. rewrite EC. cbn. repeat split; auto. }
  destruct (sSolve sys (sJacobian sys (dS d))) as [s2 ok] eqn:ESol. destruct ok; cbn [negb] in H.
  2: { inversion H; subst; cbn. split; [reflexivity|]. right; left. repeat split; auto. }
  destruct (sScaleDx sys s2) as [s3 sc] eqn:ESc.
  match type of H with (if ?b then _ else _) = _ => destruct b end.
  { inversion H; subst; cbn. split; [reflexivity|]. right; left. repeat split; auto. }
  destruct (line_search rat sys s3 (amin (lit 1) sc) (dErr d) (dMaxL d)) as [[s4 err] maxl] eqn:EL.
  match type of H with (if ?b then _ else _) = _ => destruct b eqn:EB end.
  - inversion H; subst; cbn. split; [reflexivity|]. right; right. exists s2, s3, sc, s4, err, maxl.
    apply andb_prop in EB. destruct EB as [EB1 EB2]. apply orb_prop in EB1.
    do 7 (split; [first [reflexivity | exact ESol | exact ESc | exact EL]|]). left. cbn. repeat split; auto.
    destruct EB1 as [E|E]; [left; exact E|right; apply Nat.eqb_eq; exact E].
  - inversion H; subst; cbn. split; [reflexivity|]. right; right. exists s2, s3, sc, s4, err, maxl.
    do 7 (split; [first [reflexivity | exact ESol | exact ESc | exact EL]|]). right. repeat split; auto.
Qed.


Lemma loop_conv N : forall fuel n d, dConv d = false -> dSlow d = false -> (dMaxN d <= n)%nat ->
  let d' := newton_loop rat sys fuel N n d in
  (dSlow d' = true -> dConv d' = true) /\
  (dConv d' = true -> dSlow d' = false -> fst (sCheckPTE sys (dS d')) = true) /\
  (dSlow d' = true -> exists s0 err0 ml0 s2 s3 sc s4 err maxl,
      sCheckPTE sys s0 = (false, true) /\ sSolve sys (sJacobian sys s0) = (s2, true) /\ sScaleDx sys s2 = (s3, sc) /\
      line_search rat sys s3 (amin (lit 1) sc) err0 ml0 = (s4, err, maxl) /\
      dS d' = sFixup sys s4 /\ dErr d' = err /\
      (ltb (mul (pte_slow_convergence_thresh p) err0) err = true \/ dMaxN d' = N - 1)%nat).
Proof.
  induction fuel as [|f IH]; intros n d HC HS HN; cbn zeta.
  { cbn [newton_loop]. rewrite HC, HS. repeat split; discriminate. }
  cbn [newton_loop]. destruct (newton_step rat sys N n d) as [d1 brk] eqn:E.
  destruct (step_spec _ _ _ _ _ E HS) as [HM [H|[H|H]]].
  - destruct H as (-> & H1 & H2 & H3 & H4 & _). rewrite H1, H2. repeat split; try discriminate. intros; exact H4.
  - destruct H as (-> & H1 & H2 & _). rewrite H1, H2. repeat split; discriminate.
  - destruct H as (s2 & s3 & sc & s4 & err & maxl & HK & HSol & HSc & HL & HS1 & HE1 & HM1 & [H|H]).
    + destruct H as (-> & H1 & H2 & H3 & H4). rewrite H1, H2. repeat split; auto; try discriminate.
      intros _. exists (dS d), (dErr d), (dMaxL d), s2, s3, sc, s4, err, maxl.
      split. { destruct (sCheckPTE sys (dS d)) as [a b]; cbn in *; congruence. }
      repeat (split; [assumption|]). destruct H4 as [H4|H4]; [left; exact H4|right; lia].
    + destruct H as (-> & H1 & H2). apply IH; auto. lia.
Qed.

(** If the driver reports convergence without the slow-convergence flag, the state it hands to Fixup/Finalize is one
    that passed the system's own strict check. *)
Theorem C35_converged_state_passes_check : forall s st sf, PTESolver rat sys s = (st, sf) ->
  converged st = true -> slow_convergence_detected st = false ->
  exists s', fst (sCheckPTE sys s') = true /\ sf = sFinalize sys (sFixup sys s').
Proof.
  intros s st sf H HC HS. unfold PTESolver in H. destruct (sInit sys s) as [s0 e0].
  set (d := newton_loop _ _ _ _ _ _) in H.
  pose proof (loop_conv max_iter max_iter 0 (mkD s0 e0 false false 0 0 0) eq_refl eq_refl (Nat.le_refl 0)) as (_ & HK & _).
  fold p max_iter in d. fold d in HK. inversion H; subst st sf. cbn in HC, HS.
  exists (dS d). split; [apply HK; assumption|reflexivity].
Qed.

(** The slow-convergence flag always comes with converged = true, and means: the state one Newton step EARLIER passed
    the looser check (and failed the strict one), and that step reduced the residual too little or was the last one. *)
Theorem C35_slow_means_previous_state_acceptable : forall s st sf, PTESolver rat sys s = (st, sf) ->
  slow_convergence_detected st = true ->
  converged st = true /\
  exists s0 err0 ml0 s2 s3 sc s4 err maxl,
    sCheckPTE sys s0 = (false, true) /\ sSolve sys (sJacobian sys s0) = (s2, true) /\ sScaleDx sys s2 = (s3, sc) /\
    line_search rat sys s3 (amin (lit 1) sc) err0 ml0 = (s4, err, maxl) /\
    sf = sFinalize sys (sFixup sys (sFixup sys s4)) /\ residual st = err /\
    (ltb (mul (pte_slow_convergence_thresh p) err0) err = true \/ max_niter st = max_iter - 1)%nat.
Proof.
  intros s st sf H HS. unfold PTESolver in H. destruct (sInit sys s) as [s0 e0].
  set (d := newton_loop _ _ _ _ _ _) in H.
  pose proof (loop_conv max_iter max_iter 0 (mkD s0 e0 false false 0 0 0) eq_refl eq_refl (Nat.le_refl 0)) as (HF & _ & HK).
  fold p max_iter in d. fold d in HF, HK. inversion H; subst st sf. cbn in HS |- *.
  split; [apply HF; exact HS|].
  destruct (HK HS) as (a1 & a2 & a3 & a4 & a5 & a6 & a7 & a8 & a9 & b1 & b2 & b3 & b4 & b5 & b6 & b7).
  exists a1, a2, a3, a4, a5, a6, a7, a8, a9. rewrite <- b5. repeat (split; [assumption || reflexivity|]). exact b7.
Qed.

(** Nothing is iterated when the initial guess already passes the check *)
Theorem C35_converged_initial_guess_untouched : forall s s0 e0, sInit sys s = (s0, e0) -> (0 < max_iter)%nat ->
  fst (sCheckPTE sys s0) = true ->
  PTESolver rat sys s = (mkStatus A true false 0 0 0 e0, sFinalize sys (sFixup sys s0)).
Proof.
  intros s s0 e0 HI HN HC. unfold PTESolver. rewrite HI. fold p. fold max_iter. destruct max_iter as [|k]; [lia|].
  cbn [newton_loop]. unfold newton_step. cbn [dS dErr dConv dSlow dMaxN dMaxL dSmall].
  destruct (sCheckPTE sys s0) as [a b]. cbn in HC. subst a. reflexivity.
Qed.

(** ** Work bounds *)
Lemma line_loop_maxl : forall fuel li s sc eo g e ml s' e' ml', line_loop sys fuel li s sc eo g e ml = (s', e', ml') ->
  (ml <= ml' <= Nat.max ml (li + fuel - 1))%nat.
Proof.
  induction fuel as [|f IH]; intros li s sc eo g e ml s' e' ml' H; cbn [line_loop] in H.
  { inversion H; subst. lia. }
  destruct (sTestUpdate sys sc false s) as [s1 e1]. destruct (ltb e1 _).
  { inversion H; subst. lia. }
  apply IH in H. lia.
Qed.
Lemma line_search_maxl s sc eo ml s' e' ml' : line_search rat sys s sc eo ml = (s', e', ml') ->
  (ml <= ml' <= Nat.max ml (line_search_max_iter p - 1))%nat.
Proof.
  unfold line_search. destruct (sTestUpdate sys (lit 1) true s) as [s1 e1]. destruct (ltb _ e1).
  - destruct (sTestUpdate sys (ofQ 1 2) false s1) as [s2 e2]. intros H. apply line_loop_maxl in H. fold p in H. lia.
  - intros H. inversion H; subst. lia.
Qed.

Lemma step_small N n d d1 brk : newton_step rat sys N n d = (d1, brk) ->
  (dSmall d <= dSmall d1 <= Datatypes.S (dSmall d))%nat /\ (brk = false -> dSmall d1 < pte_small_step_tries p)%nat.
Proof.
  intros H. unfold newton_step in H. destruct (sCheckPTE sys (dS d)) as [cv ce].
  destruct cv. { inversion H; subst; cbn. split; [lia|discriminate]. }
  destruct (sSolve sys (sJacobian sys (dS d))) as [s2 ok]. destruct ok; cbn [negb] in H.
  2: { inversion H; subst; cbn. split; [lia|discriminate]. }
  destruct (sScaleDx sys s2) as [s3 sc].
  set (sm := if ltb (absn (amin (lit 1) sc)) (pte_small_step_thresh (sParams sys)) then Datatypes.S (dSmall d) else dSmall d) in H.
  assert (dSmall d <= sm <= Datatypes.S (dSmall d))%nat as Hsm by (unfold sm; destruct (ltb (absn _) _); lia).
  clearbody sm.
  destruct (_ <=? sm)%nat eqn:ET. { inversion H; subst; cbn. split; [lia|discriminate]. }
  destruct (line_search rat sys s3 (amin (lit 1) sc) (dErr d) (dMaxL d)) as [[s4 err] maxl].
  apply Nat.leb_gt in ET. fold p in ET.
  match type of H with (if ?b then _ else _) = _ => destruct b end; inversion H; subst; cbn; (split; [lia|]); intros; [discriminate|exact ET].
Qed.

Lemma loop_counts N : forall fuel n d, dSlow d = false -> (n + fuel = N)%nat -> (dMaxN d <= n - 1)%nat ->
  (dMaxL d <= line_search_max_iter p - 1)%nat -> (dSmall d = 0 \/ dSmall d < pte_small_step_tries p)%nat ->
  let d' := newton_loop rat sys fuel N n d in
  (dMaxN d' <= N - 1)%nat /\ (dMaxL d' <= line_search_max_iter p - 1)%nat /\ (dSmall d' <= Nat.max 1 (pte_small_step_tries p))%nat.
Proof.
  induction fuel as [|f IH]; intros n d HS HF HN HL HT; cbn zeta; cbn [newton_loop].
  { repeat split; try lia. }
  destruct (newton_step rat sys N n d) as [d1 brk] eqn:E.
  destruct (step_spec _ _ _ _ _ E HS) as [HM HH]. destruct (step_small _ _ _ _ _ E) as [HT1 HT2].
  assert (dMaxL d1 <= line_search_max_iter p - 1)%nat as HL1.
  { destruct HH as [H|[H|H]].
    - destruct H as (_ & _ & _ & _ & _ & _ & ->). exact HL.
    - destruct H as (_ & _ & _ & _ & ->). exact HL.
    - destruct H as (s2 & s3 & sc & s4 & err & maxl & _ & _ & _ & HLS & _ & _ & -> & _). apply line_search_maxl in HLS. lia. }
  destruct brk.
  - repeat split; lia.
  - destruct HH as [H|[H|H]]; [destruct H; discriminate|destruct H; discriminate|].
    destruct H as (s2 & s3 & sc & s4 & err & maxl & _ & _ & _ & _ & _ & _ & _ & [H|H]); [destruct H; discriminate|].
    destruct H as (_ & _ & HS1). specialize (HT2 eq_refl). apply IH; auto; lia.
Qed.

(** The counters in the returned status respect the configured limits *)
Theorem C35_status_counters_bounded : forall s st sf, PTESolver rat sys s = (st, sf) ->
  (max_niter st <= sNmat sys * pte_max_iter_per_mat (sParams sys) - 1)%nat /\
  (max_line_niter st <= line_search_max_iter (sParams sys) - 1)%nat /\
  (small_step_iters st <= Nat.max 1 (pte_small_step_tries (sParams sys)))%nat.
Proof.
  intros s st sf H. unfold PTESolver in H. destruct (sInit sys s) as [s0 e0].
  pose proof (loop_counts max_iter max_iter 0 (mkD s0 e0 false false 0 0 0) eq_refl) as HH. cbn in HH.
  inversion H; subst; cbn. fold p. fold max_iter. apply HH; lia.
Qed.
End Generic.

(** *** Counting calls: instrument every method with a call counter *)
Record calls := mkCalls { nJac : nat; nSolve : nat; nScale : nat; nTest : nat }.
Definition counted {A S} (sys : System A S) : System A (S * calls) :=
  {| sNmat := sNmat sys; sParams := sParams sys;
     sInit := fun x => let '(s, e) := sInit sys (fst x) in ((s, snd x), e);
     sCheckPTE := fun x => sCheckPTE sys (fst x);
     sJacobian := fun x => (sJacobian sys (fst x), let c := snd x in mkCalls (1 + nJac c) (nSolve c) (nScale c) (nTest c));
     sSolve := fun x => let '(s, b) := sSolve sys (fst x) in ((s, let c := snd x in mkCalls (nJac c) (1 + nSolve c) (nScale c) (nTest c)), b);
     sScaleDx := fun x => let '(s, b) := sScaleDx sys (fst x) in ((s, let c := snd x in mkCalls (nJac c) (nSolve c) (1 + nScale c) (nTest c)), b);
     sTestUpdate := fun sc b x => let '(s, e) := sTestUpdate sys sc b (fst x) in ((s, let c := snd x in mkCalls (nJac c) (nSolve c) (nScale c) (1 + nTest c)), e);
     sFixup := fun x => (sFixup sys (fst x), snd x);
     sFinalize := fun x => (sFinalize sys (fst x), snd x) |}.

Section Counting.
Context {A : Arith} {S : Type}.
Variable rat : num A -> num A -> num A.
Variable sys : System A S.
Let csys := counted sys.
Let p := sParams sys.

(** instrumentation does not change the result *)
Lemma line_loop_erase : forall fuel li s c sc eo g e ml,
  exists k, (k <= fuel)%nat /\
  line_loop csys fuel li (s, c) sc eo g e ml =
  let '(s', e', ml') := line_loop sys fuel li s sc eo g e ml in
  ((s', mkCalls (nJac c) (nSolve c) (nScale c) (k + nTest c)), e', ml').
Proof.
  induction fuel as [|f IH]; intros li s c sc eo g e ml; cbn [line_loop].
  { exists 0%nat. split; [lia|]. destruct c; reflexivity. }
  change (sTestUpdate csys sc false (s, c)) with (let '(s', e') := sTestUpdate sys sc false s in ((s', mkCalls (nJac c) (nSolve c) (nScale c) (1 + nTest c)), e')).
  destruct (sTestUpdate sys sc false s) as [s1 e1]. change (sParams csys) with (sParams sys).
  destruct (ltb e1 (add eo (mul (mul (line_search_alpha (sParams sys)) sc) g))).
  { exists 1%nat. split; [lia|]. reflexivity. }
  destruct (IH (Datatypes.S li) s1 (mkCalls (nJac c) (nSolve c) (nScale c) (1 + nTest c)) (mul sc (line_search_fac (sParams sys))) eo g e1 (Nat.max li ml)) as (k & Hk & E).
  exists (Datatypes.S k). split; [lia|]. change (counted sys) with csys. rewrite E.
  destruct (line_loop sys f (Datatypes.S li) s1 (mul sc (line_search_fac (sParams sys))) eo g e1 (Nat.max li ml)) as [[s' e'] ml'].
  cbn. repeat f_equal. lia.
Qed.
Lemma line_search_erase s c sc eo ml :
  exists k, (k <= 2 + line_search_max_iter p)%nat /\
  line_search rat csys (s, c) sc eo ml =
  let '(s', e', ml') := line_search rat sys s sc eo ml in
  ((s', mkCalls (nJac c) (nSolve c) (nScale c) (k + nTest c)), e', ml').
Proof.
  unfold line_search.
  change (sTestUpdate csys (lit 1) true (s, c)) with (let '(s', e') := sTestUpdate sys (lit 1) true s in ((s', mkCalls (nJac c) (nSolve c) (nScale c) (1 + nTest c)), e')).
  destruct (sTestUpdate sys (lit 1) true s) as [s1 e1].
  change (sParams csys) with (sParams sys).
  destruct (ltb _ e1).
  2: { exists 1%nat. split; [lia|reflexivity]. }
  set (c1 := mkCalls _ _ _ _).
  change (sTestUpdate csys (ofQ 1 2) false (s1, c1)) with (let '(s', e') := sTestUpdate sys (ofQ 1 2) false s1 in ((s', mkCalls (nJac c1) (nSolve c1) (nScale c1) (1 + nTest c1)), e')).
  destruct (sTestUpdate sys (ofQ 1 2) false s1) as [s2 e2].
  set (c2 := mkCalls (nJac c1) _ _ _).
  match goal with |- context [line_loop csys ?f ?i (s2, c2) ?a ?b ?g ?e ?m] =>
    destruct (line_loop_erase f i s2 c2 a b g e m) as (k & Hk & E) end.
  exists (2 + k)%nat. split; [fold p in Hk; lia|]. rewrite E.
  match goal with |- context [line_loop sys ?f ?i s2 ?a ?b ?g ?e ?m] => destruct (line_loop sys f i s2 a b g e m) as [[s' e'] ml'] end.
  subst c1 c2. cbn. repeat f_equal. lia.
Qed.

Definition within (n : nat) (c : calls) : Prop :=
  (nJac c <= n /\ nSolve c <= n /\ nScale c <= n /\ nTest c <= n * (2 + line_search_max_iter p))%nat.
Definition liftd (d : @dstate A S) (c : calls) : @dstate A (S * calls) :=
  mkD (dS d, c) (dErr d) (dConv d) (dSlow d) (dMaxN d) (dMaxL d) (dSmall d).

Lemma step_erase N n d c : within n c ->
  exists c', within (Datatypes.S n) c' /\
  newton_step rat csys N n (liftd d c) = (liftd (fst (newton_step rat sys N n d)) c', snd (newton_step rat sys N n d)).
Proof.
  intros (H1 & H2 & H3 & H4). unfold newton_step. cbn [liftd dS dErr dConv dSlow dMaxN dMaxL dSmall].
  change (sCheckPTE csys (dS d, c)) with (sCheckPTE sys (dS d)).
  change (sParams csys) with (sParams sys).
  destruct (sCheckPTE sys (dS d)) as [cv ce]. destruct cv.
  { exists c. split; [repeat split; lia|]. reflexivity. }
  set (cj := mkCalls (1 + nJac c) (nSolve c) (nScale c) (nTest c)).
  change (sJacobian csys (dS d, c)) with (sJacobian sys (dS d), cj).
  change (sSolve csys (sJacobian sys (dS d), cj)) with (let '(s, b) := sSolve sys (sJacobian sys (dS d)) in ((s, mkCalls (nJac cj) (1 + nSolve cj) (nScale cj) (nTest cj)), b)).
  destruct (sSolve sys (sJacobian sys (dS d))) as [s2 ok]. set (cs := mkCalls (nJac cj) _ _ _). destruct ok; cbn [negb].
  2: { exists cs. split; [subst cs cj; repeat split; cbn; lia|]. reflexivity. }
  change (sScaleDx csys (s2, cs)) with (let '(s, b) := sScaleDx sys s2 in ((s, mkCalls (nJac cs) (nSolve cs) (1 + nScale cs) (nTest cs)), b)).
  destruct (sScaleDx sys s2) as [s3 sc]. set (cd := mkCalls (nJac cs) _ _ _).
  destruct (_ <=? _)%nat.
  { exists cd. split; [subst cd cs cj; repeat split; cbn; lia|]. reflexivity. }
  destruct (line_search_erase s3 cd (amin (lit 1) sc) (dErr d) (dMaxL d)) as (k & Hk & E). rewrite E.
  destruct (line_search rat sys s3 (amin (lit 1) sc) (dErr d) (dMaxL d)) as [[s4 err] maxl].
  exists (mkCalls (nJac cd) (nSolve cd) (nScale cd) (k + nTest cd)).
  split; [subst cd cs cj; repeat split; cbn; nia|].
  destruct (_ && ce); reflexivity.
Qed.
Lemma within_le n m c : (n <= m)%nat -> within n c -> within m c.
Proof. intros H (H1 & H2 & H3 & H4). repeat split; try lia. nia. Qed.
Lemma loop_erase N : forall fuel n d c, within n c ->
  exists c', within (n + fuel) c' /\ newton_loop rat csys fuel N n (liftd d c) = liftd (newton_loop rat sys fuel N n d) c'.
Proof.
  induction fuel as [|f IH]; intros n d c H; cbn [newton_loop].
  { exists c. split; [apply (within_le n); [lia|assumption]|reflexivity]. }
  destruct (step_erase N n d c H) as (c1 & H1 & E). rewrite E.
  destruct (newton_step rat sys N n d) as [d1 brk]. cbn [fst snd]. destruct brk.
  { exists c1. split; [apply (within_le (Datatypes.S n)); [lia|assumption]|reflexivity]. }
  destruct (IH (Datatypes.S n) d1 c1 H1) as (c2 & H2 & E2). exists c2. split; [|exact E2].
  replace (n + Datatypes.S f)%nat with (Datatypes.S n + f)%nat by lia. exact H2.
Qed.

(** For every system, start state and arithmetic (so also with NaNs): the driver returns after at most
    nmat * pte_max_iter_per_mat Jacobian/Solve/ScaleDx calls, and at most that many times (2 + line_search_max_iter)
    trial updates. *)
Theorem C35_work_bounded : forall s,
  exists c sf st,
    PTESolver rat (counted sys) (s, mkCalls 0 0 0 0) = (st, (sf, c)) /\
    PTESolver rat sys s = (st, sf) /\
    (let N := sNmat sys * pte_max_iter_per_mat (sParams sys) in
     nJac c <= N /\ nSolve c <= N /\ nScale c <= N /\
     nTest c <= N * (2 + line_search_max_iter (sParams sys)))%nat.
Proof.
  intros s. unfold PTESolver.
  change (sInit (counted sys) (s, mkCalls 0 0 0 0)) with (let '(s0, e) := sInit sys s in ((s0, mkCalls 0 0 0 0), e)).
  destruct (sInit sys s) as [s0 e0]. change (sParams (counted sys)) with (sParams sys). change (sNmat (counted sys)) with (sNmat sys).
  set (N := (sNmat sys * pte_max_iter_per_mat (sParams sys))%nat).
  destruct (loop_erase N N 0 (mkD s0 e0 false false 0 0 0) (mkCalls 0 0 0 0)) as (c & Hc & E).
  { repeat split; cbn; lia. }
  change (mkD (s0, mkCalls 0 0 0 0) e0 false false 0 0 0) with (liftd (mkD s0 e0 false false 0 0 0) (mkCalls 0 0 0 0)).
  fold csys. rewrite E. do 3 eexists. split; [reflexivity|]. split; [reflexivity|]. exact Hc.
Qed.
End Counting.

(** ** Exact reals: the trial scales stay in (0, 1], hence an invariant principle for every system *)
Lemma parabola_bounds e em eo : em < e -> em < eo ->
  1 / 4 <= 3 / 4 + 1 / 2 * ratio (em - e) (e - 2 * em + eo) <= 3 / 4.
Proof.
  intros H1 H2. assert (0 < e - 2 * em + eo) as HB by lra.
  assert (-1 <= ratio (em - e) (e - 2 * em + eo) <= 0) as HR.
  { unfold ratio. destruct (Rle_bool _ _).
    - split; [apply Rmult_le_reg_r with (e - 2 * em + eo); [lra|]|apply Rmult_le_reg_r with (e - 2 * em + eo); [lra|]];
      unfold Rdiv; rewrite Rmult_assoc, Rinv_l by lra; lra.
    - unfold ratio_exact, ratio_denominator, sgn. rewrite Rle_bool_true by lra.
      assert (0 < SMALL) by (unfold SMALL; pose proof (bpow_gt_0 radix2 (-1022)); lra).
      set (b := e - 2 * em + eo + 1 * SMALL). assert (e - 2 * em + eo < b) by (unfold b; lra).
      split; [apply Rmult_le_reg_r with b; [lra|]|apply Rmult_le_reg_r with b; [lra|]];
      unfold Rdiv; rewrite Rmult_assoc, Rinv_l by lra; lra. }
  lra.
Qed.

Record driver_invariant {S} (sys : System RArith S) (I0 : S -> Prop) (IJ : bool -> S -> Prop) (IS : R -> S -> Prop) (I2 : S -> Prop) : Prop := {
  di_jac : forall s s2 ok, I0 s -> fst (sCheckPTE sys s) = false -> sSolve sys (sJacobian sys s) = (s2, ok) -> IJ ok s2;
  di_jac_fix : forall ok s, IJ ok s -> I0 (sFixup sys s);
  di_scale : forall s s3 sc, IJ true s -> sScaleDx sys s = (s3, sc) -> IS sc s3;
  di_scale_fix : forall sc s, IS sc s -> I0 (sFixup sys s);
  di_test1 : forall sc s s4 e, IS sc s -> sTestUpdate sys 1 true s = (s4, e) -> I2 s4;
  di_test2 : forall t s s4 e, I2 s -> 0 < t <= 1 -> sTestUpdate sys t false s = (s4, e) -> I2 s4;
  di_fix : forall s, I2 s -> I0 (sFixup sys s);
  di_fix0 : forall s, I0 s -> I0 (sFixup sys s)
}.
Arguments di_jac {S sys I0 IJ IS I2}. Arguments di_jac_fix {S sys I0 IJ IS I2}. Arguments di_scale {S sys I0 IJ IS I2}.
Arguments di_scale_fix {S sys I0 IJ IS I2}. Arguments di_test1 {S sys I0 IJ IS I2}. Arguments di_test2 {S sys I0 IJ IS I2}.
Arguments di_fix {S sys I0 IJ IS I2}. Arguments di_fix0 {S sys I0 IJ IS I2}.

Section Invariant.
Context {S : Type} (sys : System RArith S).
Variables (I0 : S -> Prop) (IJ : bool -> S -> Prop) (IS : R -> S -> Prop) (I2 : S -> Prop).
Hypothesis HI : driver_invariant sys I0 IJ IS I2.
Let p := sParams sys.
Hypothesis Hfac : 0 < line_search_fac p <= 1.

Lemma line_loop_inv : forall fuel li s sc eo g e ml s' e' ml', I2 s -> 0 < sc <= 1 ->
  line_loop sys fuel li s sc eo g e ml = (s', e', ml') -> I2 s'.
Proof.
  induction fuel as [|f IH]; intros li s sc eo g e ml s' e' ml' Hs Hsc H; cbn [line_loop] in H.
  { inversion H; subst. exact Hs. }
  destruct (sTestUpdate sys sc false s) as [s1 e1] eqn:ET. pose proof (di_test2 HI sc s s1 e1 Hs Hsc ET) as H1.
  destruct (ltb e1 _). { inversion H; subst. exact H1. }
  eapply IH; [exact H1| |exact H]. cbn [mul RArith]. fold p. split; [apply Rmult_lt_0_compat; lra|].
  rewrite <- (Rmult_1_l 1). apply Rmult_le_compat; lra.
Qed.
Lemma line_search_inv s sc0 sc eo ml s' e' ml' : IS sc0 s -> @line_search RArith S ratio sys s sc eo ml = (s', e', ml') -> I2 s'.
Proof.
  intros Hs H. unfold line_search in H.
  change (@lit RArith 1) with (1 / 1) in H. replace (1 / 1) with 1 in H by lra.
  destruct (sTestUpdate sys 1 true s) as [s1 e1] eqn:E1.
  pose proof (di_test1 HI sc0 s s1 e1 Hs E1) as H1.
  destruct (ltb _ e1). 2: { inversion H; subst. exact H1. }
  change (@ofQ RArith 1 2) with (1 / 2) in H.
  destruct (sTestUpdate sys (1 / 2) false s1) as [s2 e2] eqn:E2.
  assert (I2 s2) as H2 by (eapply (di_test2 HI); [exact H1| |exact E2]; lra).
  eapply line_loop_inv; [exact H2| |exact H].
  destruct (ltb e2 e1 && ltb e2 eo) eqn:EB.
  - apply andb_prop in EB. destruct EB as [Ea Eb]. cbn [ltb RArith] in Ea, Eb.
    cbn [add mul sub ofQ lit RArith] in *.
    revert Ea Eb. case Rlt_bool_spec; [|discriminate]. intros Ea _. case Rlt_bool_spec; [|discriminate]. intros Eb _.
    pose proof (parabola_bounds e1 e2 eo Ea Eb) as HP. change (@lit RArith 2) with (2 / 1). replace (2 / 1) with 2 by lra. lra.
  - lra.
Qed.
Lemma newton_loop_inv N : forall fuel n d, I0 (dS d) ->
  I0 (sFixup sys (dS (@newton_loop RArith S ratio sys fuel N n d))).
Proof.
  induction fuel as [|f IH]; intros n d H0; pose proof (di_fix0 HI _ H0) as HF; cbn [newton_loop]; [exact HF|].
  destruct (@newton_step RArith S ratio sys N n d) as [d1 brk] eqn:E. unfold newton_step in E.
  destruct (sCheckPTE sys (dS d)) as [cv ce] eqn:EC. destruct cv.
  { inversion E; subst; cbn. exact HF. }
  destruct (sSolve sys (sJacobian sys (dS d))) as [s2 ok] eqn:ES.
  assert (IJ ok s2) as HJ by (eapply (di_jac HI); [exact H0|rewrite EC; reflexivity|exact ES]).
  destruct ok; cbn [negb] in E.
  2: { inversion E; subst; cbn. apply (di_jac_fix HI _ _ HJ). }
  destruct (sScaleDx sys s2) as [s3 sc] eqn:ESc. pose proof (di_scale HI _ _ _ HJ ESc) as HS.
  destruct (_ <=? _)%nat in E.
  { inversion E; subst; cbn. apply (di_scale_fix HI _ _ HS). }
  destruct (@line_search RArith S ratio sys s3 (amin (lit 1) sc) (dErr d) (dMaxL d)) as [[s4 err] maxl] eqn:EL.
  pose proof (line_search_inv _ _ _ _ _ _ _ _ HS EL) as H4. pose proof (di_fix HI _ H4) as H5.
  match type of E with (if ?b then _ else _) = _ => destruct b end; inversion E; subst; cbn [dS].
  - apply (di_fix0 HI _ H5).
  - apply IH. cbn [dS]. exact H5.
Qed.

Lemma newton_loop_inv_conv N : forall fuel n d, I0 (dS d) -> dConv d = false ->
  let d' := @newton_loop RArith S ratio sys fuel N n d in dConv d' = true -> I0 (dS d').
Proof.
  induction fuel as [|f IH]; intros n d H0 HC; cbn zeta; cbn [newton_loop]; [intros; exact H0|].
  destruct (@newton_step RArith S ratio sys N n d) as [d1 brk] eqn:E. unfold newton_step in E.
  destruct (sCheckPTE sys (dS d)) as [cv ce] eqn:EC. destruct cv.
  { inversion E; subst; cbn. intros; exact H0. }
  destruct (sSolve sys (sJacobian sys (dS d))) as [s2 ok] eqn:ES.
  assert (IJ ok s2) as HJ by (eapply (di_jac HI); [exact H0|rewrite EC; reflexivity|exact ES]).
  destruct ok; cbn [negb] in E.
  2: { inversion E; subst; cbn. discriminate. }
  destruct (sScaleDx sys s2) as [s3 sc] eqn:ESc. pose proof (di_scale HI _ _ _ HJ ESc) as HS.
  destruct (_ <=? _)%nat in E.
  { inversion E; subst; cbn. discriminate. }
  destruct (@line_search RArith S ratio sys s3 (amin (lit 1) sc) (dErr d) (dMaxL d)) as [[s4 err] maxl] eqn:EL.
  pose proof (line_search_inv _ _ _ _ _ _ _ _ HS EL) as H4. pose proof (di_fix HI _ H4) as H5.
  match type of E with (if ?b then _ else _) = _ => destruct b end; inversion E; subst; cbn [dS].
  - intros; exact H5.
  - apply IH; [exact H5|reflexivity].
Qed.

(** Whatever the steps, an invariant of the system holds of the state handed to Finalize *)
Theorem C35_invariant_principle : forall s, I0 (fst (sInit sys s)) ->
  exists s', I0 s' /\ snd (@PTESolver RArith S ratio sys s) = sFinalize sys s'.
Proof.
  intros s H. unfold PTESolver. destruct (sInit sys s) as [s0 e0]. cbn [fst] in H. cbn [snd].
  eexists. split; [|reflexivity]. apply newton_loop_inv. exact H.
Qed.
(** ... and on a (non-slow) convergence report it holds together with the system's strict check *)
Theorem C35_converged_invariant : forall s st sf, I0 (fst (sInit sys s)) ->
  @PTESolver RArith S ratio sys s = (st, sf) -> converged st = true -> slow_convergence_detected st = false ->
  exists s', I0 s' /\ fst (sCheckPTE sys s') = true /\ sf = sFinalize sys (sFixup sys s').
Proof.
  intros s st sf H E HC HS. unfold PTESolver in E. destruct (sInit sys s) as [s0 e0]. cbn [fst] in H.
  set (N := (sNmat sys * pte_max_iter_per_mat (sParams sys))%nat) in E.
  pose proof (@loop_conv RArith S ratio sys N N 0 (mkD s0 e0 false false 0 0 0) eq_refl eq_refl (Nat.le_refl 0)) as (_ & HK & _).
  pose proof (newton_loop_inv_conv N N 0 (mkD s0 e0 false false 0 0 0) H eq_refl) as HV.
  set (d := newton_loop _ _ _ _ _ _) in *. clearbody d.
  assert (dConv d = true) as EC by (inversion E; subst st; exact HC).
  assert (dSlow d = false) as ES by (inversion E; subst st; exact HS).
  exists (dS d). split; [apply HV; exact EC|]. split; [apply HK; assumption|]. inversion E; reflexivity.
Qed.
End Invariant.

(** ** What is NOT guaranteed (binary64 runs) *)
(** close_enough is computed before the update: a system whose state passes the loose check, takes a bad step (residual
    norm 1 -> 5) and ends in a state passing neither check is reported as converged. *)
Definition overclaim : System FArith bool :=
  {| sNmat := 1; sParams := default_params FArith;
     sInit := fun _ => (false, 1%float);
     sCheckPTE := fun s => if s then (false, false) else (false, true);
     sJacobian := fun s => s; sSolve := fun s => (s, true); sScaleDx := fun s => (s, 1%float);
     sTestUpdate := fun _ _ _ => (true, 5%float);
     sFixup := fun s => s; sFinalize := fun s => s |}.
Theorem C61_converged_truthful_refuted :
  let '(st, sf) := @PTESolver FArith bool PrimFloat.div overclaim false in
  converged st = true /\ slow_convergence_detected st = true /\ sCheckPTE overclaim sf = (false, false).
Proof. vm_compute. auto. Qed.

(** With line_search_max_iter = 0 the reported residual is not the norm of the state returned *)
Definition stale : System FArith PrimFloat.float :=
  {| sNmat := 1;
     sParams := let d := default_params FArith in
       @mkMixParams FArith (verbose d) (iterate_t_guess d) (derivative_eps d) (pte_rel_tolerance_p d) (pte_rel_tolerance_t d)
         (pte_rel_tolerance_e d) (pte_rel_tolerance_v d) (pte_abs_tolerance_p d) (pte_abs_tolerance_t d)
         (pte_slow_convergence_thresh d) (pte_rel_tolerance_p_sufficient d) (pte_rel_tolerance_t_sufficient d)
         (pte_rel_tolerance_e_sufficient d) (pte_rel_tolerance_v_sufficient d) (pte_abs_tolerance_p_sufficient d)
         (pte_abs_tolerance_t_sufficient d) 1 (line_search_alpha d) 0 (line_search_fac d) (vfrac_safety_fac d)
         (temperature_limit d) (default_tguess d) (min_dtde d) (pte_small_step_tries d) (pte_small_step_thresh d)
         (pte_max_dpdv d) None;
     sInit := fun _ => (1%float, 1%float);
     sCheckPTE := fun s => (false, false);
     sJacobian := fun s => s; sSolve := fun s => (s, true); sScaleDx := fun s => (s, 1%float);
     sTestUpdate := fun sc _ _ => let r := (4 * sc)%float in (r, r);
     sFixup := fun s => s; sFinalize := fun s => s |}.
Theorem C61_reported_residual_stale_refuted :
  let '(st, sf) := @PTESolver FArith PrimFloat.float PrimFloat.div stale 0%float in
  PrimFloat.eqb (residual st) 4 = true /\ PrimFloat.eqb sf 2 = true.
Proof. vm_compute. auto. Qed.

(** When at least one line-search pass is allowed the reported residual is the norm TestUpdate (or Init) returned for
    the very state that is passed on to Fixup. *)
Section ResidualHonest.
Context {A : Arith} {S : Type}.
Variable rat : num A -> num A -> num A.
Variable sys : System A S.
Hypothesis HL : (0 < line_search_max_iter (sParams sys))%nat.
Lemma line_loop_res : forall fuel li s sc eo g e ml s' e' ml', line_loop sys fuel li s sc eo g e ml = (s', e', ml') ->
  (fuel = 0%nat /\ s' = s /\ e' = e) \/ exists t b s0, sTestUpdate sys t b s0 = (s', e').
Proof.
  induction fuel as [|f IH]; intros li s sc eo g e ml s' e' ml' H; cbn [line_loop] in H.
  { inversion H; subst. left; auto. }
  right. destruct (sTestUpdate sys sc false s) as [s1 e1] eqn:ET.
  destruct (ltb e1 _). { inversion H; subst. eauto. }
  apply IH in H. destruct H as [(_ & -> & ->)|H]; [eauto|exact H].
Qed.
Theorem C35_line_search_residual : forall s sc eo ml s' e' ml', line_search rat sys s sc eo ml = (s', e', ml') ->
  exists t b s0, sTestUpdate sys t b s0 = (s', e').
Proof.
  intros s sc eo ml s' e' ml' H. unfold line_search in H.
  destruct (sTestUpdate sys (lit 1) true s) as [s1 e1] eqn:E1. destruct (ltb _ e1).
  - destruct (sTestUpdate sys (ofQ 1 2) false s1) as [s2 e2] eqn:E2. apply line_loop_res in H.
    destruct H as [(H & _)|H]; [lia|exact H].
  - inversion H; subst. eauto.
Qed.
End ResidualHonest.

(** non-vacuity: a real run of the driver (Newton on x^2 = 2 in binary64) converges in 5 steps *)
Definition sqrt2 : System FArith (PrimFloat.float * PrimFloat.float * PrimFloat.float)%type := (* x, cached x, dx *)
  {| sNmat := 1; sParams := default_params FArith;
     sInit := fun '(x, c, d) => ((x, c, d), PrimFloat.mul 0.5 ((2 - x * x) * (2 - x * x)))%float;
     sCheckPTE := fun '(x, c, d) => (PrimFloat.ltb (PrimFloat.abs (2 - x * x)) 1e-10, PrimFloat.ltb (PrimFloat.abs (2 - x * x)) 1e-8);
     sJacobian := fun s => s;
     sSolve := fun '(x, c, d) => ((x, c, PrimFloat.div (2 - x * x) (2 * x)), true);
     sScaleDx := fun s => (s, 1%float);
     sTestUpdate := fun sc b '(x, c, d) => let c := if b then x else c in let x := (c + sc * d)%float in
        ((x, c, d), (0.5 * ((2 - x * x) * (2 - x * x)))%float);
     sFixup := fun s => s; sFinalize := fun s => s |}.
Example C35_ex_run :
  let '(st, (x, _, _)) := @PTESolver FArith _ PrimFloat.div sqrt2 (1, 0, 0)%float in
  converged st = true /\ slow_convergence_detected st = false /\ max_niter st = 4%nat /\
  PrimFloat.ltb (PrimFloat.abs (x - 1.4142135623730951)) 1e-10 = true.
Proof. vm_compute. auto. Qed.

Print Assumptions C35_converged_state_passes_check.
Print Assumptions C35_slow_means_previous_state_acceptable.
Print Assumptions C35_converged_initial_guess_untouched.
Print Assumptions C35_status_counters_bounded.
Print Assumptions C35_work_bounded.
Print Assumptions C35_invariant_principle.
Print Assumptions C35_converged_invariant.
Print Assumptions C61_converged_truthful_refuted.
Print Assumptions C61_reported_residual_stale_refuted.
Print Assumptions C35_line_search_residual.
