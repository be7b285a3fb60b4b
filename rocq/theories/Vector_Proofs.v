From Coq Require Import List ZArith Bool Reals Lia Lra.
From Verif Require Import Vector_Model Vector_Spec.
Import ListNotations.
Open Scope Z_scope.

Section Par.
Context {V : Type}.
Notation M := (mem V).
Implicit Types (m : M) (k : kernel V).

Lemma upd_eq m a v : upd m a v a = v.
Proof. unfold upd. rewrite Z.eqb_refl. reflexivity. Qed.
Lemma upd_ne m a v x : x <> a -> upd m a v x = m x.
Proof. intros H. unfold upd. destruct (Z.eqb_spec x a); [contradiction|reflexivity]. Qed.

(** different iterations do not interfere *)
Definition independent k n : Prop :=
  forall i j, (i < n)%nat -> (j < n)%nat -> i <> j -> forall a, In a (WA k i) -> ~ In a (RA k j) /\ ~ In a (WA k j).

(** state of iteration i run alone for a while *)
Fixpoint solo (acts : list (@action V)) (l : list V) m : list V * M :=
  match acts with [] => (l, m) | a :: r => let (l', m') := a l m in solo r l' m' end.
Lemma solo_app a b l m : solo (a ++ b) l m = let (l', m') := solo a l m in solo b l' m'.
Proof.
  revert l m. induction a as [|x a IH]; intros l m; [reflexivity|]. simpl. destruct (x l m) as [l' m']. apply IH.
Qed.

(** an action of iteration i reads only [Foot], writes only [W] *)
Definition local_action (Foot W : Z -> Prop) (a : @action V) : Prop :=
  (forall l m m', (forall x, Foot x -> m x = m' x) ->
     fst (a l m) = fst (a l m') /\ forall x, Foot x -> snd (a l m) x = snd (a l m') x) /\
  (forall l m x, ~ W x -> snd (a l m) x = m x).

Definition foot k i a := In a (RA k i) \/ In a (WA k i).
Lemma stores_local k i l : forall j, (forall a, In a l -> In a (WA k i)) ->
  Forall (local_action (foot k i) (fun a => In a (WA k i))) (stores k i j l).
Proof.
  induction l as [|a l IH]; intros j H; [constructor|]. cbn [stores]. constructor; [|apply IH; intros x Hx; apply H; right; exact Hx].
  split.
  - intros lo m m' HE. unfold store. cbn [fst snd]. split; [reflexivity|]. intros x Hx.
    destruct (nth_error _ _) as [[v|]|]; auto. unfold upd. destruct (Z.eqb x a); [reflexivity|apply HE, Hx].
  - intros lo m x Hx. unfold store. cbn [snd]. destruct (nth_error _ _) as [[v|]|]; auto. apply upd_ne.
    intros ->. apply Hx, H. left. reflexivity.
Qed.
Lemma iteration_local k i : Forall (local_action (foot k i) (fun a => In a (WA k i))) (iteration k i).
Proof.
  unfold iteration. apply Forall_app. split; [|apply stores_local; auto].
  apply Forall_forall. intros a Ha. apply in_map_iff in Ha. destruct Ha as [b [<- Hb]]. split.
  - intros l m m' HE. unfold load. cbn [fst snd]. split; [|exact HE]. f_equal. f_equal. apply HE. left. exact Hb.
  - intros l m x _. reflexivity.
Qed.

Definition Inv k n m0 (s : pstate) : Prop :=
  (forall i, (i < n)%nat -> exists donei mi, iteration k i = donei ++ rest s i /\
      solo donei [] m0 = (loc s i, mi) /\ forall x, foot k i x -> memo s x = mi x) /\
  (forall x, (forall i, (i < n)%nat -> ~ In x (WA k i)) -> memo s x = m0 x).

Lemma pstep_inv k n m0 s i : independent k n -> (i < n)%nat -> Inv k n m0 s -> Inv k n m0 (pstep s i).
Proof.
  intros HI Hi [H1 H2]. unfold pstep. destruct (rest s i) as [|a r] eqn:E; [split; assumption|].
  destruct (a (loc s i) (memo s)) as [l' m'] eqn:Ea.
  destruct (H1 i Hi) as [di [mi [D1 [D2 D3]]]]. rewrite E in D1.
  assert (HL : local_action (foot k i) (fun x => In x (WA k i)) a).
  { assert (HF := iteration_local k i). rewrite D1 in HF. apply Forall_app in HF. destruct HF as [_ HF].
    inversion HF; assumption. }
  destruct HL as [L1 L2]. specialize (L2 (loc s i) (memo s)). rewrite Ea in L2. cbn [snd] in L2.
  split; cbn [rest loc memo].
  - intros j Hj. destruct (Nat.eqb_spec j i) as [->|Hji].
    + exists (di ++ [a]). destruct (a (loc s i) mi) as [l2 m2] eqn:E2.
      assert (L3 := L1 (loc s i) (memo s) mi D3). rewrite Ea, E2 in L3. cbn [fst snd] in L3. destruct L3 as [L3 L4].
      exists m2. split; [rewrite D1, <- app_assoc; reflexivity|]. split; [|exact L4].
      rewrite solo_app, D2. cbn [solo]. rewrite E2, L3. reflexivity.
    + destruct (H1 j Hj) as [dj [mj [J1 [J2 J3]]]]. exists dj, mj. split; [exact J1|]. split; [exact J2|].
      intros x Hx. rewrite L2; [apply J3, Hx|]. intros Hw. destruct (HI i j Hi Hj (not_eq_sym Hji) x Hw) as [A B].
      destruct Hx as [Hx|Hx]; contradiction.
  - intros x Hx. rewrite L2; [apply H2, Hx|]. apply Hx, Hi.
Qed.
Lemma pinit_inv k n m0 : Inv k n m0 (pinit k m0).
Proof.
  split; [|reflexivity]. intros i _. exists [], m0. split; [reflexivity|]. split; [reflexivity|]. reflexivity.
Qed.
Lemma prun_inv k n m0 sched : independent k n -> (forall i, In i sched -> (i < n)%nat) -> Inv k n m0 (prun k m0 sched).
Proof.
  intros HI HS. unfold prun. generalize (pinit_inv k n m0). generalize (pinit k m0).
  induction sched as [|i r IH]; intros s H; [exact H|]. cbn [fold_left]. apply IH.
  - intros j Hj. apply HS. right. exact Hj.
  - apply pstep_inv; [exact HI|apply HS; left; reflexivity|exact H].
Qed.

(** what iteration i does when it runs alone *)
Lemma solo_loads l : forall acc m, solo (map load l) acc m = (acc ++ map m l, m).
Proof.
  induction l as [|a l IH]; intros acc m; [rewrite app_nil_r; reflexivity|]. cbn [map solo load].
  rewrite IH, <- app_assoc. reflexivity.
Qed.
Lemma solo_stores k i l : forall j lo m, solo (stores k i j l) lo m = (lo, write_list m l (skipn j (F k i lo))).
Proof.
  induction l as [|a l IH]; intros j lo m; [reflexivity|]. cbn [stores solo store]. rewrite IH. f_equal.
  destruct (nth_error (F k i lo) j) as [v|] eqn:E.
  - assert (ES : skipn j (F k i lo) = v :: skipn (S j) (F k i lo)).
    { clear -E. revert E. generalize (F k i lo). induction j as [|j IH]; intros [|y f] E; simpl in *; try discriminate.
      - injection E as ->. reflexivity.
      - apply IH. exact E. }
    rewrite ES. cbn [write_list]. destruct v; reflexivity.
  - assert (ES : skipn j (F k i lo) = []).
    { apply skipn_all2. apply nth_error_None. exact E. }
    assert (ES2 : skipn (S j) (F k i lo) = []).
    { apply skipn_all2. apply nth_error_None in E. lia. }
    rewrite ES, ES2. destruct l; reflexivity.
Qed.
Lemma solo_iteration k i m : solo (iteration k i) [] m = (map m (RA k i), body k m i).
Proof.
  unfold iteration. rewrite solo_app, solo_loads. cbn [app]. rewrite solo_stores. cbn [skipn]. reflexivity.
Qed.

Lemma write_list_out l : forall m v x, ~ In x l -> write_list m l v x = m x.
Proof.
  induction l as [|a l IH]; intros m v x H; [reflexivity|]. destruct v as [|[y|] v]; [reflexivity| |].
  - cbn [write_list]. rewrite IH; [apply upd_ne|]; intros E; apply H; [left; congruence|right; exact E].
  - cbn [write_list]. apply IH. intros E; apply H; right; exact E.
Qed.
Lemma body_out k m i x : ~ In x (WA k i) -> body k m i x = m x.
Proof. apply write_list_out. Qed.
Lemma write_list_ext l : forall m m' v x, m x = m' x -> write_list m l v x = write_list m' l v x.
Proof.
  induction l as [|a l IH]; intros m m' v x H; [exact H|]. destruct v as [|[y|] v]; [exact H| |]; cbn [write_list]; apply IH; [|exact H].
  unfold upd. destruct (Z.eqb x a); [reflexivity|exact H].
Qed.

(** any complete interleaving: cells of iteration i are what that iteration computes from the initial memory *)
Lemma par_cells k n m0 sched : independent k n -> complete k m0 n sched ->
  (forall i, (i < n)%nat -> forall x, In x (WA k i) -> memo (prun k m0 sched) x = body k m0 i x) /\
  (forall x, (forall i, (i < n)%nat -> ~ In x (WA k i)) -> memo (prun k m0 sched) x = m0 x).
Proof.
  intros HI [HS HC]. destruct (prun_inv k n m0 sched HI HS) as [H1 H2]. split; [|exact H2].
  intros i Hi x Hx. destruct (H1 i Hi) as [di [mi [D1 [D2 D3]]]]. rewrite (HC i Hi), app_nil_r in D1. subst di.
  rewrite solo_iteration in D2. injection D2 as _ D2. rewrite D3 by (right; exact Hx). rewrite <- D2. reflexivity.
Qed.

(** sequential run *)
Lemma seq_for_S k n m : seq_for k (S n) m = body k (seq_for k n m) n.
Proof. unfold seq_for. rewrite seq_S, fold_left_app. reflexivity. Qed.
Lemma seq_cells k m0 n : independent k n ->
  (forall i, (i < n)%nat -> forall x, In x (WA k i) -> seq_for k n m0 x = body k m0 i x) /\
  (forall x, (forall i, (i < n)%nat -> ~ In x (WA k i)) -> seq_for k n m0 x = m0 x).
Proof.
  induction n as [|n IH]; intros HI.
  - split; [intros i Hi; lia|reflexivity].
  - assert (HI' : independent k n) by (intros i j Hi Hj; apply HI; lia).
    destruct (IH HI') as [A B]. rewrite seq_for_S. split.
    + intros i Hi x Hx. destruct (Nat.eq_dec i n) as [->|Hne].
      * unfold body.
        assert (EM : map (seq_for k n m0) (RA k n) = map m0 (RA k n)).
        { apply map_ext_in. intros a Ha. apply B. intros j Hj Hw.
          destruct (HI j n ltac:(lia) ltac:(lia) ltac:(lia) a Hw) as [C _]. contradiction. }
        rewrite EM. apply write_list_ext. apply B. intros j Hj Hw.
        destruct (HI j n ltac:(lia) ltac:(lia) ltac:(lia) x Hw) as [_ C]. contradiction.
      * rewrite body_out; [apply A; [lia|exact Hx]|]. intros Hw.
        destruct (HI n i ltac:(lia) ltac:(lia) ltac:(lia) x Hw) as [_ C]. contradiction.
    + intros x Hx. rewrite body_out by (apply Hx; lia). apply B. intros i Hi. apply Hx. lia.
Qed.
Lemma par_seq k n m0 sched : independent k n -> complete k m0 n sched ->
  forall x, memo (prun k m0 sched) x = seq_for k n m0 x.
Proof.
  intros HI HC x. destruct (par_cells k n m0 sched HI HC) as [A B]. destruct (seq_cells k m0 n HI) as [C D].
  assert (HD : (exists i, (i < n)%nat /\ In x (WA k i)) \/ forall i, (i < n)%nat -> ~ In x (WA k i)).
  { clear. induction n as [|n [[i [Hi H]]|H]].
    - right. intros i Hi; lia.
    - left. exists i. split; [lia|exact H].
    - destruct (in_dec Z.eq_dec x (WA k n)) as [E|E]; [left; exists n; split; [lia|exact E]|].
      right. intros i Hi. destruct (Nat.eq_dec i n) as [->|]; [exact E|apply H; lia]. }
  destruct HD as [[i [Hi Hx]]|Hx].
  - rewrite (A i Hi x Hx), (C i Hi x Hx). reflexivity.
  - rewrite (B x Hx), (D x Hx). reflexivity.
Qed.

(** a complete schedule exists: run the iterations one after another *)
Definition round (k : kernel V) (i : nat) : list nat := repeat i (length (iteration k i)).
Lemma run_solo i acts : forall s : @pstate V, rest s i = acts ->
  rest (fold_left pstep (repeat i (length acts)) s) i = [] /\
  forall j, j <> i -> rest (fold_left pstep (repeat i (length acts)) s) j = rest s j.
Proof.
  induction acts as [|a r IH]; intros s H; [split; [exact H|reflexivity]|].
  cbn [length repeat fold_left]. unfold pstep at 2 4. rewrite H. destruct (a (loc s i) (memo s)) as [l m].
  edestruct (IH (mkP (fun j => if Nat.eqb j i then r else rest s j) (fun j => if Nat.eqb j i then l else loc s j) m)) as [A B].
  { cbn. rewrite Nat.eqb_refl. reflexivity. }
  split; [exact A|]. intros j Hj. rewrite B by exact Hj. cbn. destruct (Nat.eqb_spec j i); [contradiction|reflexivity].
Qed.
Lemma complete_exists k m n : exists sched, complete k m n sched.
Proof.
  exists (flat_map (round k) (seq 0 n)). split.
  - intros i Hi. apply in_flat_map in Hi. destruct Hi as [j [Hj Hi]]. apply repeat_spec in Hi. subst. apply in_seq in Hj. lia.
  - assert (H : forall n, (forall i, (i < n)%nat -> rest (prun k m (flat_map (round k) (seq 0 n))) i = []) /\
                forall i, (n <= i)%nat -> rest (prun k m (flat_map (round k) (seq 0 n))) i = iteration k i).
    { clear n. induction n as [|n [A B]]; [split; [intros i Hi; lia|reflexivity]|].
      rewrite seq_S, flat_map_app. cbn [flat_map Nat.add]. rewrite app_nil_r. unfold prun. rewrite fold_left_app.
      fold (prun k m (flat_map (round k) (seq 0 n))).
      destruct (run_solo n (iteration k n) _ (B n ltac:(lia))) as [C D]. fold (round k n) in C, D. split.
      - intros i Hi. destruct (Nat.eq_dec i n) as [->|Hne]; [exact C|]. rewrite D by exact Hne. apply A. lia.
      - intros i Hi. rewrite D by lia. apply B. lia. }
    apply H.
Qed.

(** *** instances *)
Lemma write_list_some m la : forall lv, NoDup la -> length lv = length la ->
  map (write_list m la (map Some lv)) la = lv.
Proof.
  revert m. induction la as [|a la IH]; intros m [|v lv] HN HL; try discriminate; [reflexivity|].
  inversion HN as [|? ? Ha HN']; subst. cbn [map write_list]. f_equal.
  - rewrite write_list_out by exact Ha. apply upd_eq.
  - apply IH; [exact HN'|]. simpl in HL. lia.
Qed.
Lemma write_list_head m a la v lv : ~ In a la -> write_list m (a :: la) (Some v :: lv) a = v.
Proof. intros H. cbn [write_list]. rewrite write_list_out by exact H. apply upd_eq. Qed.

Lemma layout_independent n ins outs lam f : layout n ins outs lam ->
  independent (mkKernel (fun i => map (fun a => a i) ins ++ lam i) (fun i => map (fun o => o i) outs ++ lam i) f) n.
Proof.
  intros [A [B [C [D [E G]]]]] i j Hi Hj Hij x Hx. cbn [RA WA] in *.
  apply in_app_iff in Hx. destruct Hx as [Hx|Hx].
  - apply in_map_iff in Hx. destruct Hx as [o [<- Ho]]. split; intros H; apply in_app_iff in H; destruct H as [H|H].
    + apply in_map_iff in H. destruct H as [a [Ea Ha]]. apply (B o a i j); auto.
    + apply (C o i j); auto.
    + apply in_map_iff in H. destruct H as [o' [Ea Ha]]. apply (A o o' i j); auto.
    + apply (C o i j); auto.
  - split; intros H; apply in_app_iff in H; destruct H as [H|H].
    + apply in_map_iff in H. destruct H as [a [<- Ha]]. apply (E a i j); auto.
    + apply (D i j x); auto.
    + apply in_map_iff in H. destruct H as [o [<- Ho]]. apply (C o j i); auto.
    + apply (D i j x); auto.
Qed.

Lemma vec2_spec scalar in1 in2 out lam n m0 sched :
  (forall x y l, length (snd (scalar x y l)) = length l) ->
  layout n [in1; in2] [out] lam ->
  complete (vec_2in_1out scalar in1 in2 out lam) m0 n sched ->
  let m := memo (prun (vec_2in_1out scalar in1 in2 out lam) m0 sched) in
  (forall i, (i < n)%nat -> m (out i) = fst (scalar (m0 (in1 i)) (m0 (in2 i)) (map m0 (lam i))) /\
                          map m (lam i) = snd (scalar (m0 (in1 i)) (m0 (in2 i)) (map m0 (lam i)))) /\
  (forall a, (forall i, (i < n)%nat -> a <> out i /\ ~ In a (lam i)) -> m a = m0 a).
Proof.
  intros HLen HL HC. assert (HI : independent (vec_2in_1out scalar in1 in2 out lam) n) by exact (layout_independent n _ _ _ (F (vec_2in_1out scalar in1 in2 out lam)) HL).
  destruct (par_cells _ n m0 sched HI HC) as [A B]. cbv zeta. split.
  - intros i Hi. destruct (scalar (m0 (in1 i)) (m0 (in2 i)) (map m0 (lam i))) as [v lm] eqn:E.
    assert (HLm : length lm = length (lam i)).
    { specialize (HLen (m0 (in1 i)) (m0 (in2 i)) (map m0 (lam i))). rewrite E in HLen. cbn [snd] in HLen. rewrite HLen. apply map_length. }
    assert (EB : body (vec_2in_1out scalar in1 in2 out lam) m0 i = write_list m0 (out i :: lam i) (Some v :: map Some lm)).
    { unfold body. cbn [vec_2in_1out RA WA F map]. rewrite E. reflexivity. }
    destruct HL as [_ [_ [C [_ [_ G]]]]].
    assert (Ho : ~ In (out i) (lam i)) by (apply (C out i i); auto; left; reflexivity).
    cbn [fst snd]. split.
    + rewrite (A i Hi (out i)) by (left; reflexivity). cbn [app map] in *. 
      change (body _ m0 i) with (body (vec_2in_1out scalar in1 in2 out lam) m0 i). rewrite EB. apply write_list_head, Ho.
    + transitivity (map (body (vec_2in_1out scalar in1 in2 out lam) m0 i) (lam i)).
      * apply map_ext_in. intros a Ha. apply (A i Hi a). right. exact Ha.
      * rewrite EB. cbn [write_list]. apply write_list_some; [apply G, Hi|exact HLm].
  - intros a Ha. apply B. intros i Hi Hw. destruct (Ha i Hi) as [H1 H2]. destruct Hw as [Hw|Hw]; [congruence|contradiction].
Qed.

Lemma vec1_spec scalar in1 out lam n m0 sched :
  (forall x l, length (snd (scalar x l)) = length l) ->
  layout n [in1] [out] lam ->
  complete (vec_1in_1out scalar in1 out lam) m0 n sched ->
  let m := memo (prun (vec_1in_1out scalar in1 out lam) m0 sched) in
  (forall i, (i < n)%nat -> m (out i) = fst (scalar (m0 (in1 i)) (map m0 (lam i))) /\
                          map m (lam i) = snd (scalar (m0 (in1 i)) (map m0 (lam i)))) /\
  (forall a, (forall i, (i < n)%nat -> a <> out i /\ ~ In a (lam i)) -> m a = m0 a).
Proof.
  intros HLen HL HC. assert (HI : independent (vec_1in_1out scalar in1 out lam) n) by exact (layout_independent n _ _ _ (F (vec_1in_1out scalar in1 out lam)) HL).
  destruct (par_cells _ n m0 sched HI HC) as [A B]. cbv zeta. split.
  - intros i Hi. destruct (scalar (m0 (in1 i)) (map m0 (lam i))) as [v lm] eqn:E.
    assert (HLm : length lm = length (lam i)).
    { specialize (HLen (m0 (in1 i)) (map m0 (lam i))). rewrite E in HLen. cbn [snd] in HLen. rewrite HLen. apply map_length. }
    assert (EB : body (vec_1in_1out scalar in1 out lam) m0 i = write_list m0 (out i :: lam i) (Some v :: map Some lm)).
    { unfold body. cbn [vec_1in_1out RA WA F map]. rewrite E. reflexivity. }
    destruct HL as [_ [_ [C [_ [_ G]]]]].
    assert (Ho : ~ In (out i) (lam i)) by (apply (C out i i); auto; left; reflexivity).
    cbn [fst snd]. split.
    + rewrite (A i Hi (out i)) by (left; reflexivity). cbn [app map] in *. 
      change (body _ m0 i) with (body (vec_1in_1out scalar in1 out lam) m0 i). rewrite EB. apply write_list_head, Ho.
    + transitivity (map (body (vec_1in_1out scalar in1 out lam) m0 i) (lam i)).
      * apply map_ext_in. intros a Ha. apply (A i Hi a). right. exact Ha.
      * rewrite EB. cbn [write_list]. apply write_list_some; [apply G, Hi|exact HLm].
  - intros a Ha. apply B. intros i Hi Hw. destruct (Ha i Hi) as [H1 H2]. destruct Hw as [Hw|Hw]; [congruence|contradiction].
Qed.

Lemma write_list_app la : forall m ov lb lv, length ov = length la ->
  write_list m (la ++ lb) (ov ++ lv) = write_list (write_list m la ov) lb lv.
Proof.
  induction la as [|a la IH]; intros m [|o ov] lb lv H; try discriminate; [reflexivity|].
  cbn [app write_list]. apply IH. simpl in H. lia.
Qed.
Lemma write_list_opt la : forall m ov, NoDup la -> length ov = length la ->
  map (write_list m la ov) la = map (fun p => apply_out (m (fst p)) (snd p)) (combine la ov).
Proof.
  induction la as [|a la IH]; intros m [|o ov] HN HL; try discriminate; [reflexivity|].
  inversion HN as [|? ? Ha HN']; subst. cbn [map combine write_list fst snd]. f_equal.
  - rewrite write_list_out by exact Ha. destruct o; [apply upd_eq|reflexivity].
  - rewrite IH; [|exact HN'|simpl in HL; lia]. apply map_ext_in. intros [b w] Hb. cbn [fst snd]. f_equal.
    destruct o; [|reflexivity]. apply upd_ne. intros ->. apply Ha. apply in_combine_l in Hb. exact Hb.
Qed.
Lemma vecfill_spec scalar (arrs : list (nat -> Z)) lam n m0 sched :
  (forall x l, length (fst (scalar x l)) = length x /\ length (snd (scalar x l)) = length l) ->
  layout n arrs arrs lam -> (forall i, (i < n)%nat -> NoDup (map (fun a => a i) arrs)) ->
  complete (vec_fill scalar (fun i => map (fun a => a i) arrs) lam) m0 n sched ->
  let m := memo (prun (vec_fill scalar (fun i => map (fun a => a i) arrs) lam) m0 sched) in
  (forall i, (i < n)%nat ->
     let old := map (fun a => m0 (a i)) arrs in
     let r := scalar old (map m0 (lam i)) in
     map (fun a => m (a i)) arrs = map (fun p => apply_out (fst p) (snd p)) (combine old (fst r)) /\
     map m (lam i) = snd r) /\
  (forall a, (forall i, (i < n)%nat -> ~ In a (map (fun f => f i) arrs) /\ ~ In a (lam i)) -> m a = m0 a).
Proof.
  intros HLen HL HND HC.
  assert (HI : independent (vec_fill scalar (fun i => map (fun a => a i) arrs) lam) n) by exact (layout_independent n _ _ _ (F (vec_fill scalar (fun i => map (fun a => a i) arrs) lam)) HL).
  destruct (par_cells _ n m0 sched HI HC) as [A B]. cbv zeta. split.
  - intros i Hi. set (cells := map (fun a => a i) arrs).
    destruct (scalar (map (fun a => m0 (a i)) arrs) (map m0 (lam i))) as [ov lm] eqn:E.
    specialize (HLen (map (fun a => m0 (a i)) arrs) (map m0 (lam i))). rewrite E in HLen. cbn [fst snd] in HLen.
    rewrite !map_length in HLen. destruct HLen as [L1 L2].
    assert (EB : body (vec_fill scalar (fun i => map (fun a => a i) arrs) lam) m0 i =
                 write_list (write_list m0 cells ov) (lam i) (map Some lm)).
    { unfold body. cbn [vec_fill RA WA F]. fold cells. rewrite map_app, firstn_app, skipn_app, !map_length, Nat.sub_diag.
      cbn [firstn skipn]. rewrite app_nil_r.
      rewrite firstn_all2 by (rewrite map_length; lia). rewrite skipn_all2 by (rewrite map_length; lia). cbn [app].
      replace (map m0 cells) with (map (fun a => m0 (a i)) arrs) by (unfold cells; symmetry; apply map_map). rewrite E. apply write_list_app. unfold cells. rewrite map_length. exact L1. }
    destruct HL as [_ [_ [C [_ [_ G]]]]].
    assert (HX : forall x, In x cells -> ~ In x (lam i)).
    { intros x Hx. unfold cells in Hx. apply in_map_iff in Hx. destruct Hx as [o [<- Ho]]. apply (C o i i); auto. }
    cbn [fst snd]. split.
    + transitivity (map (write_list m0 cells ov) cells).
      * etransitivity; [|symmetry; unfold cells at 2; apply map_map]. apply map_ext_in. intros a Ha.
        assert (Hin : In (a i) cells) by (unfold cells; apply (in_map (fun f => f i)); exact Ha).
        rewrite (A i Hi (a i)) by (cbn [WA vec_fill]; apply in_app_iff; left; exact Hin).
        change (body _ m0 i) with (body (vec_fill scalar (fun i => map (fun a => a i) arrs) lam) m0 i). rewrite EB.
        apply write_list_out, HX, Hin.
      * rewrite write_list_opt; [|apply HND, Hi|unfold cells; rewrite map_length; exact L1].
        unfold cells. clear. revert ov. induction arrs as [|a arrs IH]; intros [|o ov]; try reflexivity.
        cbn [map combine fst snd]. f_equal. apply IH.
    + transitivity (map (body (vec_fill scalar (fun i => map (fun a => a i) arrs) lam) m0 i) (lam i)).
      * apply map_ext_in. intros a Ha. apply (A i Hi a). apply in_app_iff. right. exact Ha.
      * rewrite EB. apply write_list_some; [apply G, Hi|exact L2].
  - intros a Ha. apply B. intros i Hi Hw. destruct (Ha i Hi) as [H1 H2]. cbn [WA vec_fill] in Hw.
    apply in_app_iff in Hw. destruct Hw as [Hw|Hw]; contradiction.
Qed.
End Par.

(** *** Vector overloads of the modifiers *)
Open Scope R_scope.
Section Mods.
Context {L : Type} (null : L).
Notation M := (mem R).
Notation eos := (@eos L).
Notation "a +n i" := (a + Z.of_nat i)%Z (at level 45).
Local Notation vec_ok := (Vector_Spec.vec_ok null).
Local Notation good := (Vector_Spec.good null).

Lemma vfor_S out n g (m : M) : vfor out (S n) g m = upd (vfor out n g m) (out +n n) (g n (vfor out n g m)).
Proof. unfold vfor. rewrite seq_S, fold_left_app. reflexivity. Qed.
Lemma vfor_spec out n g (m : M) :
  (forall i m', (i < n)%nat -> (forall a, (forall j, (j < n)%nat -> j <> i -> a <> out +n j) -> m' a = m a) -> g i m' = g i m) ->
  (forall i, (i < n)%nat -> vfor out n g m (out +n i) = g i m) /\
  (forall a, (forall j, (j < n)%nat -> a <> out +n j) -> vfor out n g m a = m a).
Proof.
  induction n as [|n IH]; intros H; [split; [intros i Hi; lia|reflexivity]|].
  rewrite vfor_S.
  assert (H' : forall i m', (i < n)%nat -> (forall a, (forall j, (j < n)%nat -> j <> i -> a <> out +n j) -> m' a = m a) -> g i m' = g i m).
  { intros i m' Hi HA. apply H; [lia|]. intros a Ha. apply HA. intros j Hj Hji. apply Ha; lia. }
  destruct (IH H') as [A B]. split.
  - intros i Hi. destruct (Nat.eq_dec i n) as [->|Hne].
    + rewrite upd_eq. apply H; [lia|]. intros a Ha. apply B. intros j Hj. apply Ha; lia.
    + rewrite upd_ne by lia. apply A. lia.
  - intros a Ha. rewrite upd_ne by (apply Ha; lia). apply B. intros j Hj. apply Ha. lia.
Qed.
Lemma vfor_ext out n g g' (m : M) : (forall i m, g i m = g' i m) -> vfor out n g m = vfor out n g' m.
Proof. intros H. induction n as [|n IH]; [reflexivity|]. rewrite !vfor_S, IH, H. reflexivity. Qed.

Lemma size_BP (e : eos) n : (scratch_size e PofT n <= scratch_size e BofT n)%nat /\ (scratch_size e PofE n <= scratch_size e BofE n)%nat.
Proof. induction e; cbn [scratch_size fromE]; lia. Qed.
Lemma size_Min (e : eos) n : scratch_size e MinE n = 0%nat.
Proof. induction e; cbn [scratch_size fromE]; lia. Qed.
Lemma disj_sub b n c k c' k' : disj b n c k -> (c <= c')%Z -> (c' + Z.of_nat k' <= c + Z.of_nat k)%Z -> disj b n c' k'.
Proof.
  intros H H1 H2 a Ha [j [Hj ->]]. apply (H _ Ha). exists (Z.to_nat (c' - c + Z.of_nat j)). split; lia.
Qed.
Lemma disj_sym b n c k : disj b n c k -> disj c k b n.
Proof. intros H a Ha Hb. exact (H a Hb Ha). Qed.
Lemma disj_adj b n k : disj b n (b +n n) k.
Proof. intros a [j [Hj ->]] [i [Hi E]]. lia. Qed.
Lemma not_in_sub b n c k a : ~ inarr b n a -> (b <= c)%Z -> (c + Z.of_nat k <= b + Z.of_nat n)%Z -> ~ inarr c k a.
Proof. intros H H1 H2 [j [Hj ->]]. apply H. exists (Z.to_nat (c - b + Z.of_nat j)). split; lia. Qed.
Lemma inarr_i b n i : (i < n)%nat -> inarr b n (b +n i).
Proof. intros. exists i. auto. Qed.
Lemma inarr_pre b n k i : (i < n)%nat -> (n <= k)%nat -> inarr b k (b +n i).
Proof. intros. exists i. split; [lia|reflexivity]. Qed.
Lemma not_in_ne b n a : ~ inarr b n a -> forall j, (j < n)%nat -> a <> b +n j.
Proof. intros H j Hj ->. apply H. exists j. auto. Qed.

Lemma tchain_vector e : tchain e -> forall q, (has_units e -> q <> MinE) ->
  forall in1 in2 out scratch n lam t0 (m : M),
  vector null e q in1 in2 out scratch n lam t0 m =
  vfor out n (fun i m => tf t0 * scalar null e q (tx t0 * m (in1 +n i)) (ty t0 * m (in2 +n i)) (lam i)) m.
Proof.
  induction e; cbn [tchain has_units]; intros HT q HM in1 in2 out scratch n lam t0 m; try contradiction.
  - reflexivity.
  - cbn [vector]. rewrite IHe by assumption. apply vfor_ext. intros i m0.
    destruct q; cbn [applyT tx ty tf scalar fromE]; rewrite ?Rmult_assoc, ?Rmult_1_r, ?Rmult_1_l;
      repeat match goal with |- context[scale * (tx t0 * ?a)] => replace (scale * (tx t0 * a)) with (tx t0 * (scale * a)) by ring end;
      repeat match goal with |- context[1 / scale * (ty t0 * ?a)] => replace (1 / scale * (ty t0 * a)) with (ty t0 * (1 / scale * a)) by ring end;
      try reflexivity; ring.
  - cbn [vector]. rewrite IHe; [|assumption|intros _; apply HM; exact I]. apply vfor_ext. intros i m0.
    cbn [applyT tx ty tf scalar].
    replace (tx t0 * m0 (in1 +n i) * u_rho u) with (tx t0 * u_rho u * m0 (in1 +n i)) by ring.
    replace (ty t0 * m0 (in2 +n i) * in_unit u q) with (ty t0 * in_unit u q * m0 (in2 +n i)) by ring.
    destruct q; try ring. exfalso. apply HM; [exact I|reflexivity].
Qed.

Lemma vfor_in1 (m m' : M) a out n i : (forall a, (forall j, (j < n)%nat -> j <> i -> a <> out +n j) -> m' a = m a) ->
  ~ inarr out n a -> m' a = m a.
Proof. intros H Ha. apply H. intros j Hj _. apply (not_in_ne _ _ _ Ha j Hj). Qed.

Lemma leaf_ok g (out : Z) n (m : M) (in1 in2 : Z) (f : nat -> R -> R -> R) :
  disj in1 n out n -> disj in2 n out n ->
  (forall i m, g i m = f i (m (in1 +n i)) (m (in2 +n i))) ->
  (forall i, (i < n)%nat -> vfor out n g m (out +n i) = f i (m (in1 +n i)) (m (in2 +n i))) /\
  (forall a, ~ inarr out n a -> vfor out n g m a = m a).
Proof.
  intros D1 D2 Hg. destruct (vfor_spec out n g m) as [A B].
  { intros i m' Hi H. rewrite !Hg. f_equal; apply H; intros j Hj _.
    - apply (not_in_ne out n); [apply D1, inarr_i, Hi|exact Hj].
    - apply (not_in_ne out n); [apply D2, inarr_i, Hi|exact Hj]. }
  split; [intros i Hi; rewrite A by exact Hi; apply Hg|]. intros a Ha. apply B. apply not_in_ne. exact Ha.
Qed.

Lemma post_ok g (out : Z) n (m : M) (in1 in2 : Z) (f : R -> R -> R -> R) :
  disj in1 n out n -> disj in2 n out n ->
  (forall i m, g i m = f (m (in1 +n i)) (m (in2 +n i)) (m (out +n i))) ->
  (forall i, (i < n)%nat -> vfor out n g m (out +n i) = f (m (in1 +n i)) (m (in2 +n i)) (m (out +n i))) /\
  (forall a, ~ inarr out n a -> vfor out n g m a = m a).
Proof.
  intros D1 D2 Hg. destruct (vfor_spec out n g m) as [A B].
  { intros i m' Hi H. rewrite !Hg. f_equal; apply H; intros j Hj Hji.
    - apply (not_in_ne out n); [apply D1, inarr_i, Hi|exact Hj].
    - apply (not_in_ne out n); [apply D2, inarr_i, Hi|exact Hj].
    - lia. }
  split; [intros i Hi; rewrite A by exact Hi; apply Hg|]. intros a Ha. apply B. apply not_in_ne. exact Ha.
Qed.

(** an input pass-through: the inner call changes neither input array *)
Lemma call_weaken (e e' : eos) q q' in1 in2 out s s' n : call_ok e q in1 in2 out s n ->
  (s <= s')%Z -> (s' + Z.of_nat (scratch_size e' q' n) <= s + Z.of_nat (scratch_size e q n))%Z ->
  call_ok e' q' in1 in2 out s' n.
Proof.
  intros (A & B & C & D & E) H1 H2. repeat split; try assumption; eapply disj_sub; eauto.
Qed.

Lemma shifted_E sh t q : fromE q = true -> vec_ok t q -> vec_ok (Shifted sh t) q.
Proof.
  intros HE IH in1 in2 out sc n lam m HC. cbv zeta. cbn [vector scalar]. rewrite HE.
  set (m1 := vfor sc n _ m).
  assert (HS : scratch_size (Shifted sh t) q n = (scratch_size t q n + n)%nat) by (cbn [scratch_size]; rewrite HE; reflexivity).
  destruct HC as (A & B & C & D & E). rewrite HS in C, D, E.
  assert (C1 : disj in1 n sc n) by (eapply disj_sub; [exact C|lia|lia]).
  assert (D1 : disj in2 n sc n) by (eapply disj_sub; [exact D|lia|lia]).
  assert (E1 : disj out n sc n) by (eapply disj_sub; [exact E|lia|lia]).
  destruct (leaf_ok (fun i (m : M) => m (in2 +n i) - sh) sc n m in1 in2 (fun _ _ x => x - sh) C1 D1 (fun _ _ => eq_refl)) as [P1 P2].
  fold m1 in P1, P2.
  destruct (IH in1 sc out (vnum n sc) n lam m1) as [Q1 Q2].
  { unfold vnum. repeat split; try assumption.
    - apply disj_sym. exact E1.
    - eapply disj_sub; [exact C|lia|lia].
    - apply disj_adj.
    - eapply disj_sub; [exact E|lia|lia]. }
  split.
  - intros i Hi. rewrite Q1 by exact Hi. rewrite P1 by exact Hi.
    rewrite (P2 (in1 +n i)) by (apply C1, inarr_i, Hi). reflexivity.
  - intros a Ha Hb. rewrite HS in Hb. rewrite Q2; [|exact Ha|].
    + apply P2. eapply not_in_sub; [exact Hb|lia|lia].
    + unfold vnum. eapply not_in_sub; [exact Hb|lia|lia].
Qed.

Lemma post_general t q (g : nat -> M -> R) f in1 in2 out sc n lam (m : M) (scr : Z) :
  vec_ok t q -> call_ok t q in1 in2 out scr n ->
  (forall i m, g i m = f (m (in1 +n i)) (m (in2 +n i)) (m (out +n i))) ->
  let m' := vfor out n g (vector null t q in1 in2 out scr n lam T0 m) in
  (sc <= scr)%Z -> forall k, (scr + Z.of_nat (scratch_size t q n) <= sc + Z.of_nat k)%Z ->
  (forall i, (i < n)%nat -> m' (out +n i) = f (m (in1 +n i)) (m (in2 +n i)) (scalar null t q (m (in1 +n i)) (m (in2 +n i)) (lam i))) /\
  (forall a, ~ inarr out n a -> ~ inarr sc k a -> m' a = m a).
Proof.
  intros IH HC Hg m' Hs k Hk. destruct (IH in1 in2 out scr n lam m HC) as [Q1 Q2].
  destruct HC as (A & B & C & D & E).
  destruct (post_ok g out n (vector null t q in1 in2 out scr n lam T0 m) in1 in2 f A B Hg) as [P1 P2].
  fold m' in P1, P2. split.
  - intros i Hi. rewrite P1, Q1 by exact Hi.
    rewrite (Q2 (in1 +n i)), (Q2 (in2 +n i)); try reflexivity.
    + apply B, inarr_i, Hi. + apply D, inarr_i, Hi. + apply A, inarr_i, Hi. + apply C, inarr_i, Hi.
  - intros a Ha Hb. rewrite P2 by exact Ha. apply Q2; [exact Ha|]. eapply not_in_sub; [exact Hb|lia|lia].
Qed.

Lemma plain e t q scr_of : (forall in1 in2 out sc n lam m, vector null e q in1 in2 out sc n lam T0 m =
     vector null t q in1 in2 out (scr_of sc n) n lam T0 m) ->
  (forall rho x l, scalar null e q rho x l = scalar null t q rho x l) ->
  (forall sc n, (sc <= scr_of sc n)%Z /\ (scratch_size t q n <> 0%nat -> (scr_of sc n + Z.of_nat (scratch_size t q n) <= sc + Z.of_nat (scratch_size e q n))%Z)) ->
  vec_ok t q -> vec_ok e q.
Proof.
  intros HV HS HB IH in1 in2 out sc n lam m HC. cbv zeta. rewrite HV.
  destruct (HB sc n) as [B1 B2].
  assert (HD : forall b, disj b n sc (scratch_size e q n) -> disj b n (scr_of sc n) (scratch_size t q n)).
  { intros b Hb. destruct (Nat.eq_dec (scratch_size t q n) 0) as [Z0|Z0].
    - rewrite Z0. intros a _ [j [Hj _]]. lia.
    - eapply disj_sub; [exact Hb|exact B1|exact (B2 Z0)]. }
  destruct (IH in1 in2 out (scr_of sc n) n lam m) as [Q1 Q2].
  { destruct HC as (A & B & C & D & E). repeat split; auto. }
  split.
  - intros i Hi. rewrite Q1 by exact Hi. symmetry. apply HS.
  - intros a Ha Hb. apply Q2; [exact Ha|]. destruct (Nat.eq_dec (scratch_size t q n) 0) as [Z0|Z0].
    + rewrite Z0. intros [j [Hj _]]. lia.
    + eapply not_in_sub; [exact Hb|exact B1|exact (B2 Z0)].
Qed.

Lemma floored_E t q : fromE q = true ->
  (forall rho x lam, scalar null t MinE rho x lam = scalar null t MinE rho x null) ->
  vec_ok t q -> vec_ok (Floored t) q.
Proof.
  intros HE HM IH in1 in2 out sc n lam m HC. cbv zeta. cbn [vector scalar]. rewrite HE.
  set (m1 := vfor sc n _ m). set (m2 := vfor sc n _ m1).
  assert (HS : scratch_size (Floored t) q n = (scratch_size t q n + n)%nat) by (cbn [scratch_size]; rewrite HE; reflexivity).
  destruct HC as (A & B & C & D & E). rewrite HS in C, D, E.
  assert (C1 : disj in1 n sc n) by (eapply disj_sub; [exact C|lia|lia]).
  assert (D1 : disj in2 n sc n) by (eapply disj_sub; [exact D|lia|lia]).
  assert (E1 : disj out n sc n) by (eapply disj_sub; [exact E|lia|lia]).
  destruct (leaf_ok (fun i (m : M) => scalar null t MinE (m (in1 +n i)) (m (in2 +n i)) (lam i)) sc n m in1 in2
              (fun i r x => scalar null t MinE r x (lam i)) C1 D1 (fun _ _ => eq_refl)) as [P1 P2].
  fold m1 in P1, P2.
  destruct (post_ok (fun i (m : M) => Rmax (m (in2 +n i)) (m (sc +n i))) sc n m1 in1 in2
              (fun _ x s => Rmax x s) C1 D1 (fun _ _ => eq_refl)) as [R1 R2].
  fold m2 in R1, R2.
  destruct (IH in1 sc out (vnum n sc) n lam m2) as [Q1 Q2].
  { unfold vnum. repeat split; try assumption.
    - apply disj_sym. exact E1.
    - eapply disj_sub; [exact C|lia|lia].
    - apply disj_adj.
    - eapply disj_sub; [exact E|lia|lia]. }
  split.
  - intros i Hi. rewrite Q1, R1, P1 by exact Hi.
    rewrite (R2 (in1 +n i)) by (apply C1, inarr_i, Hi).
    rewrite (P2 (in1 +n i)) by (apply C1, inarr_i, Hi). rewrite (P2 (in2 +n i)) by (apply D1, inarr_i, Hi).
    rewrite HM. reflexivity.
  - intros a Ha Hb. rewrite HS in Hb.
    assert (Hsc : ~ inarr sc n a) by (eapply not_in_sub; [exact Hb|lia|lia]).
    rewrite Q2; [|exact Ha|unfold vnum; eapply not_in_sub; [exact Hb|lia|lia]].
    rewrite R2, P2 by exact Hsc. reflexivity.
Qed.

Lemma ramp_B pr dp t (p q : meth) : (p = PofT /\ q = BofT \/ p = PofE /\ q = BofE) ->
  vec_ok t p -> vec_ok t q -> vec_ok (Ramp pr dp t) q.
Proof.
  intros Hpq IP IQ in1 in2 out sc n lam m HC. cbv zeta.
  assert (HP : (scratch_size t p n <= scratch_size t q n)%nat).
  { destruct Hpq as [[-> ->]|[-> ->]]; apply size_BP. }
  assert (HS : scratch_size (Ramp pr dp t) q n = (scratch_size t q n + n)%nat).
  { destruct Hpq as [[-> ->]|[-> ->]]; reflexivity. }
  destruct HC as (A & B & C & D & E). rewrite HS in *.
  assert (C1 : disj in1 n sc n) by (eapply disj_sub; [exact C|lia|lia]).
  assert (D1 : disj in2 n sc n) by (eapply disj_sub; [exact D|lia|lia]).
  assert (E1 : disj out n sc n) by (eapply disj_sub; [exact E|lia|lia]).
  set (m1 := vector null t p in1 in2 sc (vnum n sc) n lam T0 m).
  set (m2 := vector null t q in1 in2 out (vnum n sc) n lam T0 m1).
  set (g := fun (i : nat) (m : M) => if Rlt_dec (m (sc +n i)) (pr (m (in1 +n i)))
                                 then m (in1 +n i) * dp (m (in1 +n i)) else m (out +n i)).
  assert (HV : vector null (Ramp pr dp t) q in1 in2 out sc n lam T0 m = vfor out n g m2).
  { destruct Hpq as [[-> ->]|[-> ->]]; reflexivity. }
  rewrite HV.
  assert (HSc : forall r x l, scalar null (Ramp pr dp t) q r x l =
     if Rlt_dec (scalar null t p r x l) (pr r) then r * dp r else scalar null t q r x l).
  { destruct Hpq as [[-> ->]|[-> ->]]; reflexivity. }
  destruct (IP in1 in2 sc (vnum n sc) n lam m) as [P1 P2].
  { unfold vnum. repeat split; try assumption.
    - eapply disj_sub; [exact C|lia|lia].
    - eapply disj_sub; [exact D|lia|lia].
    - apply disj_adj. }
  fold m1 in P1, P2.
  destruct (IQ in1 in2 out (vnum n sc) n lam m1) as [Q1 Q2].
  { unfold vnum. repeat split; try assumption.
    - eapply disj_sub; [exact C|lia|lia].
    - eapply disj_sub; [exact D|lia|lia].
    - eapply disj_sub; [exact E|lia|lia]. }
  fold m2 in Q1, Q2.
  destruct (vfor_spec out n g m2) as [R1 R2].
  { intros i m' Hi H. unfold g.
    rewrite (H (sc +n i)), (H (in1 +n i)), (H (out +n i)); [reflexivity|lia| |].
    - intros j Hj _. apply (not_in_ne out n); [apply A, inarr_i, Hi|exact Hj].
    - intros j Hj _. apply (not_in_ne out n); [|exact Hj]. intros X. apply (E1 _ X). apply inarr_i, Hi. }
  assert (NV : forall b, disj b n sc (scratch_size t q n + n) -> forall i k, (i < n)%nat -> (k <= scratch_size t q n)%nat -> ~ inarr (vnum n sc) k (b +n i)).
  { intros b Hb i k Hi Hk. unfold vnum. eapply not_in_sub; [apply Hb, inarr_i, Hi|lia|lia]. }
  split.
  - intros i Hi. rewrite R1 by exact Hi. unfold g. rewrite HSc.
    assert (X1 : m2 (in1 +n i) = m (in1 +n i)).
    { rewrite Q2, P2; try reflexivity; try (apply NV; auto; fail).
      - apply C1, inarr_i, Hi. - apply A, inarr_i, Hi. }
    assert (X2 : m2 (sc +n i) = scalar null t p (m (in1 +n i)) (m (in2 +n i)) (lam i)).
    { rewrite Q2; [apply P1, Hi| |].
      - intros X. apply (E1 _ X). apply inarr_i, Hi.
      - unfold vnum. intros [j [Hj X]]. lia. }
    assert (Y1 : m1 (in1 +n i) = m (in1 +n i)).
    { apply P2; [apply C1, inarr_i, Hi|apply NV; auto]. }
    assert (Y2 : m1 (in2 +n i) = m (in2 +n i)).
    { apply P2; [apply D1, inarr_i, Hi|apply NV; auto]. }
    rewrite X1, X2, Q1, Y1, Y2 by exact Hi. reflexivity.
  - intros a Ha Hb.
    assert (Hsc : ~ inarr sc n a) by (eapply not_in_sub; [exact Hb|lia|lia]).
    rewrite R2 by (apply not_in_ne; exact Ha).
    rewrite Q2, P2; try reflexivity; try assumption; unfold vnum; eapply not_in_sub; try exact Hb; lia.
Qed.

Lemma ramp_P pr dp t q : q = PofT \/ q = PofE -> vec_ok t q -> vec_ok (Ramp pr dp t) q.
Proof.
  intros Hq IH in1 in2 out sc n lam m HC. cbv zeta.
  assert (HS : scratch_size (Ramp pr dp t) q n = scratch_size t q n) by (cbn [scratch_size]; destruct Hq; subst q; lia).
  assert (HC' : call_ok t q in1 in2 out sc n) by (eapply call_weaken; [exact HC|lia|rewrite HS; lia]).
  destruct (post_general t q (fun i (m : M) => Rmax (m (out +n i)) (pr (m (in1 +n i)))) (fun r _ o => Rmax o (pr r)) in1 in2 out sc n lam m sc
                  IH HC' (fun _ _ => eq_refl) ltac:(lia) (scratch_size t q n) ltac:(lia)) as [P Q].
  assert (HV : vector null (Ramp pr dp t) q in1 in2 out sc n lam T0 m =
     vfor out n (fun i (m : M) => Rmax (m (out +n i)) (pr (m (in1 +n i)))) (vector null t q in1 in2 out sc n lam T0 m)).
  { destruct Hq; subst q; reflexivity. }
  assert (HSc : forall r x l, scalar null (Ramp pr dp t) q r x l =
     let p := scalar null t q r x l in if Rlt_dec p (pr r) then pr r else p).
  { destruct Hq; subst q; reflexivity. }
  rewrite HV. split; [|intros a Ha Hb; apply Q; [exact Ha|rewrite HS in Hb; exact Hb]].
  intros i Hi. rewrite P by exact Hi. rewrite HSc. cbv zeta.
  destruct (Rlt_dec _ _) as [X|X]; [apply Rmax_right; lra|apply Rmax_left; lra].
Qed.

Theorem good_vec_ok e : forall q, good e q -> vec_ok e q.
Proof.
  induction e as [s|s|sh t IH|t IH|pr dp t IH|s t IH|u t IH]; intros q HG.
  - intros in1 in2 out sc n lam m (A & B & _). cbv zeta. cbn [vector scalar].
    destruct (leaf_ok (fun i (m : M) => s q (m (in1 +n i)) (m (in2 +n i)) (lam i)) out n m in1 in2 (fun i x y => s q x y (lam i)) A B (fun _ _ => eq_refl)) as [P Q].
    split; [exact P|]. intros a Ha _. apply Q, Ha.
  - intros in1 in2 out sc n lam m (A & B & _). cbv zeta. cbn [vector scalar T0 tx ty tf].
    destruct (leaf_ok (fun i (m : M) => 1 * s q (1 * m (in1 +n i)) (1 * m (in2 +n i)) (lam i)) out n m in1 in2 (fun i x y => s q x y (lam i)) A B) as [P Q].
    { intros i m0. rewrite !Rmult_1_l. reflexivity. }
    split; [exact P|]. intros a Ha _. apply Q, Ha.
  - cbn [good] in HG. specialize (IH q HG). destruct (fromE q) eqn:HE; [apply shifted_E; assumption|].
    assert (HS : forall n, scratch_size (Shifted sh t) q n = scratch_size t q n) by (intros n; cbn [scratch_size]; rewrite HE; lia).
    destruct q; try discriminate HE;
      try (apply (plain (Shifted sh t) t _ (fun s _ => s)); [reflexivity|reflexivity|intros s0 n0; rewrite HS; split; [lia|intros _; lia]|exact IH]).
    + intros in1 in2 out sc n lam m HC. cbv zeta. cbn [vector scalar fromE].
      assert (HC' : call_ok t MinE in1 in2 out (vnum n sc) n).
      { destruct HC as (A & B & C & D & E). unfold call_ok. rewrite size_Min. repeat split; try assumption;
          intros a _ [j [Hj _]]; lia. }
      destruct (post_general t MinE (fun i (m : M) => m (out +n i) + sh) (fun _ _ o => o + sh) in1 in2 out (vnum n sc) n lam m (vnum n sc)
                  IH HC' (fun _ _ => eq_refl) ltac:(lia) 0%nat ltac:(rewrite size_Min; lia)) as [P Q].
      split; [exact P|]. intros a Ha _. apply Q; [exact Ha|]. intros [j [Hj _]]. lia.
    + intros in1 in2 out sc n lam m HC. cbv zeta. cbn [vector scalar fromE].
      assert (HC' : call_ok t EofT in1 in2 out sc n) by (eapply call_weaken; [exact HC|lia|rewrite HS; lia]).
      destruct (post_general t EofT (fun i (m : M) => m (out +n i) + sh) (fun _ _ o => o + sh) in1 in2 out sc n lam m sc
                  IH HC' (fun _ _ => eq_refl) ltac:(lia) (scratch_size t EofT n) ltac:(lia)) as [P Q].
      split; [exact P|]. intros a Ha Hb. apply Q; [exact Ha|]. rewrite HS in Hb. exact Hb.
  - cbn [good] in HG. destruct HG as [HG HM]. specialize (IH q HG). destruct (fromE q) eqn:HE; [apply floored_E; auto|].
    assert (HS : forall n, scratch_size (Floored t) q n = scratch_size t q n) by (intros n; cbn [scratch_size]; rewrite HE; lia).
    destruct q; try discriminate HE;
      try (apply (plain (Floored t) t _ (fun s _ => s)); [reflexivity|reflexivity|intros s0 n0; rewrite HS; split; [lia|intros _; lia]|exact IH]).
    apply (plain (Floored t) t _ (fun s n => vnum n s)); [reflexivity|reflexivity| |exact IH].
    intros s0 n0. rewrite HS, size_Min. unfold vnum. split; [lia|]. intros X. exfalso. apply X. reflexivity.
  - cbn [good] in HG. destruct HG as [HG HB].
    assert (HS : q <> BofT -> q <> BofE -> forall n, scratch_size (Ramp pr dp t) q n = scratch_size t q n).
    { intros H1 H2 n. cbn [scratch_size]. destruct q; try lia; congruence. }
    destruct q;
      try (apply (plain (Ramp pr dp t) t _ (fun s _ => s)); [reflexivity|reflexivity|intros s0 n0; rewrite HS by discriminate; split; [lia|intros _; lia]|exact (IH _ HG)]);
      try (apply (ramp_B pr dp t PofT); auto; fail);
      try (apply (ramp_B pr dp t PofE); auto; fail).
    + apply ramp_P; auto.
    + apply ramp_P; auto.
  - destruct HG as [HT HU]. intros in1 in2 out sc n lam m (A & B & _). cbv zeta. rewrite tchain_vector by assumption.
    destruct (leaf_ok (fun i (m : M) => tf T0 * scalar null (Scaled s t) q (tx T0 * m (in1 +n i)) (ty T0 * m (in2 +n i)) (lam i)) out n m in1 in2
       (fun i x y => scalar null (Scaled s t) q x y (lam i)) A B) as [P Q].
    { intros i m0. cbn [T0 tx ty tf]. rewrite !Rmult_1_l. reflexivity. }
    split; [exact P|]. intros a Ha _. apply Q, Ha.
  - destruct HG as [HT HU]. intros in1 in2 out sc n lam m (A & B & _). cbv zeta. rewrite tchain_vector by assumption.
    destruct (leaf_ok (fun i (m : M) => tf T0 * scalar null (Units u t) q (tx T0 * m (in1 +n i)) (ty T0 * m (in2 +n i)) (lam i)) out n m in1 in2
       (fun i x y => scalar null (Units u t) q x y (lam i)) A B) as [P Q].
    { intros i m0. cbn [T0 tx ty tf]. rewrite !Rmult_1_l. reflexivity. }
    split; [exact P|]. intros a Ha _. apply Q, Ha.
Qed.
End Mods.
