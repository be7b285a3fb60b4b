From Coq Require Import List Arith Bool Lia.
From Verif Require Import TypeLists_Model.
Import ListNotations.

(** nested induction *)
Fixpoint ty_size (t : ty) : nat :=
  match t with
  | Base _ => 1 | App _ x => S (ty_size x)
  | TL l => S ((fix go l := match l with [] => 0 | x :: r => ty_size x + go r end) l)
  end.
Fixpoint tys_size (l : list ty) : nat := match l with [] => 0 | x :: r => ty_size x + tys_size r end.
Lemma ty_size_TL l : ty_size (TL l) = S (tys_size l).
Proof. reflexivity. Qed.
Lemma ty_size_pos t : 0 < ty_size t.
Proof. destruct t; simpl; lia. Qed.
Lemma tys_size_app a b : tys_size (a ++ b) = tys_size a + tys_size b.
Proof. induction a; simpl; lia. Qed.

Lemma ty_eqb_eq : forall a b, ty_eqb a b = true <-> a = b.
Proof.
  intros a. remember (ty_size a) as n eqn:En. revert a En.
  induction n as [n IH] using lt_wf_ind. intros a En b.
  destruct a as [x|f x|l]; destruct b as [y|g y|k]; simpl; try (split; discriminate).
  - rewrite Nat.eqb_eq. split; congruence.
  - rewrite andb_true_iff, Nat.eqb_eq. simpl in En.
    rewrite (IH (ty_size x) ltac:(lia) x eq_refl y). split; [intros [-> ->]; reflexivity|].
    intros E; injection E; auto.
  - rewrite ty_size_TL in En.
    assert (Hl : forall l k, (tys_size l < n) ->
      ((fix go l k := match l, k with
        | [], [] => true | x :: l', y :: k' => ty_eqb x y && go l' k' | _, _ => false end) l k = true <-> l = k)).
    { clear l k En. intros l. induction l as [|x l IHl]; intros [|y k] Hs; try (split; (reflexivity || discriminate)).
      rewrite andb_true_iff. simpl in Hs.
      rewrite (IH (ty_size x) ltac:(lia) x eq_refl y). assert (P := ty_size_pos x).
      rewrite (IHl k ltac:(lia)). split; [intros [-> ->]; reflexivity|].
      intros E; injection E; auto. }
    rewrite (Hl l k ltac:(lia)). split; congruence.
Qed.
Lemma ty_eqb_refl a : ty_eqb a a = true. Proof. apply ty_eqb_eq; reflexivity. Qed.
Lemma ty_eqb_neq a b : ty_eqb a b = false <-> a <> b.
Proof.
  split.
  - intros H E. rewrite E, ty_eqb_refl in H. discriminate.
  - intros H. destruct (ty_eqb a b) eqn:E; [|reflexivity]. apply ty_eqb_eq in E. contradiction.
Qed.
Lemma ty_eq_dec (a b : ty) : {a = b} + {a <> b}.
Proof. destruct (ty_eqb a b) eqn:E; [left; apply ty_eqb_eq, E|right; apply ty_eqb_neq, E]. Qed.

(** conjunction by the shifted-pack comparison *)
Lemma blist_shift : forall bs b, blist_eqb (b :: bs) (bs ++ [b]) = forallb (Bool.eqb b) bs.
Proof.
  assert (G : forall bs b, blist_eqb (b :: bs) (bs ++ [b]) = forallb (Bool.eqb b) bs).
  { induction bs as [|x r IH]; intros b.
    - simpl. rewrite Bool.eqb_reflx. reflexivity.
    - simpl. destruct (Bool.eqb b x) eqn:E; [|reflexivity]. apply Bool.eqb_prop in E. subst x.
      simpl in IH |- *. apply IH. }
  exact G.
Qed.
Lemma conjunction_ok bs : conjunction bs = forallb (fun b => b) bs.
Proof. unfold conjunction. rewrite blist_shift. induction bs as [|[|] r IH]; simpl; auto. Qed.
Lemma disjunction_ok bs : disjunction bs = existsb (fun b => b) bs.
Proof.
  unfold disjunction. rewrite conjunction_ok. induction bs as [|b r IH]; simpl; [reflexivity|].
  rewrite negb_andb, negb_involutive, IH. reflexivity.
Qed.
Lemma contains_ok t ts : contains t ts = true <-> In t ts.
Proof.
  unfold contains. rewrite disjunction_ok, existsb_exists. split.
  - intros [b [H ->]]. apply in_map_iff in H. destruct H as [x [E Hx]]. apply ty_eqb_eq in E. subst; exact Hx.
  - intros H. exists true. split; [|reflexivity]. apply in_map_iff. exists t. split; [apply ty_eqb_refl|exact H].
Qed.

Lemma get_index_from_spec t ts c :
  match get_index_from t ts c with
  | Some i => c <= i /\ nth_error ts (i - c) = Some t /\ forall j, j < i - c -> nth_error ts j <> Some t
  | None => ~ In t ts
  end.
Proof.
  revert c. induction ts as [|h r IH]; intros c; simpl; [tauto|].
  destruct (ty_eqb t h) eqn:E.
  - apply ty_eqb_eq in E. subst h. rewrite Nat.sub_diag. repeat split; [lia|]. intros j Hj. lia.
  - apply ty_eqb_neq in E. specialize (IH (S c)).
    destruct (get_index_from t r (S c)) as [i|].
    + destruct IH as [H1 [H2 H3]]. replace (i - c) with (S (i - S c)) by lia.
      split; [lia|]. split; [exact H2|]. intros [|j] Hj; simpl; [congruence|]. apply H3. lia.
    + intros [H|H]; [congruence|contradiction].
Qed.

(** flatten *)
Fixpoint leaves (t : ty) : list ty :=
  match t with
  | TL l => (fix go l := match l with [] => [] | x :: r => leaves x ++ go r end) l
  | _ => [t]
  end.
Definition leaves_l (l : list ty) : list ty := flat_map leaves l.
Lemma leaves_TL l : leaves (TL l) = leaves_l l.
Proof. unfold leaves_l. simpl. induction l; simpl; [reflexivity|]. rewrite IHl. reflexivity. Qed.

Lemma flatten_helper_sound acc inp out : flatten_helper acc inp out -> out = acc ++ leaves_l inp.
Proof.
  induction 1 as [ts heads tail out H IH|ts head tail out HT H IH|ts].
  - rewrite IH. change (leaves_l (TL heads :: tail)) with (leaves (TL heads) ++ leaves_l tail).
    rewrite leaves_TL. unfold leaves_l. rewrite flat_map_app. reflexivity.
  - rewrite IH. unfold leaves_l. simpl. destruct head; try discriminate; simpl; rewrite <- app_assoc; reflexivity.
  - unfold leaves_l. simpl. rewrite app_nil_r. reflexivity.
Qed.
Lemma flatten_helper_total inp : forall acc, exists out, flatten_helper acc inp out.
Proof.
  remember (tys_size inp) as n eqn:En. revert inp En.
  induction n as [n IH] using lt_wf_ind. intros inp En acc.
  destruct inp as [|h r]; [eexists; constructor|].
  destruct h as [x|f x|l].
  - destruct (IH (tys_size r)) with (inp := r) (acc := acc ++ [Base x]) as [o Ho]; [simpl in En; lia|reflexivity|].
    exists o. constructor; [reflexivity|exact Ho].
  - destruct (IH (tys_size r)) with (inp := r) (acc := acc ++ [App f x]) as [o Ho]; [simpl in En; lia|reflexivity|].
    exists o. constructor; [reflexivity|exact Ho].
  - destruct (IH (tys_size (l ++ r))) with (inp := l ++ r) (acc := acc) as [o Ho]; [|reflexivity|].
    + rewrite tys_size_app. simpl tys_size in En. fold (tys_size r) in En.
      change (n = ty_size (TL l) + tys_size r) in En. rewrite ty_size_TL in En. lia.
    + exists o. constructor; exact Ho.
Qed.
Lemma flatten_iff l out : flatten l out <-> out = leaves_l l.
Proof.
  split.
  - intros H. apply flatten_helper_sound in H. exact H.
  - intros ->. destruct (flatten_helper_total l []) as [o Ho].
    assert (E := flatten_helper_sound _ _ _ Ho). simpl in E. subst o. exact Ho.
Qed.

Definition leaf (t : ty) : Prop := is_TL t = false.
Lemma leaves_leaf t : leaf t -> leaves t = [t].
Proof. destruct t; simpl; intros H; try reflexivity. discriminate. Qed.
Lemma leaves_l_leaf l : Forall leaf l -> leaves_l l = l.
Proof. induction 1; simpl; [reflexivity|]. unfold leaves_l in *. simpl. rewrite leaves_leaf by assumption. simpl. f_equal. exact IHForall. Qed.
Lemma leaves_are_leaves : forall t, Forall leaf (leaves t).
Proof.
  intros t. remember (ty_size t) as n eqn:En. revert t En.
  induction n as [n IH] using lt_wf_ind. intros t En. destruct t as [x|f x|l].
  - repeat constructor.
  - repeat constructor.
  - rewrite leaves_TL. rewrite ty_size_TL in En.
    assert (G : forall l, tys_size l < n -> Forall leaf (leaves_l l)).
    { clear l En. induction l as [|x r IHr]; intros Hs; [constructor|].
      unfold leaves_l. simpl. apply Forall_app. simpl in Hs. assert (P := ty_size_pos x). split.
      - apply (IH (ty_size x)); [lia|reflexivity].
      - apply IHr. lia. }
    apply G. lia.
Qed.

Definition dup (a : nat) (t : ty) : bool := negb (is_not_duplicate_nested a t).
Lemma filter_ty_filter a ts : filter_ty a ts = filter (is_not_duplicate_nested a) ts.
Proof. induction ts; simpl; [reflexivity|]. rewrite IHts. reflexivity. Qed.
Lemma Forall_filter {A} (P : A -> Prop) f l : Forall P l -> Forall P (filter f l).
Proof. induction 1; simpl; [constructor|]. destruct (f x); [constructor|]; assumption. Qed.
Lemma filter_filter {A} f g (l : list A) : filter f (filter g l) = filter (fun x => g x && f x) l.
Proof. induction l as [|x r IH]; simpl; [reflexivity|]. destruct (g x); simpl; [destruct (f x)|]; rewrite ?IH; reflexivity. Qed.
Lemma filter_ext' {A} (f g : A -> bool) l : (forall x, f x = g x) -> filter f l = filter g l.
Proof. intros H; induction l; simpl; [reflexivity|]. rewrite H, IHl. reflexivity. Qed.
Lemma filter_nested_iff us : forall ts out, Forall leaf ts ->
  (filter_nested_variadic us ts out <-> out = filter (fun t => forallb (fun a => is_not_duplicate_nested a t) us) ts).
Proof.
  induction us as [|f us IH]; intros ts out HL.
  - assert (E : filter (fun t => forallb (fun a => is_not_duplicate_nested a t) []) ts = ts).
    { simpl. induction HL; simpl; [reflexivity|]. rewrite IHHL at 1. reflexivity. }
    rewrite E. split; [intros H; inversion H; reflexivity|intros ->; constructor].
  - assert (HF : Forall leaf (filter (is_not_duplicate_nested f) ts)) by (apply Forall_filter, HL).
    assert (EF : leaves_l [TL (filter_ty f ts)] = filter (is_not_duplicate_nested f) ts).
    { rewrite filter_ty_filter. 
      match goal with |- leaves_l [?x] = _ => change (leaves_l [x]) with (leaves x ++ []) end.
      rewrite app_nil_r, leaves_TL.
      apply leaves_l_leaf, HF. }
    assert (E2 : filter (fun t => forallb (fun a => is_not_duplicate_nested a t) (f :: us)) ts =
                 filter (fun t => forallb (fun a => is_not_duplicate_nested a t) us)
                        (filter (is_not_duplicate_nested f) ts)).
    { rewrite filter_filter. apply filter_ext'. intros x. reflexivity. }
    rewrite E2. split.
    + intros H. inversion H; subst.
      match goal with H : flatten _ _ |- _ => apply flatten_iff in H; rewrite EF in H; subst l1 end.
      apply IH; assumption.
    + intros ->. econstructor.
      * apply flatten_iff. reflexivity.
      * rewrite EF. apply IH; [exact HF|reflexivity].
Qed.

Lemma forall_leaf_app a us : Forall leaf (map (App a) us).
Proof. induction us; simpl; constructor; auto. reflexivity. Qed.
Lemma pre_transform us ts : leaves_l (map (fun t => TL (map (App t) us)) ts) = flat_map (fun t => map (App t) us) ts.
Proof.
  induction ts as [|t r IH]; [reflexivity|].
  change (leaves (TL (map (App t) us)) ++ leaves_l (map (fun t => TL (map (App t) us)) r)
          = map (App t) us ++ flat_map (fun t => map (App t) us) r).
  rewrite IH. f_equal.
  rewrite leaves_TL. apply leaves_l_leaf, forall_leaf_app.
Qed.
Lemma transform_iff us ts out : transform_variadic_list us ts out <->
  out = filter (fun t => forallb (fun a => is_not_duplicate_nested a t) ts) (flat_map (fun t => map (App t) us) ts).
Proof.
  assert (HL : Forall leaf (flat_map (fun t => map (App t) us) ts)).
  { induction ts; simpl; [constructor|]. apply Forall_app. split; [apply forall_leaf_app|assumption]. }
  split.
  - intros [l1 H1 H2]. apply flatten_iff in H1. rewrite pre_transform in H1. subst l1.
    apply filter_nested_iff in H2; assumption.
  - intros ->. econstructor; [apply flatten_iff; reflexivity|]. rewrite pre_transform.
    apply filter_nested_iff; [exact HL|reflexivity].
Qed.
Lemma transform_in us ts out x : transform_variadic_list us ts out ->
  (In x out <-> exists a u, In a ts /\ In u us /\ x = App a u /\ forall v, u <> App a v).
Proof.
  intros H. apply transform_iff in H. subst out. rewrite filter_In, in_flat_map, forallb_forall. split.
  - intros [[a [Ha Hx]] HN]. apply in_map_iff in Hx. destruct Hx as [u [<- Hu]].
    exists a, u. repeat split; auto. intros v ->. specialize (HN a Ha). simpl in HN.
    rewrite Nat.eqb_refl in HN. discriminate.
  - intros [a [u [Ha [Hu [-> HN]]]]]. split.
    + exists a. split; [exact Ha|]. apply in_map, Hu.
    + intros b Hb. simpl. destruct u as [n|g u|l]; try reflexivity.
      destruct (Nat.eqb a b) eqn:E1; [|reflexivity]. destruct (Nat.eqb g b) eqn:E2; [|reflexivity].
      apply Nat.eqb_eq in E1, E2. subst. exfalso. exact (HN u eq_refl).
Qed.
Lemma NoDup_filter' {A} f (l : list A) : NoDup l -> NoDup (filter f l).
Proof. apply NoDup_filter. Qed.
Lemma NoDup_app' {A} (a b : list A) : NoDup a -> NoDup b -> (forall x, In x a -> ~ In x b) -> NoDup (a ++ b).
Proof.
  induction 1 as [|x a Hx Ha IH]; intros Hb Hd; simpl; [exact Hb|]. constructor.
  - rewrite in_app_iff. intros [H|H]; [contradiction|]. apply (Hd x); [left; reflexivity|exact H].
  - apply IH; [exact Hb|]. intros y Hy. apply Hd. right; exact Hy.
Qed.
Lemma NoDup_map_App a us : NoDup us -> NoDup (map (App a) us).
Proof.
  induction 1 as [|x l Hx Hl IH]; simpl; constructor; [|exact IH].
  intros H. apply in_map_iff in H. destruct H as [y [E Hy]]. injection E as ->. contradiction.
Qed.
Lemma transform_nodup us ts out : NoDup us -> NoDup ts -> transform_variadic_list us ts out -> NoDup out.
Proof.
  intros Hu Ht H. apply transform_iff in H. subst out. apply NoDup_filter.
  induction Ht as [|a r Ha Hr IH]; simpl; [constructor|]. apply NoDup_app'.
  - apply NoDup_map_App, Hu.
  - exact IH.
  - intros x Hx Hx'. apply in_map_iff in Hx. destruct Hx as [u [<- _]].
    apply in_flat_map in Hx'. destruct Hx' as [b [Hb Hx]]. apply in_map_iff in Hx.
    destruct Hx as [v [E _]]. injection E as -> _. contradiction.
Qed.

(** for a single modifier that does not already head any list element, nothing is filtered *)
Definition headed (a : nat) (t : ty) : bool := match t with App f _ => Nat.eqb f a | _ => false end.
Lemma transform_single us a : (forall u, In u us -> headed a u = false) ->
  forall out, transform_variadic_list us [a] out <-> out = map (App a) us.
Proof.
  intros H out. rewrite transform_iff. simpl flat_map. rewrite app_nil_r.
  assert (E : filter (fun t => forallb (fun a => is_not_duplicate_nested a t) [a]) (map (App a) us) = map (App a) us).
  { induction us as [|u r IH]; [reflexivity|]. 
    assert (IH' := IH ltac:(intros v Hv; apply H; right; exact Hv)).
    assert (Hu := H u (or_introl eq_refl)).
    assert (Hk : forallb (fun a0 => is_not_duplicate_nested a0 (App a u)) [a] = true).
    { destruct u as [n|g u|l]; simpl in *; try reflexivity. rewrite Nat.eqb_refl, Hu. reflexivity. }
    cbn [map filter]. rewrite Hk, IH'. reflexivity. }
  rewrite E. reflexivity.
Qed.
Definition plain (t : ty) : bool := match t with Base _ => true | _ => false end.
Lemma combined_iff full out : (forall u, In u full -> plain u = true) ->
  (combined_list full out <->
   let c1 := full ++ map (App SHIFTED) full ++ (map (App SCALED) full ++ map (fun u => App SCALED (App SHIFTED u)) full) in
   out = c1 ++ map (App RAMP) c1).
Proof.
  intros HP. cbv zeta.
  assert (T1 := transform_single full SHIFTED). assert (T2 := transform_single full SCALED).
  assert (T3 := transform_single (map (App SHIFTED) full) SCALED).
  assert (Hp : forall a u, In u full -> headed a u = false).
  { intros a u Hu. apply HP in Hu. destruct u; try discriminate. reflexivity. }
  specialize (T1 (fun u Hu => Hp _ u Hu)). specialize (T2 (fun u Hu => Hp _ u Hu)).
  assert (H3 : forall u, In u (map (App SHIFTED) full) -> headed SCALED u = false).
  { intros u Hu. apply in_map_iff in Hu. destruct Hu as [v [<- _]]. reflexivity. }
  specialize (T3 H3). rewrite map_map in T3.
  set (c1 := full ++ map (App SHIFTED) full ++ map (App SCALED) full ++ map (fun u => App SCALED (App SHIFTED u)) full).
  assert (H4 : forall u, In u c1 -> headed RAMP u = false).
  { intros u Hu. unfold c1 in Hu. rewrite !in_app_iff, !in_map_iff in Hu.
    destruct Hu as [Hu|[[v [<- _]]|[[v [<- _]]|[v [<- _]]]]]; [apply Hp, Hu|reflexivity..]. }
  assert (T4 := transform_single c1 RAMP H4).
  split.
  - intros [sh s1 ss ra A B C D E]. apply T1 in A. apply T2 in B. subst sh s1. apply T3 in C. subst ss.
    simpl concat_tl in D, E. rewrite !app_nil_r in D, E. apply T4 in D. rewrite E, D. unfold c1. rewrite ?app_nil_r. reflexivity.
  - intros ->. econstructor; [apply T1; reflexivity|apply T2; reflexivity|apply T3; reflexivity| |].
    + simpl concat_tl. rewrite !app_nil_r. apply T4. reflexivity.
    + simpl concat_tl. unfold c1. rewrite ?app_nil_r. rewrite ?app_nil_r. reflexivity.
Qed.
