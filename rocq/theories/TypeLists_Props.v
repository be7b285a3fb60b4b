(** Property theorems C09: compile-time type lists. *)
From Coq Require Import List Arith Bool Lia.
From Verif Require Import TypeLists_Model TypeLists_Proofs.
Import ListNotations.

(** template instantiation of flatten terminates with a unique result ... *)
Theorem C09_flatten_total_unique :
  forall l, exists out, flatten l out /\ forall out', flatten l out' -> out' = out.
Proof.
  intros l. exists (leaves_l l). split; [apply flatten_iff; reflexivity|].
  intros o H. apply flatten_iff, H.
Qed.
Print Assumptions C09_flatten_total_unique.

(** ... which is the in-order list of the non-list elements at any nesting depth (specification: a
    traversal that emits x for a non-list x and traverses the elements of a list in order) *)
Inductive traversal : list ty -> list ty -> Prop :=
| T_nil : traversal [] []
| T_item x r o : is_TL x = false -> traversal r o -> traversal (x :: r) (x :: o)
| T_list l o1 r o2 : traversal l o1 -> traversal r o2 -> traversal (TL l :: r) (o1 ++ o2).
Lemma traversal_leaves l o : traversal l o -> o = leaves_l l.
Proof.
  induction 1 as [|x r o Hx H IH|l o1 r o2 H1 IH1 H2 IH2].
  - reflexivity.
  - change (leaves_l (x :: r)) with (leaves x ++ leaves_l r). rewrite (leaves_leaf x Hx), IH. reflexivity.
  - change (leaves_l (TL l :: r)) with (leaves (TL l) ++ leaves_l r). rewrite leaves_TL, IH1, IH2. reflexivity.
Qed.
Theorem C09_flatten_preserves_order :
  forall l out, traversal l out -> flatten l out.
Proof. intros l out H. apply flatten_iff, traversal_leaves, H. Qed.
Print Assumptions C09_flatten_preserves_order.
Theorem C09_flatten_removes_all_nesting :
  forall l out, flatten l out -> Forall (fun t => is_TL t = false) out.
Proof.
  intros l out H. apply flatten_iff in H. subst out. unfold leaves_l.
  induction l as [|x r IH]; simpl; [constructor|]. apply Forall_app. split; [apply leaves_are_leaves|exact IH].
Qed.
Print Assumptions C09_flatten_removes_all_nesting.

(** transform_variadic_list: every modifier applied to every EOS, except directly onto itself; each once *)
Theorem C09_transform_members :
  forall us ts out, transform_variadic_list us ts out ->
    (forall x, In x out <-> exists a u, In a ts /\ In u us /\ x = App a u /\ forall v, u <> App a v) /\
    (NoDup us -> NoDup ts -> NoDup out).
Proof.
  intros us ts out H. split.
  - intros x. apply (transform_in us ts out x H).
  - intros Hu Ht. exact (transform_nodup us ts out Hu Ht H).
Qed.
Print Assumptions C09_transform_members.
Theorem C09_transform_total :
  forall us ts, exists out, transform_variadic_list us ts out.
Proof. intros us ts. eexists. apply transform_iff. reflexivity. Qed.
Print Assumptions C09_transform_total.

(** the default variant's list, for any list of distinct plain EOS classes (any build configuration):
    8 entries per EOS, no repetition, and exactly the documented stacks *)
Theorem C09_combined_list :
  forall full, NoDup full -> (forall u, In u full -> exists n, u = Base n) ->
  exists out, combined_list full out /\ length out = 8 * length full /\ NoDup out /\
    forall x, In x out <-> exists u, In u full /\
      In x [u; App SHIFTED u; App SCALED u; App SCALED (App SHIFTED u);
            App RAMP u; App RAMP (App SHIFTED u); App RAMP (App SCALED u);
            App RAMP (App SCALED (App SHIFTED u))].
Proof.
  intros full HD HB.
  assert (HP : forall u, In u full -> plain u = true).
  { intros u Hu. destruct (HB u Hu) as [n ->]. reflexivity. }
  eexists. split; [apply combined_iff; [exact HP|reflexivity]|]. cbv zeta.
  set (c1 := full ++ map (App SHIFTED) full ++ map (App SCALED) full
             ++ map (fun u => App SCALED (App SHIFTED u)) full).
  assert (Hc1 : forall x, In x c1 <-> exists u, In u full /\ In x [u; App SHIFTED u; App SCALED u; App SCALED (App SHIFTED u)]).
  { intros x. unfold c1. rewrite !in_app_iff, !in_map_iff. simpl. split.
    - intros [H|[[u [<- H]]|[[u [<- H]]|[u [<- H]]]]]; [exists x|exists u..]; auto 8.
    - intros [u [Hu [E|[E|[E|[E|[]]]]]]].
      + subst; auto.
      + right; left. exists u; split; assumption.
      + right; right; left. exists u; split; assumption.
      + right; right; right. exists u; split; assumption. }
  assert (HN : NoDup c1).
  { assert (Hmap : forall a, NoDup (map (App a) full)) by (intros; apply NoDup_map_App, HD).
    assert (Hss : NoDup (map (fun u => App SCALED (App SHIFTED u)) full)).
    { rewrite <- (map_map (App SHIFTED) (App SCALED)). apply NoDup_map_App, Hmap. }
    unfold c1. apply NoDup_app'; [exact HD| |].
    - apply NoDup_app'; [apply Hmap| |].
      + apply NoDup_app'; [apply Hmap|exact Hss|].
        intros x Hx Hy. apply in_map_iff in Hx, Hy. destruct Hx as [u [<- Hu]], Hy as [v [E Hv]].
        injection E as E. apply HP in Hu. rewrite <- E in Hu. discriminate.
      + intros x Hx Hy. apply in_map_iff in Hx. destruct Hx as [u [<- Hu]].
        apply in_app_iff in Hy. destruct Hy as [Hy|Hy]; apply in_map_iff in Hy; destruct Hy as [v [E Hv]]; discriminate.
    - intros x Hx Hy. apply HP in Hx. rewrite !in_app_iff in Hy.
      destruct Hy as [Hy|[Hy|Hy]]; apply in_map_iff in Hy; destruct Hy as [v [<- Hv]]; discriminate. }
  split; [|split].
  - unfold c1. rewrite !app_length, !map_length, !app_length, !map_length. lia.
  - apply NoDup_app'; [exact HN|apply NoDup_map_App, HN|].
    intros x Hx Hy. apply in_map_iff in Hy. destruct Hy as [v [<- Hv]].
    apply Hc1 in Hx. destruct Hx as [u [Hu [E|[E|[E|[E|[]]]]]]]; try discriminate.
    apply HP in Hu. rewrite E in Hu. discriminate.
  - intros x. rewrite in_app_iff, in_map_iff. split.
    + intros [H|[v [<- H]]]; apply Hc1 in H; destruct H as [u [Hu H]]; exists u; (split; [exact Hu|]); simpl in *;
        destruct H as [E|[E|[E|[E|[]]]]]; subst; auto 9.
    + intros [u [Hu H]]. simpl in H.
      destruct H as [E|[E|[E|[E|[E|[E|[E|[E|[]]]]]]]]];
        try (left; apply Hc1; exists u; split; [exact Hu|]; simpl; subst; auto 5; fail);
        right; (eexists; split; [exact E|]); apply Hc1; exists u; (split; [exact Hu|]); simpl; auto 5.
Qed.
Print Assumptions C09_combined_list.

(** GetIndexInTL is the position of the first occurrence; it fails to compile exactly when absent *)
Theorem C09_get_index :
  forall t ts,
    (forall i, get_index t ts = Some i <->
       nth_error ts i = Some t /\ forall j, j < i -> nth_error ts j <> Some t) /\
    (get_index t ts = None <-> ~ In t ts).
Proof.
  intros t ts. assert (H := get_index_from_spec t ts 0). unfold get_index.
  destruct (get_index_from t ts 0) as [k|]; rewrite ?Nat.sub_0_r in H.
  - destruct H as [_ [H2 H3]]. split.
    + intros i. split.
      * intros E; injection E as <-. auto.
      * intros [A B]. f_equal. destruct (lt_eq_lt_dec k i) as [[L|L]|L]; [|exact L|].
        -- exfalso. exact (B k L H2).
        -- exfalso. exact (H3 i L A).
    + split; [discriminate|]. intros N. exfalso. apply N. eapply nth_error_In, H2.
  - split.
    + intros i. split; [discriminate|]. intros [A _]. exfalso. apply H. eapply nth_error_In, A.
    + split; [intros _; exact H|reflexivity].
Qed.
Print Assumptions C09_get_index.

(** contains is membership; the pack-shifting conjunction/disjunction are and/or over any pack *)
Theorem C09_contains :
  (forall t ts, contains t ts = true <-> In t ts) /\
  (forall bs, conjunction bs = forallb (fun b => b) bs) /\
  (forall bs, disjunction bs = existsb (fun b => b) bs).
Proof. exact (conj contains_ok (conj conjunction_ok disjunction_ok)). Qed.
Print Assumptions C09_contains.
Theorem C09_concat_pack_size :
  forall ls, concat_tl ls = concat ls /\ pack_size (concat_tl ls) = list_sum (map (@pack_size ty) ls).
Proof.
  induction ls as [|l r [IH1 IH2]]; simpl; [auto|]. rewrite IH1. split; [reflexivity|].
  unfold pack_size in *. rewrite app_length, <- IH2, IH1. reflexivity.
Qed.
Print Assumptions C09_concat_pack_size.

(** non-vacuity *)
Example C09_instance :
  traversal [TL [Base 0; TL [App 1 (Base 2)]; TL []]; Base 3] [Base 0; App 1 (Base 2); Base 3] /\
  transform_variadic_list [Base 0; App 1 (Base 0)] [1; 2]
    [App 1 (Base 0); App 2 (Base 0); App 2 (App 1 (Base 0))].
Proof.
  split.
  - apply (T_list _ [Base 0; App 1 (Base 2)] _ [Base 3]).
    + apply T_item; [reflexivity|]. apply (T_list _ [App 1 (Base 2)] _ []).
      * apply T_item; [reflexivity|constructor].
      * apply (T_list _ [] _ []); constructor.
    + apply T_item; [reflexivity|constructor].
  - apply transform_iff. reflexivity.
Qed.
