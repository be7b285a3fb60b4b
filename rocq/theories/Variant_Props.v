(** C32: Modify / UnmodifyOnce / GetUnmodifiedObject / variant dispatch; C45: the modifier stacks of the C interface.
    Trust: Variant_Model, TypeLists_Model.  Closed under the global context. *)
From Coq Require Import List Arith Bool Lia.
From Verif Require Import TypeLists_Model TypeLists_Proofs TypeLists_Props Variant_Model.
Import ListNotations.

Section Props.
Variables V A : Type.
Variable ctor_ok : nat -> A -> bool.
Notation obj := (obj V A).
Notation variant := (variant V A).
Notation Modify := (Modify ctor_ok).

(** a well-formed variant over a list of distinct types: the stored index is that of the held object's type.  This is what the
    converting constructor establishes (next theorem) *)
Definition wf (ts : list ty) (v : variant) : Prop := nth_error ts (index v) = Some (type_of (held v)).

Lemma make_wf ts (o : obj) v : make ts o = Some v -> wf ts v /\ held v = o.
Proof.
  unfold make. intros H. destruct (get_index (type_of o) ts) as [i|] eqn:E; [|discriminate]. injection H as <-.
  apply C09_get_index in E. destruct E as [E _]. split; [exact E|reflexivity].
Qed.
Lemma make_in ts (o : obj) : (exists v, make ts o = Some v) <-> In (type_of o) ts.
Proof.
  unfold make. split.
  - intros [v H]. destruct (get_index (type_of o) ts) as [i|] eqn:E; [|discriminate]. apply C09_get_index in E. destruct E as [E _]. eapply nth_error_In; exact E.
  - intros H. destruct (get_index (type_of o) ts) as [i|] eqn:E; [eauto|]. exfalso. apply C09_get_index in E. exact (E H).
Qed.
Lemma visit_wf {B} ts (f : ty -> obj -> B) v : wf ts v -> visit ts f v = Some (f (type_of (held v)) (held v)).
Proof. unfold wf, visit. intros H. rewrite nth_error_map, H. reflexivity. Qed.

(** storing an object in a variant: possible exactly for the listed types; the variant then holds that very object, IsType is true
    for its type and for no other, and get returns it *)
Theorem C32_construct : forall ts (o : obj), NoDup ts ->
  ((exists v, make ts o = Some v) <-> In (type_of o) ts) /\
  forall v, make ts o = Some v -> wf ts v /\ held v = o /\
    (forall t, IsType ts t v = true <-> t = type_of o) /\ (forall t, get ts t v = if ty_eqb t (type_of o) then Some o else None).
Proof.
  intros ts o ND. split; [apply make_in|]. intros v H. destruct (make_wf _ _ _ H) as [W E]. refine (conj W (conj E _)).
  assert (K : forall t, IsType ts t v = true <-> t = type_of o).
  { intros t. unfold IsType. unfold wf in W. rewrite E in W. destruct (get_index t ts) as [i|] eqn:G.
    - apply C09_get_index in G. destruct G as [G _]. rewrite Nat.eqb_eq. split.
      + intros ->. congruence.
      + intros ->. apply (NoDup_nth_error ts); [exact ND| |congruence]. apply nth_error_Some. congruence.
    - split; [discriminate|]. intros ->. exfalso. apply C09_get_index in G. apply G. eapply nth_error_In; exact W. }
  split; [exact K|]. intros t. unfold get. destruct (ty_eqb t (type_of o)) eqn:Q.
  - apply ty_eqb_eq in Q. rewrite (proj2 (K t) Q), E. reflexivity.
  - destruct (IsType ts t v) eqn:I; [|reflexivity]. apply K in I. subst t.
    rewrite (proj2 (ty_eqb_eq (type_of o) (type_of o)) eq_refl) in Q. discriminate.
Qed.
(** a call on the variant is the call on the held object, by the method of the held object's own class, for every method [f] *)
Theorem C32_dispatch : forall ts (o : obj) v B (f : ty -> obj -> B), make ts o = Some v -> visit ts f v = Some (f (type_of o) o).
Proof. intros ts o v B f H. destruct (make_wf _ _ _ H) as [W E]. rewrite (visit_wf _ _ _ W), E. reflexivity. Qed.

(** Modify: for every held object, succeeds exactly if the modified type is listed and the modifier's own parameter check
    passes, and then the result holds the modifier around the very object held before; it never holds a type outside the list *)
Theorem C32_modify : forall ts (o : obj) v a args, make ts o = Some v ->
  (forall v', Modify ts a args v = Some v' <->
     In (App a (type_of o)) ts /\ ctor_ok a args = true /\ make ts (Modified a args o) = Some v') /\
  (In (App a (type_of o)) ts -> ctor_ok a args = true -> exists v', Modify ts a args v = Some v') /\
  (forall v', Modify ts a args v = Some v' -> In (type_of (held v')) ts /\ held v' = Modified a args o).
Proof.
  intros ts o v a args H. destruct (make_wf _ _ _ H) as [W E].
  assert (K : forall v', Modify ts a args v = Some v' <->
     In (App a (type_of o)) ts /\ ctor_ok a args = true /\ make ts (Modified a args o) = Some v').
  { intros v'. unfold Variant_Model.Modify, ModifiedInVariant. rewrite !(visit_wf _ _ _ W), E. unfold ConditionallyModify, obj_Modify.
    destruct (contains (App a (type_of o)) ts) eqn:C.
    - apply C09_contains in C. destruct (ctor_ok a args) eqn:Q.
      + split; [intros Hm; auto|intros (_ & _ & Hm); exact Hm].
      + split; [discriminate|intros (_ & F & _); discriminate].
    - split; [discriminate|]. intros (F & _). apply C09_contains in F. congruence. }
  split; [exact K|]. split.
  - intros HI HC. destruct (proj2 (make_in ts (Modified a args o)) HI) as [v' Hv]. exists v'. apply K. auto.
  - intros v' Hm. apply K in Hm. destruct Hm as (HI & _ & Hm). destruct (make_wf _ _ _ Hm) as [W' E']. rewrite E'. auto.
Qed.
(** is_modifiable says in advance whether it can succeed *)
Theorem C32_is_modifiable : forall ts (o : obj) v a, make ts o = Some v ->
  is_modifiable a (type_of o) ts = true <-> ModifiedInVariant ts a v = Some true.
Proof.
  intros ts o v a H. destruct (make_wf _ _ _ H) as [W E]. unfold is_modifiable, ModifiedInVariant. rewrite (visit_wf _ _ _ W), E.
  destruct C09_contains as (CC & CJ & _). rewrite CJ. cbn.
  assert (In (type_of o) ts) by (apply make_in; eauto). rewrite (proj2 (CC (type_of o) ts) H0).
  cbn. rewrite andb_true_r. split; congruence.
Qed.

(** undoing: UnmodifyOnce reverses the last Modify *)
Theorem C32_unmodify_once : forall ts (o : obj) v a args v', make ts o = Some v -> Modify ts a args v = Some v' ->
  var_IsModified ts v' = Some true /\ var_UnmodifyOnce ts v' = Some v.
Proof.
  intros ts o v a args v' H Hm. apply (proj1 (C32_modify ts o v a args H)) in Hm. destruct Hm as (HI & _ & Hm).
  unfold var_IsModified, var_UnmodifyOnce. rewrite !(C32_dispatch ts _ _ _ _ Hm). cbn. split; [reflexivity|exact H].
Qed.
(** a sequence of Modify calls *)
Inductive modified_by (ts : list ty) : variant -> list (nat * A) -> variant -> Prop :=
| MB_none v : modified_by ts v [] v
| MB_step v a args v1 l v2 : Modify ts a args v = Some v1 -> modified_by ts v1 l v2 -> modified_by ts v ((a, args) :: l) v2.
(** any number of modifiers, in any order, on any held object: GetUnmodifiedObject of the stack is GetUnmodifiedObject of the
    original; for an unmodified original, the original itself *)
Theorem C32_get_unmodified : forall ts v l v', (exists o : obj, make ts o = Some v) -> modified_by ts v l v' ->
  var_GetUnmodifiedObject ts v' = var_GetUnmodifiedObject ts v /\
  (IsModified (held v) = false -> var_GetUnmodifiedObject ts v' = Some v).
Proof.
  intros ts v l v' Ho H.
  assert (E : var_GetUnmodifiedObject ts v' = var_GetUnmodifiedObject ts v).
  { induction H as [v|v a args v1 l v2 Hm Hr IH]; [reflexivity|]. destruct Ho as [o Ho].
    pose proof (proj1 (C32_modify ts o v a args Ho) v1) as K. apply K in Hm. destruct Hm as (_ & _ & Hm).
    rewrite IH by eauto. unfold var_GetUnmodifiedObject. rewrite (C32_dispatch ts _ _ _ _ Hm), (C32_dispatch ts _ _ _ _ Ho). reflexivity. }
  split; [exact E|]. intros Hp. rewrite E. destruct Ho as [o Ho]. unfold var_GetUnmodifiedObject. rewrite (C32_dispatch ts _ _ _ _ Ho).
  destruct (make_wf _ _ _ Ho) as [_ Eo]. rewrite Eo in Hp. destruct o; [exact Ho|discriminate].
Qed.
(** GetUnmodifiedObject never returns a modified object and is what repeated UnmodifyOnce arrives at *)
Theorem C32_get_unmodified_is_plain : forall o : obj, IsModified (GetUnmodifiedObject o) = false /\
  exists n, GetUnmodifiedObject o = Nat.iter n UnmodifyOnce o /\ forall m, n <= m -> Nat.iter m UnmodifyOnce o = GetUnmodifiedObject o.
Proof.
  assert (F : forall (o : obj) n, Nat.iter (S n) UnmodifyOnce o = Nat.iter n UnmodifyOnce (UnmodifyOnce o)).
  { intros o n. induction n as [|n IH]; [reflexivity|]. cbn in *. rewrite IH. reflexivity. }
  induction o as [c x|a args t [IH1 (n & IH2 & IH3)]].
  - split; [reflexivity|]. exists 0. split; [reflexivity|]. intros m _. induction m as [|m IH]; [reflexivity|]. rewrite F. exact IH.
  - split; [exact IH1|]. exists (S n). split; [rewrite F; exact IH2|]. intros m Hm. destruct m as [|m]; [lia|]. rewrite F. apply IH3. lia.
Qed.
End Props.

(** the library's own variant (for any list of distinct plain EOS classes): every un-modification of a listed type is listed,
    so UnmodifyOnce and GetUnmodifiedObject succeed on every variant; and Modify accepts exactly the documented orders *)
Section Default.
Variables V A : Type.
Variable ctor_ok : nat -> A -> bool.
Variable full : list ty.
Hypothesis HD : NoDup full.
Hypothesis HB : forall u, In u full -> exists n, u = Base n.
Variable ts : list ty.
Hypothesis HC : combined_list full ts.

(** type-level counterparts *)
Definition strip (t : ty) : ty := match t with App _ t' => t' | _ => t end.
Fixpoint strip_all (t : ty) : ty := match t with App _ t' => strip_all t' | _ => t end.
Lemma type_unmodify (o : obj V A) : type_of (UnmodifyOnce o) = strip (type_of o).
Proof. destruct o; reflexivity. Qed.
Lemma type_get (o : obj V A) : type_of (GetUnmodifiedObject o) = strip_all (type_of o).
Proof. induction o as [|a args t IH]; [reflexivity|exact IH]. Qed.
Lemma ts_eq : NoDup ts /\ (forall x, In x ts <-> exists u, In u full /\
      In x [u; App SHIFTED u; App SCALED u; App SCALED (App SHIFTED u);
            App RAMP u; App RAMP (App SHIFTED u); App RAMP (App SCALED u);
            App RAMP (App SCALED (App SHIFTED u))]).
Proof.
  destruct (C09_combined_list full HD HB) as (out & Ho & _ & HN & HI).
  assert (HP : forall u, In u full -> plain u = true) by (intros u Hu; destruct (HB u Hu) as [n ->]; reflexivity).
  assert (out = ts) by (pose proof (proj1 (combined_iff full out HP) Ho) as E1; pose proof (proj1 (combined_iff full ts HP) HC) as E2; congruence).
  subst out. auto.
Qed.
Theorem C32_default_closed : forall (o : obj V A) v, make ts o = Some v ->
  (exists v', var_UnmodifyOnce ts v = Some v' /\ held v' = UnmodifyOnce o) /\
  (exists v', var_GetUnmodifiedObject ts v = Some v' /\ held v' = GetUnmodifiedObject o).
Proof.
  intros o v H. destruct ts_eq as [_ HI]. assert (Ht : In (type_of o) ts) by (apply make_in; eauto).
  assert (K : In (type_of (UnmodifyOnce o)) ts /\ In (type_of (GetUnmodifiedObject o)) ts).
  { rewrite type_unmodify, type_get. apply HI in Ht. destruct Ht as (u & Hu & Hx). destruct (HB u Hu) as [n E].
    split; apply HI; exists u; (split; [exact Hu|]); subst u; cbn [In] in Hx |- *;
    repeat destruct Hx as [<-|Hx]; try contradiction; cbn; tauto. }
  destruct K as [K1 K2]. split.
  - destruct (proj2 (make_in _ _ ts (UnmodifyOnce o)) K1) as [v' Hv]. exists v'. unfold var_UnmodifyOnce. rewrite (C32_dispatch _ _ ts _ _ _ _ H).
    split; [exact Hv|apply (make_wf _ _ _ _ _ Hv)].
  - destruct (proj2 (make_in _ _ ts (GetUnmodifiedObject o)) K2) as [v' Hv]. exists v'. unfold var_GetUnmodifiedObject. rewrite (C32_dispatch _ _ ts _ _ _ _ H).
    split; [exact Hv|apply (make_wf _ _ _ _ _ Hv)].
Qed.
(** the modifier orders the default variant accepts: Shifted only on a plain EOS, Scaled on a plain or shifted one,
    the ramp on anything not ramped *)
Theorem C32_default_orders : forall (o : obj V A) v a args, make ts o = Some v -> ctor_ok a args = true ->
  ((exists v', Modify ctor_ok ts a args v = Some v') <->
   exists u, In u full /\
    ((a = SHIFTED /\ type_of o = u) \/
     (a = SCALED /\ (type_of o = u \/ type_of o = App SHIFTED u)) \/
     (a = RAMP /\ (type_of o = u \/ type_of o = App SHIFTED u \/ type_of o = App SCALED u \/ type_of o = App SCALED (App SHIFTED u))))).
Proof.
  intros o v a args H HO. destruct ts_eq as [_ HI].
  transitivity (In (App a (type_of o)) ts).
  - destruct (C32_modify _ _ ctor_ok ts o v a args H) as (K1 & K2 & _). split.
    + intros [v' Hv]. apply K1 in Hv. apply Hv.
    + intros Hin. apply K2; assumption.
  - rewrite HI. split.
    + intros (u & Hu & Hx). exists u. split; [exact Hu|]. destruct (HB u Hu) as [n ->]. cbn [In] in Hx.
      repeat destruct Hx as [Hx|Hx]; try discriminate; try contradiction; injection Hx as <- <-; auto 10.
    + intros (u & Hu & Hx). exists u. split; [exact Hu|].
      destruct Hx as [[E1 E2]|[[E1 [E2|E2]]|[E1 [E2|[E2|[E2|E2]]]]]]; rewrite E1, E2; cbn; tauto.
Qed.
End Default.

(** ** C45: the C interface *)
Section Init.
Variables V A : Type.
Variable ctor_ok : nat -> A -> bool.
Variable mkargs : list V -> A.
Variable palpha : obj V A -> V -> V -> V -> V * V * V * V.
Notation obj := (obj V A).
(** the stack the flags describe: shift first (innermost), then scale, then the ramp *)
Definition stack_of (e : en) (v : vals V) (ramp_args : list V) : list (nat * A) :=
  (if e1 e then [(SHIFTED, mkargs [v1 V v])] else []) ++ (if e0 e then [(SCALED, mkargs [v0 V v])] else []) ++
  (if e2 e || e3 e then [(RAMP, mkargs ramp_args)] else []).
Definition wrap (o : obj) (l : list (nat * A)) : obj := fold_left (fun acc m => Modified (fst m) (snd m) acc) l o.
Definition ramp_params (e : en) (v : vals V) (o : obj) : V * V * V * V :=
  if e3 e then palpha (wrap o (stack_of (mkEn (e0 e) (e1 e) false false) v [])) (v2 V v) (v3 V v) (v4 V v)
  else (v2 V v, v3 V v, v4 V v, v5 V v).
(** init_sg_* stores exactly that stack around the EOS it was asked for, with the caller's shift, scale and ramp parameters (or
    those derived from the P-alpha model of the shifted and scaled EOS), whenever the modifiers accept their parameters *)
Theorem C45_init_stack : forall cls e v,
  (forall m args, ctor_ok m args = true) ->
  let '(r0, a, b, c) := ramp_params e v cls in
  init_sg ctor_ok mkargs palpha cls e v =
    Some (wrap cls (stack_of e v [r0; a; b; c]), if e3 e then mkVals (v0 V v) (v1 V v) r0 a b c else v).
Proof.
  intros cls [b0 b1 b2 b3] [w0 w1 w2 w3 w4 w5] HO. assert (OM : forall m args (o : obj), obj_Modify ctor_ok m args o = Some (Modified m args o)) by (intros; unfold obj_Modify; rewrite HO; reflexivity).
  unfold ramp_params, init_sg, applyAll, applyShiftAndScale, applyWrappedShiftAndScale.
  destruct b0, b1, b3; cbn; rewrite ?OM; cbn; rewrite ?OM;
  try (destruct (palpha _ w2 w3 w4) as [[[r0 a] b] c]); cbn; rewrite ?OM; cbn; rewrite ?OM; cbn; rewrite ?OM; try reflexivity;
  destruct b2; cbn; rewrite ?OM; cbn; rewrite ?OM; cbn; rewrite ?OM; reflexivity.
Qed.
(** an unacceptable modifier parameter aborts; nothing is stored *)
Theorem C45_init_rejects : forall cls e v r, init_sg ctor_ok mkargs palpha cls e v = Some r ->
  (e1 e = true -> ctor_ok SHIFTED (mkargs [v1 V v]) = true) /\ (e0 e = true -> ctor_ok SCALED (mkargs [v0 V v]) = true) /\
  (e2 e = true \/ e3 e = true -> let '(r0, a, b, c) := ramp_params e v cls in ctor_ok RAMP (mkargs [r0; a; b; c]) = true).
Proof.
  intros cls [b0 b1 b2 b3] [w0 w1 w2 w3 w4 w5] r H.
  assert (OM : forall m args (o o' : obj), obj_Modify ctor_ok m args o = Some o' -> ctor_ok m args = true /\ o' = Modified m args o).
  { unfold obj_Modify. intros m args o o'. destruct (ctor_ok m args); [|discriminate]. intros E. injection E as <-. auto. }
  unfold ramp_params, init_sg, applyAll, applyShiftAndScale, applyWrappedShiftAndScale in *.
  destruct b0, b1, b3, b2; cbn in *;
  repeat match goal with
  | Hx : context [match obj_Modify ctor_ok ?m ?a ?o with _ => _ end] |- _ =>
      let Q := fresh "Q" in let S := fresh "S" in let E := fresh "E" in
      destruct (obj_Modify ctor_ok m a o) eqn:Q; [apply OM in Q; destruct Q as [S E]; subst; cbn in *|discriminate]
  | |- context [palpha ?a ?b ?c ?d] => revert H; destruct (palpha a b c d) as [[[? ?] ?] ?]; cbn; intros H
  end;
  (refine (conj _ (conj _ _)); [intros; congruence|intros; congruence|]);
  intros Hb; try assumption; destruct Hb; discriminate.
Qed.
(** the stack's type is one the default variant lists, and un-modifying it gives the EOS asked for *)
Theorem C45_init_in_variant : forall full ts n x e v ra, NoDup full -> (forall u, In u full -> exists k, u = Base k) ->
  combined_list full ts -> In (Base n) full ->
  exists w, make ts (wrap (Plain n x) (stack_of e v ra)) = Some w /\ var_GetUnmodifiedObject ts w = make ts (Plain n x) /\
            held w = wrap (Plain n x) (stack_of e v ra).
Proof.
  intros full ts n x e v ra HD HB HC Hn. destruct (ts_eq full HD HB ts HC) as [_ HI].
  assert (Hin : In (type_of (wrap (Plain n x) (stack_of e v ra))) ts).
  { apply HI. exists (Base n). split; [exact Hn|]. destruct e as [[] [] [] []]; cbn; tauto. }
  destruct (proj2 (make_in _ _ ts _) Hin) as [w Hw]. exists w. split; [exact Hw|]. destruct (make_wf _ _ _ _ _ Hw) as [_ Eh]. split; [|exact Eh].
  unfold var_GetUnmodifiedObject. rewrite (C32_dispatch _ _ ts _ _ _ _ Hw). f_equal.
  destruct e as [[] [] [] []]; reflexivity.
Qed.
(** the caller's vals array is left as it was unless the P-alpha flag is set *)
Theorem C45_vals_unchanged : forall cls e v o v', e3 e = false -> init_sg ctor_ok mkargs palpha cls e v = Some (o, v') -> v' = v.
Proof.
  intros cls e v o v' H3 H. unfold init_sg in H. rewrite H3 in H.
  destruct (applyShiftAndScale _ _ _ _ _ _ _); [|discriminate]. destruct (applyAll _ _ _ _ _ _ _ _ _); [|discriminate]. congruence.
Qed.
End Init.
(** Refuted: with the P-alpha flag set the call overwrites the caller's vals with the ramp parameters, so passing the same
    array for a second material does not build the same EOS *)
Theorem C56_vals_reuse_refuted :
  let palpha := fun (o : obj nat (list nat)) a0 Pe Pc => (a0 + 1, Pe, Pc, 0) in
  let ini := init_sg (fun _ _ => true) (fun l => l) palpha (Plain 0 0) (mkEn false false false true) in
  exists v o1 v1 o2 v2, ini v = Some (o1, v1) /\ ini v1 = Some (o2, v2) /\ v1 <> v /\ o1 <> o2.
Proof.
  cbv zeta. exists (mkVals 0 0 2 3 4 0). do 4 eexists. split; [reflexivity|]. split; [reflexivity|]. split; discriminate.
Qed.

(** non-vacuity: a build with two plain classes; a scaled, shifted, ramped object and back *)
Example C32_instance : exists ts v0 v, combined_list [Base 0; Base 1] ts /\ make ts (Plain 1 7 : obj nat nat) = Some v0 /\
  modified_by _ _ (fun _ _ => true) ts v0 [(SHIFTED, 5); (SCALED, 6); (RAMP, 8)] v /\
  held v = Modified RAMP 8 (Modified SCALED 6 (Modified SHIFTED 5 (Plain 1 7))) /\
  var_GetUnmodifiedObject ts v = Some v0 /\ Modify (fun _ _ => true) ts SHIFTED 5 v = None.
Proof.
  destruct (C09_combined_list [Base 0; Base 1]) as (ts & Hts & _ & ND & HI).
  - repeat constructor; cbn; intuition discriminate.
  - cbn. intros u [<-|[<-|[]]]; eauto.
  - assert (E : ts = [Base 0; Base 1; App SHIFTED (Base 0); App SHIFTED (Base 1); App SCALED (Base 0); App SCALED (Base 1);
        App SCALED (App SHIFTED (Base 0)); App SCALED (App SHIFTED (Base 1))] ++
        map (App RAMP) [Base 0; Base 1; App SHIFTED (Base 0); App SHIFTED (Base 1); App SCALED (Base 0); App SCALED (Base 1);
        App SCALED (App SHIFTED (Base 0)); App SCALED (App SHIFTED (Base 1))]).
    { apply combined_iff in Hts; [exact Hts|]. intros u [<-|[<-|[]]]; reflexivity. }
    rewrite E in *. clear E HI ND.
    eexists. eexists. eexists. split; [exact Hts|]. split; [reflexivity|]. split.
    + econstructor; [reflexivity|]. econstructor; [reflexivity|]. econstructor; [reflexivity|]. constructor.
    + repeat split; reflexivity.
Qed.
Print Assumptions C32_construct.
Print Assumptions C32_dispatch.
Print Assumptions C32_modify.
Print Assumptions C32_is_modifiable.
Print Assumptions C32_unmodify_once.
Print Assumptions C32_get_unmodified.
Print Assumptions C32_get_unmodified_is_plain.
Print Assumptions C32_default_closed.
Print Assumptions C32_default_orders.
Print Assumptions C45_init_stack.
Print Assumptions C45_init_rejects.
Print Assumptions C45_init_in_variant.
Print Assumptions C45_vals_unchanged.
Print Assumptions C56_vals_reuse_refuted.
