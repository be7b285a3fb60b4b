(** Lemmas for Bindings_Props. *)
From Coq Require Import List ZArith Bool Lia FinFun FunctionalExtensionality.
From Verif Require Import Vector_Model Vector_Spec Vector_Props Bindings_Model Bindings_Spec.
Import ListNotations.
Open Scope Z_scope.

Lemma wrap_id z : addressable z -> wrap64 z = z.
Proof. unfold addressable, wrap64; intros. apply Z.mod_small; lia. Qed.
Lemma wrap_scaled b c i x : x = 8 * c -> wrap64 (b + 8 * wrap64 (i * wrap64 c)) = wrap64 (b + i * x).
Proof.
  intros ->. unfold wrap64.
  rewrite Z.mul_mod_idemp_r by lia.
  rewrite <- (Z.add_mod_idemp_r b (8 * _)) by lia.
  rewrite Z.mul_mod_idemp_r by lia.
  rewrite Z.add_mod_idemp_r by lia. f_equal. ring.
Qed.
Lemma helper_eq a n i : np_doubles a n -> (i < n)%nat -> helper_at a i = np_at a i.
Proof.
  intros (Hn & Hw & [c Hc] & _ & Ha) Hi. unfold helper_at, helper_stride.
  replace (np_base a + np_step a - np_base a) with (c * 8) by lia. rewrite Z.div_mul by lia.
  rewrite (wrap_scaled _ _ _ (np_step a)) by lia. apply wrap_id. apply Ha; auto.
Qed.
Lemma lambda_eq l n nl i : np2_doubles l n nl -> (i < n)%nat -> lambda_cells l nl i = np_row l nl i.
Proof.
  intros (Hn & H0 & Hc & Hw & [c Hr] & _ & H8 & Ha) Hi. unfold lambda_cells, np_row. apply map_ext_in. intros k Hk.
  apply in_seq in Hk.
  assert (E : lambda_ptr l i = n2_base l + Z.of_nat i * n2_row l).
  { unfold lambda_ptr, lambda_stride.
    replace (n2_base l + n2_row l - n2_base l) with (c * 8) by lia. rewrite Z.div_mul by lia.
    rewrite (wrap_scaled _ _ _ (n2_row l)) by lia. apply wrap_id.
    specialize (Ha i 0%nat Hi ltac:(lia)). unfold np2_at in Ha. rewrite Z.mul_0_l, Z.add_0_r in Ha. exact Ha. }
  rewrite E. specialize (Ha i k Hi ltac:(lia)). unfold np2_at in *. rewrite H8 in *.
  rewrite wrap_id; [lia|]. replace (n2_base l + Z.of_nat i * n2_row l + 8 * Z.of_nat k) with
    (n2_base l + Z.of_nat i * n2_row l + Z.of_nat k * 8) by ring. exact Ha.
Qed.

(** layouts only depend on the addresses below n *)
Lemma layout_ext n ins outs lam ins' outs' lam' :
  Forall2 (fun f g => forall i, (i < n)%nat -> f i = g i) ins ins' ->
  Forall2 (fun f g => forall i, (i < n)%nat -> f i = g i) outs outs' ->
  (forall i, (i < n)%nat -> lam i = lam' i) -> layout n ins outs lam -> layout n ins' outs' lam'.
Proof.
  intros HI HO HL (A & B & C & D & E & F).
  assert (PI : forall f', In f' ins' -> exists f, In f ins /\ forall i, (i < n)%nat -> f i = f' i).
  { clear -HI. induction HI as [|x y l l' Hxy H IH]; intros f' Hf; [destruct Hf|].
    destruct Hf as [<-|Hf]; [exists x; split; [left; auto|auto]|].
    destruct (IH _ Hf) as (f & ? & ?). exists f; split; [right|]; auto. }
  assert (PO : forall f', In f' outs' -> exists f, In f outs /\ forall i, (i < n)%nat -> f i = f' i).
  { clear -HO. induction HO as [|x y l l' Hxy H IH]; intros f' Hf; [destruct Hf|].
    destruct Hf as [<-|Hf]; [exists x; split; [left; auto|auto]|].
    destruct (IH _ Hf) as (f & ? & ?). exists f; split; [right|]; auto. }
  refine (conj _ (conj _ (conj _ (conj _ (conj _ _))))).
  - intros o o' i j Ho Ho' Hi Hj Hij. destruct (PO _ Ho) as (f & Hf & Ef), (PO _ Ho') as (g & Hg & Eg).
    rewrite <- Ef, <- Eg by auto. eapply A; eauto.
  - intros o a i j Ho Ho' Hi Hj Hij. destruct (PO _ Ho) as (f & Hf & Ef), (PI _ Ho') as (g & Hg & Eg).
    rewrite <- Ef, <- Eg by auto. eapply B; eauto.
  - intros o i j Ho Hi Hj. destruct (PO _ Ho) as (f & Hf & Ef). rewrite <- Ef, <- HL by auto. eapply C; eauto.
  - intros i j x Hi Hj Hij. rewrite <- !HL by auto. eapply D; eauto.
  - intros a i j Ha Hi Hj Hij. destruct (PI _ Ha) as (f & Hf & Ef). rewrite <- Ef, <- HL by auto. eapply E; eauto.
  - intros i Hi. rewrite <- HL by auto. auto.
Qed.

Lemma call2 {V} (sc : V -> V -> list V -> V * list V) n x y o lam x' y' o' lam' (m0 : mem V) sched :
  keeps_lambda sc ->
  (forall i, (i < n)%nat -> x' i = x i) -> (forall i, (i < n)%nat -> y' i = y i) -> (forall i, (i < n)%nat -> o' i = o i) ->
  (forall i, (i < n)%nat -> lam' i = lam i) ->
  layout n [x; y] [o] lam ->
  complete (vec_2in_1out sc x' y' o' lam') m0 n sched ->
  elementwise2 sc n x y o lam m0 (memo (prun (vec_2in_1out sc x' y' o' lam') m0 sched)).
Proof.
  intros Hk Hx Hy Ho Hl HL Hc.
  assert (L' : layout n [x'; y'] [o'] lam').
  { eapply layout_ext; [| | |exact HL]; try (repeat constructor; intros; symmetry; auto). }
  destruct (C13_two_input_call V sc x' y' o' lam' n m0 sched Hk L' Hc) as [A B].
  split.
  - intros i Hi. rewrite <- Hx, <- Hy, <- Ho, <- Hl by auto. apply A; auto.
  - intros a Ha. apply B. intros i Hi. rewrite Ho, Hl by auto. apply Ha; auto.
Qed.

Lemma seq_in k n : In k (seq 0 n) <-> (k < n)%nat. Proof. rewrite in_seq. lia. Qed.

(** ** C and Fortran *)
Lemma c_at_eq p n i : 0 <= p -> p + 8 * Z.of_nat n <= 2 ^ 64 -> (i < n)%nat -> c_at p i = p + 8 * Z.of_nat i.
Proof. intros. unfold c_at. apply wrap_id. unfold addressable. lia. Qed.
Lemma wrap32_id z : - 2 ^ 31 <= z < 2 ^ 31 -> wrap32 z = z.
Proof. intros. unfold wrap32. rewrite Z.mod_small by lia. lia. Qed.
Lemma c_cells_eq s n p nl i : 0 <= p -> (nl <= s)%nat -> Z.of_nat s * Z.of_nat n <= 2 ^ 31 -> (i < n)%nat ->
  p + 8 * (Z.of_nat s * Z.of_nat n) <= 2 ^ 64 ->
  c_cells (Z.of_nat s) p nl i = map (fun k => p + 8 * (Z.of_nat s * Z.of_nat i + Z.of_nat k)) (seq 0 nl).
Proof.
  intros Hp Hnl Hf Hi Ha. unfold c_cells. apply map_ext_in. intros k Hk. apply seq_in in Hk.
  assert (B : Z.of_nat s * Z.of_nat i + Z.of_nat k < Z.of_nat s * Z.of_nat n) by nia.
  assert (B0 : 0 <= Z.of_nat s * Z.of_nat i) by nia.
  unfold lambda2d. set (si := Z.of_nat s * Z.of_nat i) in *. set (sn := Z.of_nat s * Z.of_nat n) in *. clearbody si sn.
  rewrite wrap32_id by lia. rewrite (wrap_id (p + 8 * si)) by (unfold addressable; lia).
  rewrite wrap_id by (unfold addressable; lia). ring.
Qed.

(** flat index of (i,j,k) *)
Definition flat (n1 n2 i j k : nat) : nat := ((i - 1) + n1 * ((j - 1) + n2 * (k - 1)))%nat.
Lemma flat_lt n1 n2 n3 i j k : valid3 n1 n2 n3 i j k -> (flat n1 n2 i j k < n1 * n2 * n3)%nat.
Proof.
  intros (A & B & C). unfold flat.
  assert ((i - 1) + 1 <= n1)%nat by lia. assert ((j - 1) + 1 <= n2)%nat by lia. assert ((k - 1) + 1 <= n3)%nat by lia.
  set (a := (i - 1)%nat) in *. set (b := (j - 1)%nat) in *. set (c := (k - 1)%nat) in *. clearbody a b c.
  assert (b + n2 * c + 1 <= n2 * n3)%nat by nia.
  set (d := (b + n2 * c)%nat) in *. clearbody d. assert (a + n1 * d + 1 <= n1 * (n2 * n3))%nat by nia. nia.
Qed.
Lemma flat_onto n1 n2 n3 t : (t < n1 * n2 * n3)%nat -> exists i j k, valid3 n1 n2 n3 i j k /\ flat n1 n2 i j k = t.
Proof.
  intros H. assert (n1 <> 0)%nat by (intros ->; cbn in H; lia).
  assert (n2 <> 0)%nat by (intros ->; rewrite Nat.mul_0_r in H; cbn in H; lia).
  exists (S (t mod n1)), (S ((t / n1) mod n2)), (S (t / n1 / n2)).
  pose proof (Nat.mod_upper_bound t n1 ltac:(auto)). pose proof (Nat.mod_upper_bound (t / n1) n2 ltac:(auto)).
  assert (t / n1 / n2 < n3)%nat.
  { rewrite Nat.div_div by auto. apply Nat.div_lt_upper_bound; nia. }
  split; [unfold valid3; lia|]. unfold flat. rewrite !Nat.sub_succ, !Nat.sub_0_r.
  rewrite (Nat.div_mod t n1) at 4 by auto. rewrite (Nat.div_mod (t / n1) n2) at 3 by auto. lia.
Qed.
Lemma fa_flat n1 n2 n3 a i j k : contiguous3 n1 n2 n3 a -> valid3 n1 n2 n3 i j k ->
  fa_at a i j k = f_base a + 8 * Z.of_nat (flat n1 n2 i j k).
Proof.
  intros (_ & _ & _ & H1 & H2 & H3 & _) (A & B & C). unfold fa_at, flat. rewrite H1, H2, H3.
  rewrite ?Nat2Z.inj_add, ?Nat2Z.inj_mul, ?Nat2Z.inj_add, ?Nat2Z.inj_mul, !Nat2Z.inj_sub by lia. ring.
Qed.
Lemma fa4_flat n0 n1 n2 n3 a l i j k : contiguous4 n0 n1 n2 n3 a -> (1 <= l)%nat -> valid3 n1 n2 n3 i j k ->
  fa4_at a l i j k = f4_base a + 8 * (Z.of_nat n0 * Z.of_nat (flat n1 n2 i j k) + Z.of_nat (l - 1)).
Proof.
  intros (_ & H1 & H2 & H3 & H4 & _) Hl (A & B & C). unfold fa4_at, flat. rewrite H1, H2, H3, H4.
  rewrite ?Nat2Z.inj_add, ?Nat2Z.inj_mul, ?Nat2Z.inj_add, ?Nat2Z.inj_mul, !Nat2Z.inj_sub by lia. ring.
Qed.

Lemma c_layout n p q r (lam : nat -> list Z) :
  apart p n r n -> apart q n r n -> (lam = fun _ => []) \/
  (exists s d nl, (nl <= s)%nat /\ lam = (fun i => map (fun k => d + 8 * (Z.of_nat s * Z.of_nat i + Z.of_nat k)) (seq 0 nl)) /\
     apart p n d (s * n) /\ apart q n d (s * n) /\ apart r n d (s * n)) ->
  layout n [fun i => p + 8 * Z.of_nat i; fun i => q + 8 * Z.of_nat i] [fun i => r + 8 * Z.of_nat i] lam.
Proof.
  unfold apart. intros H1 H2 H3.
  assert (O : forall f, In f [fun i => r + 8 * Z.of_nat i] -> forall i, f i = r + 8 * Z.of_nat i).
  { intros f [<-|[]] i. reflexivity. }
  assert (I : forall f, In f [fun i => p + 8 * Z.of_nat i; fun i => q + 8 * Z.of_nat i] ->
     (forall i, f i = p + 8 * Z.of_nat i) \/ (forall i, f i = q + 8 * Z.of_nat i)).
  { intros f [<-|[<-|[]]]; [left|right]; intros; reflexivity. }
  destruct H3 as [->|(s & d & nl & Hs & -> & H3 & H4 & H5)].
  - refine (conj _ (conj _ (conj _ (conj _ (conj _ _))))); intros; auto using NoDup_nil.
    + rewrite (O _ H), (O _ H0). lia.
    + rewrite (O _ H). destruct (I _ H0) as [E|E]; rewrite E; lia.
  - assert (L : forall i x, (i < n)%nat -> In x (map (fun k => d + 8 * (Z.of_nat s * Z.of_nat i + Z.of_nat k)) (seq 0 nl)) ->
      exists k, (k < nl)%nat /\ x = d + 8 * (Z.of_nat s * Z.of_nat i + Z.of_nat k) /\ d <= x <= d + 8 * Z.of_nat (s * n) - 8).
    { intros i x Hi Hx. apply in_map_iff in Hx. destruct Hx as (k & <- & Hk). apply seq_in in Hk. exists k. split; [auto|split; [auto|]].
      rewrite Nat2Z.inj_mul. nia. }
    rewrite !Nat2Z.inj_mul in *.
    refine (conj _ (conj _ (conj _ (conj _ (conj _ _))))).
    + intros o o' i j H H0 Hi Hj Hij. rewrite (O _ H), (O _ H0). lia.
    + intros o a i j H H0 Hi Hj Hij. rewrite (O _ H). destruct (I _ H0) as [E|E]; rewrite E; lia.
    + intros o i j H Hi Hj HI. rewrite (O _ H) in HI. destruct (L _ _ Hj HI) as (k & Hk & E & B). lia.
    + intros i j x Hi Hj Hij Hx Hx'. destruct (L _ _ Hi Hx) as (k & Hk & E & B), (L _ _ Hj Hx') as (k' & Hk' & E' & B').
      assert (Z.of_nat s * Z.of_nat i + Z.of_nat k = Z.of_nat s * Z.of_nat j + Z.of_nat k') by lia. nia.
    + intros a i j Ha Hi Hj Hij HI. destruct (L _ _ Hi HI) as (k & Hk & E & B).
      destruct (I _ Ha) as [E'|E']; rewrite E' in *; lia.
    + intros i Hi. apply Injective_map_NoDup; [|apply seq_NoDup]. intros k k' H. lia.
Qed.

Lemma fill_call {V} (sc : list V -> list V -> list (option V) * list V) n (arrs : list nparray) lam lam' (m0 : mem V) sched :
  (forall x l, length (fst (sc x l)) = length x /\ length (snd (sc x l)) = length l) ->
  (forall a, In a arrs -> np_doubles a n) -> (forall i, (i < n)%nat -> lam' i = lam i) ->
  layout n (map np_at arrs) (map np_at arrs) lam ->
  (forall i, (i < n)%nat -> NoDup (map (fun a => np_at a i) arrs)) ->
  let k := vec_fill sc (fun i => map (fun a => helper_at a i) arrs) lam' in
  complete k m0 n sched ->
  let m := memo (prun k m0 sched) in
  (forall i, (i < n)%nat ->
     let old := map (fun a => m0 (np_at a i)) arrs in
     let r := sc old (map m0 (lam i)) in
     map (fun a => m (np_at a i)) arrs = map (fun p => apply_out (fst p) (snd p)) (combine old (fst r)) /\
     map m (lam i) = snd r) /\
  (forall a, (forall i, (i < n)%nat -> ~ In a (map (fun f => np_at f i) arrs) /\ ~ In a (lam i)) -> m a = m0 a).
Proof.
  intros Hk Ha Hl HL HN k Hc m.
  assert (EQ : forall i, (i < n)%nat -> map (fun a => helper_at a i) arrs = map (fun a => np_at a i) arrs).
  { intros i Hi. apply map_ext_in. intros a H. eapply helper_eq; eauto. }
  assert (F2 : Forall2 (fun f g => forall i, (i < n)%nat -> f i = g i) (map np_at arrs) (map helper_at arrs)).
  { clear -Ha. induction arrs as [|a r IH]; constructor.
    - intros i Hi. symmetry. eapply helper_eq; eauto. apply Ha. left; auto.
    - apply IH. intros; apply Ha; right; auto. }
  assert (L' : layout n (map helper_at arrs) (map helper_at arrs) lam').
  { eapply layout_ext; [exact F2|exact F2| |exact HL]. intros; symmetry; auto. }
  assert (N' : forall i, (i < n)%nat -> NoDup (map (fun a => a i) (map helper_at arrs))).
  { intros i Hi. rewrite map_map. rewrite (EQ i Hi). auto. }
  assert (KE : k = vec_fill sc (fun i => map (fun a => a i) (map helper_at arrs)) lam').
  { unfold k. apply (f_equal (fun c => vec_fill sc c lam')). extensionality i. rewrite map_map. reflexivity. }
  pose proof (C13_FillEos_call V sc (map helper_at arrs) lam' n m0 sched Hk L' N') as T.
  rewrite <- KE in T. destruct (T Hc) as [A B]. fold m in A, B. split.
  - intros i Hi. specialize (A i Hi). cbv zeta in A |- *. rewrite !map_map in A. rewrite Hl in A by auto.
    assert (E0 : forall mm : mem V, map (fun a => mm (helper_at a i)) arrs = map (fun a => mm (np_at a i)) arrs).
    { intros mm. rewrite <- (map_map (fun a => helper_at a i) mm), EQ, map_map by auto. reflexivity. }
    rewrite !E0 in A. exact A.
  - intros a H. apply B. intros i Hi. rewrite map_map, EQ, Hl by auto. apply H; auto.
Qed.

Lemma c_query {V} (e : @ceos V) eos m p q r n s d (m0 : mem V) lam :
  0 <= m -> nth_error eos (Z.to_nat m) = Some e -> keeps_lambda (c_fun e) ->
  0 < p -> p + 8 * Z.of_nat n <= 2 ^ 64 -> 0 < q -> q + 8 * Z.of_nat n <= 2 ^ 64 -> 0 < r -> r + 8 * Z.of_nat n <= 2 ^ 64 ->
  apart p n r n -> apart q n r n ->
  ((s = -1 \/ d = 0) /\ lam = (fun _ => []) \/
   exists t, s = Z.of_nat t /\ (c_nl e <= t)%nat /\ 0 < d /\ d + 8 * Z.of_nat (t * n) <= 2 ^ 64 /\ Z.of_nat (t * n) <= 2 ^ 31 /\
     apart p n d (t * n) /\ apart q n d (t * n) /\ apart r n d (t * n) /\
     lam = fun i => map (fun k => d + 8 * (Z.of_nat t * Z.of_nat i + Z.of_nat k)) (seq 0 (c_nl e))) ->
  exists k, get_sg eos m p q r n s d = Some (k, n) /\
    forall sched, complete k m0 n sched ->
      elementwise2 (c_fun e) n (fun i => p + 8 * Z.of_nat i) (fun i => q + 8 * Z.of_nat i) (fun i => r + 8 * Z.of_nat i) lam
        m0 (memo (prun k m0 sched)).
Proof.
  intros Hm He Hk Hp1 Hp2 Hq1 Hq2 Hr1 Hr2 A1 A2 HL. unfold get_sg.
  destruct (Z.ltb_spec m 0); [lia|]. rewrite He. eexists. split; [reflexivity|]. intros sched Hc.
  eapply call2; eauto.
  - intros i Hi. eapply c_at_eq; eauto. lia.
  - intros i Hi. eapply c_at_eq; eauto. lia.
  - intros i Hi. eapply c_at_eq; eauto. lia.
  - intros i Hi. destruct HL as [[[->| ->] ->]|(t & -> & Ht & Hd1 & Hd2 & Hf & B1 & B2 & B3 & ->)]; cbv zeta.
    + reflexivity.
    + rewrite andb_false_r. reflexivity.
    + destruct (Z.eqb_spec (Z.of_nat t) (-1)); [lia|]. destruct (Z.eqb_spec d 0); [lia|]. cbn [negb andb].
      rewrite Nat2Z.inj_mul in *. eapply c_cells_eq; eauto; lia.
  - apply c_layout; auto. destruct HL as [[_ ->]|(t & -> & Ht & Hd1 & Hd2 & Hf & B1 & B2 & B3 & ->)]; [left; auto|].
    right. exists t, d, (c_nl e). auto.
Qed.

Lemma f_transfer {V} (f : V -> V -> list V -> V * list V) n1 n2 n3 a b o lam (laf : nat -> nat -> nat -> list Z) (m0 m : mem V) :
  contiguous3 n1 n2 n3 a -> contiguous3 n1 n2 n3 b -> contiguous3 n1 n2 n3 o ->
  (forall i j k, valid3 n1 n2 n3 i j k -> laf i j k = lam (flat n1 n2 i j k)) ->
  elementwise2 f (cells3 n1 n2 n3) (fun i => f_base a + 8 * Z.of_nat i) (fun i => f_base b + 8 * Z.of_nat i)
     (fun i => f_base o + 8 * Z.of_nat i) lam m0 m ->
  elementwise_f f n1 n2 n3 (fa_at a) (fa_at b) (fa_at o) laf m0 m.
Proof.
  intros Ca Cb Co HL [A B]. split.
  - intros i j k Hv. rewrite (fa_flat _ _ _ _ _ _ _ Ca Hv), (fa_flat _ _ _ _ _ _ _ Cb Hv), (fa_flat _ _ _ _ _ _ _ Co Hv), (HL _ _ _ Hv).
    apply A. apply flat_lt; auto.
  - intros x Hx. apply B. intros t Ht. destruct (flat_onto n1 n2 n3 t Ht) as (i & j & k & Hv & <-).
    rewrite <- (fa_flat _ _ _ _ _ _ _ Co Hv), <- (HL _ _ _ Hv). auto.
Qed.
Lemma lambda_flat n0 n1 n2 n3 l nl i j k : contiguous4 n0 n1 n2 n3 l -> valid3 n1 n2 n3 i j k ->
  lambda_f l nl i j k = map (fun q => f4_base l + 8 * (Z.of_nat n0 * Z.of_nat (flat n1 n2 i j k) + Z.of_nat q)) (seq 0 nl).
Proof.
  intros C Hv. unfold lambda_f. rewrite <- seq_shift, map_map. apply map_ext. intros q.
  rewrite (fa4_flat _ _ _ _ _ (S q) _ _ _ C (le_n_S 0 q (Nat.le_0_l q)) Hv). rewrite Nat.sub_succ, Nat.sub_0_r. reflexivity.
Qed.

(** life cycle *)
Lemma host_run : forall l n, balanced n l -> host_owns l -> erun (Some (Up, n)) l = Some (Up, O).
Proof.
  induction l as [|e l IH]; intros n Hb Ho; cbn in Hb; [subst; reflexivity|].
  assert (Ho' : host_owns l) by (intros x Hx; apply Ho; right; auto).
  destruct (Ho e (or_introl eq_refl)) as [-> | ->]; cbn in Hb.
  - unfold erun; cbn. apply (IH (S n)); auto.
  - destruct n; [destruct Hb|]. unfold erun; cbn. apply (IH n); auto.
Qed.
