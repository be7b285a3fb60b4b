From Coq Require Import List ZArith Bool Lia.
From Verif Require Import Serialization_Model.
Import ListNotations.
Open Scope Z_scope.

Section M.
Context (P : platform).
Notation Obj := (obj (stat P)).
Notation Mem := (mem P).
Implicit Types (m : Mem) (o : Obj).

Lemma write_out m a l x : ~ inside a (length l) x -> write P m a l x = m x.
Proof.
  revert m a. induction l as [|b r IH]; intros m a H; simpl; [reflexivity|].
  rewrite IH.
  - destruct (Z.eqb_spec x a) as [E|E]; [|reflexivity]. exfalso. apply H. unfold inside. simpl. lia.
  - unfold inside in *. simpl length in H. lia.
Qed.
Lemma read_len m a n : length (read P m a n) = n.
Proof. revert a; induction n; intros a; simpl; auto. Qed.
Lemma read_ext m m' a n : (forall x, inside a n x -> m x = m' x) -> read P m a n = read P m' a n.
Proof.
  revert a. induction n as [|n IH]; intros a H; simpl; [reflexivity|]. f_equal.
  - apply H. unfold inside. lia.
  - apply IH. intros x Hx. apply H. unfold inside in *. lia.
Qed.
Lemma read_write m a l : read P (write P m a l) a (length l) = l.
Proof.
  revert m a. induction l as [|b r IH]; intros m a; simpl; [reflexivity|]. f_equal.
  - rewrite write_out; [rewrite Z.eqb_refl; reflexivity|]. unfold inside. lia.
  - apply IH.
Qed.
Lemma read_app m a n k : read P m a (n + k) = read P m a n ++ read P m (a + Z.of_nat n) k.
Proof.
  revert a. induction n as [|n IH]; intros a; simpl.
  - f_equal. lia.
  - f_equal. rewrite IH. f_equal. f_equal. lia.
Qed.
Notation same_outside := (same_outside P).
Lemma memcpy_out m dst src n : same_outside m (memcpy P m dst src n) dst n.
Proof. intros x Hx. unfold memcpy. apply write_out. rewrite read_len. exact Hx. Qed.
Lemma memcpy_read m dst src n : read P (memcpy P m dst src n) dst n = read P m src n.
Proof.
  unfold memcpy. assert (H := read_write m dst (read P m src n)). rewrite read_len in H. exact H.
Qed.

Definition contents m (bs : list (nat * Z)) := map (fun b => read P m (snd b) (fst b)) bs.
Definition apart (bs : list (nat * Z)) a n := forall b, In b bs -> disjoint (snd b) (fst b) a n.
Lemma contents_ext m m' bs : (forall b, In b bs -> forall x, inside (snd b) (fst b) x -> m x = m' x) ->
  contents m bs = contents m' bs.
Proof.
  intros H. unfold contents. apply map_ext_in. intros b Hb. apply read_ext. apply H, Hb.
Qed.
Lemma contents_len m bs : length (concat (contents m bs)) = boxes_size bs.
Proof.
  induction bs as [|[s p] r IH]; [reflexivity|]. cbn [contents map concat boxes_size fst snd].
  rewrite app_length, read_len. f_equal. exact IH.
Qed.

Lemma dump_spec bs : forall m dst, apart bs dst (boxes_size bs) ->
  exists m2, dump P m dst bs = (m2, boxes_size bs) /\ same_outside m m2 dst (boxes_size bs) /\
             read P m2 dst (boxes_size bs) = concat (contents m bs).
Proof.
  induction bs as [|[s p] r IH]; intros m dst HA.
  - exists m. split; [reflexivity|]. split; [intros x _; reflexivity|reflexivity].
  - cbn [dump boxes_size]. set (m1 := memcpy P m dst p s).
    assert (Hout := memcpy_out m dst p s). fold m1 in Hout.
    destruct (IH m1 (dst + Z.of_nat s)) as [m2 [E [O2 R2]]].
    { intros b Hb x Hx Hy. apply (HA b (or_intror Hb) x Hx). unfold inside in *. simpl boxes_size. lia. }
    rewrite E. exists m2. split; [reflexivity|]. split.
    + intros x Hx. unfold inside in Hx. rewrite O2; [apply Hout|]; unfold inside; lia.
    + rewrite read_app. cbn [contents map concat fst snd]. f_equal.
      * rewrite <- (memcpy_read m dst p s). fold m1. apply read_ext.
        intros x Hx. apply O2. unfold inside in *. lia.
      * rewrite R2. f_equal. apply contents_ext. intros b Hb x Hx. apply Hout. intros Hy.
        apply (HA b (or_intror Hb) x Hx). unfold inside in *. simpl boxes_size. lia.
Qed.

Lemma set_pointers_fst base bs : map fst (set_pointers base bs) = map fst bs.
Proof. revert base; induction bs as [|[s p] r IH]; intros base; simpl; [reflexivity|]. rewrite IH. reflexivity. Qed.
Lemma set_pointers_size base bs : boxes_size (set_pointers base bs) = boxes_size bs.
Proof. revert base; induction bs as [|[s p] r IH]; intros base; simpl; [reflexivity|]. rewrite IH. reflexivity. Qed.
Lemma app_inj_len {A} (a b c d : list A) : length a = length c -> a ++ b = c ++ d -> a = c /\ b = d.
Proof.
  revert c. induction a as [|x a IH]; intros [|y c] HL E; simpl in *; try discriminate; auto.
  injection E as -> E. destruct (IH c ltac:(lia) E) as [-> ->]. auto.
Qed.
Lemma set_pointers_contents bs : forall m0 m base,
  read P m base (boxes_size bs) = concat (contents m0 bs) -> contents m (set_pointers base bs) = contents m0 bs.
Proof.
  induction bs as [|[s p] r IH]; intros m0 m base E; [reflexivity|].
  cbn [boxes_size] in E. rewrite read_app in E. cbn [contents map concat fst snd] in E.
  apply app_inj_len in E; [|rewrite !read_len; reflexivity]. destruct E as [E1 E2].
  cbn [set_pointers contents map fst snd]. f_equal; [exact E1|]. apply IH. exact E2.
Qed.
Lemma set_pointers_within bs : forall base b, In b (set_pointers base bs) ->
  forall x, inside (snd b) (fst b) x -> inside base (boxes_size bs) x.
Proof.
  induction bs as [|[s p] r IH]; intros base b Hb x Hx; [destruct Hb|].
  cbn [set_pointers] in Hb. destruct Hb as [<-|Hb].
  - unfold inside in *. simpl in *. lia.
  - apply (IH (base + Z.of_nat s)) in Hx; [|exact Hb]. unfold inside in *. simpl. lia.
Qed.
Lemma boxes_zero bs : boxes_size bs = O -> forall b, In b bs -> fst b = O.
Proof.
  induction bs as [|[s p] r IH]; intros H b Hb; [destruct Hb|]. simpl in H. destruct Hb as [<-|Hb]; [simpl; lia|].
  apply IH; [lia|exact Hb].
Qed.
Lemma contents_zero m m' bs : boxes_size bs = O -> contents m bs = contents m' bs.
Proof.
  intros H. apply contents_ext. intros b Hb x Hx. rewrite (boxes_zero bs H b Hb) in Hx. unfold inside in Hx. lia.
Qed.

(** what a serialised object looks like at address a *)
Definition stored m (a : Z) (o : Obj) (T : list (list (byte P))) : Prop :=
  read P m a (SZ P) = enc P o /\
  read P m (a + Z.of_nat (SZ P)) (DynamicMemorySizeInBytes P o) = concat T.

Lemma stored_ext m m' a o T : (forall x, inside a (SerializedSizeInBytes P o) x -> m x = m' x) ->
  stored m a o T -> stored m' a o T.
Proof.
  unfold stored, SerializedSizeInBytes. intros H [A B]. split.
  - rewrite <- A. apply read_ext. intros x Hx. symmetry. apply H. unfold inside in *. lia.
  - rewrite <- B. apply read_ext. intros x Hx. symmetry. apply H. unfold inside in *. lia.
Qed.

Lemma Serialize_spec m dst o : tables_apart P o dst (SerializedSizeInBytes P o) ->
  exists m2, Serialize P m dst o = Some (m2, SerializedSizeInBytes P o) /\
    same_outside m m2 dst (SerializedSizeInBytes P o) /\ stored m2 dst o (tables P m o).
Proof.
  intros HA. unfold Serialize. set (m1 := write P m dst (enc P o)).
  assert (H1 : same_outside m m1 dst (SZ P)).
  { intros x Hx. unfold m1. apply write_out. rewrite enc_len. exact Hx. }
  assert (HE : read P m1 dst (SZ P) = enc P o).
  { unfold m1. rewrite <- (enc_len P o). apply read_write. }
  assert (HT : contents m1 (o_boxes o) = contents m (o_boxes o)).
  { apply contents_ext. intros b Hb x Hx. apply H1. intros Hy. apply (HA b Hb x Hx).
    unfold inside, SerializedSizeInBytes in *. lia. }
  unfold SerializedSizeInBytes, DynamicMemorySizeInBytes in *.
  destruct (Nat.ltb_spec 0 (boxes_size (o_boxes o))) as [L|L].
  - destruct (dump_spec (o_boxes o) m1 (dst + Z.of_nat (SZ P))) as [m2 [E [O2 R2]]].
    { intros b Hb x Hx Hy. apply (HA b Hb x Hx). unfold inside in *. lia. }
    rewrite E. exists m2.
    replace (SZ P + boxes_size (o_boxes o))%nat with (boxes_size (o_boxes o) + SZ P)%nat by lia.
    rewrite Nat.eqb_refl. split; [reflexivity|]. split.
    + intros x Hx. unfold inside in Hx. rewrite O2; [apply H1|]; unfold inside; lia.
    + split.
      * rewrite <- HE. apply read_ext. intros x Hx. apply O2. unfold inside in *. lia.
      * unfold DynamicMemorySizeInBytes. rewrite R2, HT. reflexivity.
  - assert (Z0 : boxes_size (o_boxes o) = O) by lia.
    exists m1. rewrite Z0, Nat.add_0_r. cbn [Nat.add]. rewrite Nat.eqb_refl. split; [reflexivity|]. split; [exact H1|].
    split; [exact HE|]. unfold DynamicMemorySizeInBytes. rewrite Z0.
    assert (L0 := contents_len m (o_boxes o)). rewrite Z0 in L0.
    change (tables P m o) with (contents m (o_boxes o)).
    destruct (concat (contents m (o_boxes o))); [reflexivity|discriminate].
Qed.

Definition base_of (st : settings) (o : Obj) (src : Z) : Z :=
  match o_kind o with Honors => if Z.eqb (st_data st) 0 then src else st_data st | Ignores => src end.

Lemma DeSerialize_spec check m src st o T : representable P o -> stored m src o T ->
  exists m1 o1, DeSerialize P check m src st = Some (m1, o1, SerializedSizeInBytes P o) /\
    o_static o1 = o_static o /\ o_kind o1 = o_kind o /\ map fst (o_boxes o1) = map fst (o_boxes o) /\
    DynamicMemorySizeInBytes P o1 = DynamicMemorySizeInBytes P o /\
    (CopyNeeded st = false -> m1 = m) /\
    (CopyNeeded st = true -> same_outside m m1 (st_data st) (DynamicMemorySizeInBytes P o) /\
       read P m1 (st_data st) (DynamicMemorySizeInBytes P o) = concat T) /\
    ((0 < DynamicMemorySizeInBytes P o)%nat -> o_boxes o1 = set_pointers (base_of st o (src + Z.of_nat (SZ P))) (o_boxes o)).
Proof.
  intros HR [HE HT]. unfold DeSerialize. rewrite HE, dec_enc by exact HR.
  unfold SerializedSizeInBytes, DynamicMemorySizeInBytes in *.
  destruct (Nat.ltb_spec 0 (boxes_size (o_boxes o))) as [L|L].
  - unfold SetDynamicMemory. fold (base_of st o (src + Z.of_nat (SZ P))).
    eexists _, _. cbn [o_boxes o_static o_kind]. rewrite set_pointers_size.
    replace (SZ P + boxes_size (o_boxes o))%nat with (boxes_size (o_boxes o) + SZ P)%nat by lia.
    rewrite Nat.eqb_refl, andb_false_r. split; [reflexivity|].
    cbn [o_boxes o_static o_kind].
    split; [reflexivity|]. split; [reflexivity|]. split; [apply set_pointers_fst|].
    split; [apply set_pointers_size|]. split; [intros ->; reflexivity|]. split; [|reflexivity].
    intros ->. split; [apply memcpy_out|]. rewrite memcpy_read. exact HT.
  - assert (Z0 : boxes_size (o_boxes o) = O) by lia.
    exists m, o. rewrite Z0, Nat.add_0_r. cbn [Nat.add]. rewrite Nat.eqb_refl, andb_false_r.
    repeat split; auto; try lia.
    rewrite Z0 in HT. simpl in HT. simpl. exact HT.
Qed.

Lemma same_of_contents m0 m1 o o1 :
  o_static o1 = o_static o -> o_kind o1 = o_kind o -> map fst (o_boxes o1) = map fst (o_boxes o) ->
  contents m1 (o_boxes o1) = contents m0 (o_boxes o) -> same_object P m0 o m1 o1.
Proof. intros A B C D. unfold same_object, tables. repeat split; symmetry; assumption. Qed.
Lemma boxes_size_fst bs bs' : map fst bs = map fst bs' -> boxes_size bs = boxes_size bs'.
Proof.
  revert bs'. induction bs as [|[s p] r IH]; intros [|[s' p'] r'] E; simpl in *; try discriminate; auto.
  injection E as -> E. rewrite (IH r' E). reflexivity.
Qed.
Lemma contents_zero2 m m' bs bs' : map fst bs = map fst bs' -> boxes_size bs = O -> contents m bs = contents m' bs'.
Proof.
  revert bs'. induction bs as [|[s p] r IH]; intros [|[s' p'] r'] E Hz; simpl in *; try discriminate; auto.
  injection E as -> E. assert (s' = O) by lia. subst s'. cbn [contents map fst snd read]. f_equal.
  apply IH; [exact E|lia].
Qed.

(** restored object, given that its base region holds the table bytes *)
Lemma restored m0 m1 o o1 base :
  o_static o1 = o_static o -> o_kind o1 = o_kind o -> map fst (o_boxes o1) = map fst (o_boxes o) ->
  ((0 < DynamicMemorySizeInBytes P o)%nat -> o_boxes o1 = set_pointers base (o_boxes o)) ->
  read P m1 base (DynamicMemorySizeInBytes P o) = concat (tables P m0 o) ->
  same_object P m0 o m1 o1 /\ tables_within P o1 base (DynamicMemorySizeInBytes P o).
Proof.
  intros A B C D E. unfold DynamicMemorySizeInBytes in *.
  destruct (Nat.ltb_spec 0 (boxes_size (o_boxes o))) as [L|L].
  - specialize (D L). split.
    + apply same_of_contents; try assumption. rewrite D. apply set_pointers_contents. exact E.
    + intros b Hb x Hx. rewrite D in Hb. eapply set_pointers_within; eassumption.
  - assert (Z0 : boxes_size (o_boxes o) = O) by lia. split.
    + apply same_of_contents; try assumption. apply contents_zero2; [exact C|].
      rewrite (boxes_size_fst _ _ C). exact Z0.
    + intros b Hb x Hx. exfalso.
      assert (fst b = O). { eapply boxes_zero; [|exact Hb]. rewrite (boxes_size_fst _ _ C). exact Z0. }
      unfold inside in Hx. lia.
Qed.

(** *** Bulk serialisation *)
Definition ssz o := SerializedSizeInBytes P o.
Definition dsz o := DynamicMemorySizeInBytes P o.
Fixpoint total (f : Obj -> nat) (os : list Obj) : nat := match os with [] => O | o :: r => (f o + total f r)%nat end.
Lemma fold_total (f : Obj -> nat) os a : fold_left (fun tot o => (tot + f o)%nat) os a = (a + total f os)%nat.
Proof. revert a; induction os as [|o r IH]; intros a; simpl; [lia|]. rewrite IH. lia. Qed.
Lemma bulk_size_total os : bulk_size P os = (SIZE_T P + total ssz os)%nat.
Proof. unfold bulk_size. rewrite (fold_total (SerializedSizeInBytes P)). reflexivity. Qed.
Lemma bulk_shared_total os : bulk_shared_size P os = total dsz os.
Proof. unfold bulk_shared_size. rewrite (fold_total (SharedMemorySizeInBytes P)). reflexivity. Qed.

Fixpoint stored_all m0 m (a : Z) (os : list Obj) : Prop :=
  match os with
  | [] => True
  | o :: r => stored m a o (tables P m0 o) /\ stored_all m0 m (a + Z.of_nat (ssz o)) r
  end.
Lemma stored_all_ext m0 m m' os : forall a, (forall x, inside a (total ssz os) x -> m x = m' x) ->
  stored_all m0 m a os -> stored_all m0 m' a os.
Proof.
  induction os as [|o r IH]; intros a H; [auto|]. intros [A B]. cbn [total] in H. split.
  - eapply stored_ext; [|exact A]. intros x Hx. apply H. unfold inside, ssz in *. lia.
  - apply IH; [|exact B]. intros x Hx. apply H. unfold inside in *. lia.
Qed.

Lemma tables_ext m m' o : (forall b, In b (o_boxes o) -> forall x, inside (snd b) (fst b) x -> m x = m' x) ->
  tables P m o = tables P m' o.
Proof. apply contents_ext. Qed.

Lemma ser_loop_spec m0 dst os : forall m offst,
  (forall o, In o os -> tables_apart P o (dst + Z.of_nat offst) (total ssz os)) ->
  (forall o, In o os -> tables P m o = tables P m0 o) ->
  exists m2, bulk_ser_loop P m dst offst os = Some (m2, (offst + total ssz os)%nat) /\
    same_outside m m2 (dst + Z.of_nat offst) (total ssz os) /\ stored_all m0 m2 (dst + Z.of_nat offst) os.
Proof.
  induction os as [|o r IH]; intros m offst HA HT.
  - exists m. cbn [bulk_ser_loop total]. rewrite Nat.add_0_r. split; [reflexivity|]. split; [intros x _; reflexivity|exact I].
  - cbn [bulk_ser_loop total].
    destruct (Serialize_spec m (dst + Z.of_nat offst) o) as [m1 [E1 [O1 S1]]].
    { intros b Hb x Hx Hy. apply (HA o (or_introl eq_refl) b Hb x Hx). cbn [total]. unfold inside, ssz in *. lia. }
    rewrite E1. fold (ssz o) in *.
    destruct (IH m1 (offst + ssz o)%nat) as [m2 [E2 [O2 S2]]].
    { intros o' Ho' b Hb x Hx Hy. apply (HA o' (or_intror Ho') b Hb x Hx). cbn [total]. unfold inside in *. lia. }
    { intros o' Ho'. rewrite <- (HT o' (or_intror Ho')). symmetry. apply tables_ext. intros b Hb x Hx. symmetry.
      apply O1. intros Hy. apply (HA o' (or_intror Ho') b Hb x Hx). cbn [total]. unfold inside, ssz in *. lia. }
    rewrite E2. exists m2. split; [f_equal; f_equal; lia|]. split; [|split].
    + intros x Hx. unfold inside in Hx. fold (ssz o) in O1. rewrite O2; [apply O1|]; unfold inside; lia.
    + rewrite (HT o (or_introl eq_refl)) in S1. eapply stored_ext; [|exact S1].
      intros x Hx. symmetry. apply O2. unfold inside, ssz in *. lia.
    + replace (dst + Z.of_nat offst + Z.of_nat (ssz o)) with (dst + Z.of_nat (offst + ssz o)) by lia. exact S2.
Qed.

Lemma BulkSerialize_spec m dst os :
  (forall o, In o os -> tables_apart P o dst (bulk_size P os)) ->
  exists m2, BulkSerialize P m dst os = Some (m2, bulk_size P os) /\
    same_outside m m2 dst (bulk_size P os) /\ read P m2 dst (SIZE_T P) = encn P (length os) /\
    stored_all m m2 (dst + Z.of_nat (SIZE_T P)) os.
Proof.
  intros HA. unfold BulkSerialize. rewrite bulk_size_total in *. set (m1 := write P m dst (encn P (length os))).
  assert (H1 : same_outside m m1 dst (SIZE_T P)).
  { intros x Hx. unfold m1. apply write_out. rewrite encn_len. exact Hx. }
  destruct (ser_loop_spec m dst os m1 (SIZE_T P)) as [m2 [E [O2 S2]]].
  { intros o Ho b Hb x Hx Hy. apply (HA o Ho b Hb x Hx). unfold inside in *. lia. }
  { intros o Ho. symmetry. apply tables_ext. intros b Hb x Hx. symmetry. apply H1. intros Hy.
    apply (HA o Ho b Hb x Hx). unfold inside in *. lia. }
  rewrite E, Nat.eqb_refl. exists m2. split; [reflexivity|]. split; [|split; [|exact S2]].
  - intros x Hx. unfold inside in Hx. rewrite O2; [apply H1|]; unfold inside; lia.
  - transitivity (read P m1 dst (SIZE_T P)).
    + apply read_ext. intros x Hx. apply O2. unfold inside in *. lia.
    + unfold m1. assert (H := read_write m dst (encn P (length os))). rewrite encn_len in H. exact H.
Qed.

Notation consecutive := (consecutive P).

Lemma same_object_sizes m0 m1 o o1 : same_object P m0 o m1 o1 -> dsz o1 = dsz o /\ ssz o1 = ssz o.
Proof.
  intros [_ [_ [H _]]]. unfold ssz, dsz, SerializedSizeInBytes, DynamicMemorySizeInBytes.
  rewrite (boxes_size_fst _ _ H). auto.
Qed.

Section Loop.
Variable check : bool.
Variable m0 : Mem.
Variable src : Z.

Lemma total_Forall2 m1 os os' : Forall2 (fun o o1 => same_object P m0 o m1 o1) os os' ->
  total ssz os' = total ssz os /\ total dsz os' = total dsz os.
Proof.
  induction 1 as [|o o1 r r1 H H0 IH]; [auto|]. cbn [total]. destruct (same_object_sizes _ _ _ _ H) as [-> ->].
  destruct IH as [-> ->]. auto.
Qed.

(** root rank with shared memory *)
Lemma deser_loop_root os : forall m offst data shared acc,
  Forall (fun o => representable P o /\ o_kind o = Honors) os -> 0 < data ->
  stored_all m0 m (src + Z.of_nat offst) os ->
  disjoint (src + Z.of_nat offst) (total ssz os) data (total dsz os) ->
  exists m1 os', bulk_deser_loop P check m src offst data true shared (length os) acc =
      Some (m1, acc ++ os', (offst + total ssz os)%nat, (shared + total dsz os)%nat) /\
    Forall2 (fun o o1 => same_object P m0 o m1 o1) os os' /\ consecutive data os' /\
    same_outside m m1 data (total dsz os).
Proof.
  induction os as [|o r IH]; intros m offst data shared acc HF Hd HS HD.
  - exists m, []. cbn [length bulk_deser_loop total]. rewrite !Nat.add_0_r, app_nil_r. split; [reflexivity|].
    split; [constructor|]. split; [exact I|]. intros x _; reflexivity.
  - cbn [length bulk_deser_loop total] in *. inversion HF as [|? ? [HR HK] HF']; subst. destruct HS as [S1 S2].
    destruct (DeSerialize_spec check m (src + Z.of_nat offst) (mkSettings data true) o _ HR S1)
      as [m1 [o1 [E [A1 [A2 [A3 [A4 [_ [A6 A7]]]]]]]]].
    rewrite E. fold (ssz o). unfold SharedMemorySizeInBytes. rewrite A4. fold (dsz o) in *.
    assert (HC : CopyNeeded (mkSettings data true) = true).
    { unfold CopyNeeded. cbn. destruct (Z.eqb_spec data 0); [lia|reflexivity]. }
    destruct (A6 HC) as [B1 B2]. cbn [st_data] in B1, B2.
    destruct (IH m1 (offst + ssz o)%nat (data + Z.of_nat (dsz o)) (shared + dsz o)%nat (acc ++ [o1]) HF') as [m2 [os' [E2 [F2 [C2 O2]]]]].
    { lia. }
    { replace (src + Z.of_nat (offst + ssz o)) with (src + Z.of_nat offst + Z.of_nat (ssz o)) by lia.
      eapply stored_all_ext; [|exact S2]. intros x Hx. symmetry. apply B1. intros Hy.
      apply (HD x); unfold inside in *; lia. }
    { intros x Hx Hy. apply (HD x); unfold inside in *; lia. }
    rewrite E2. exists m2, (o1 :: os'). split; [rewrite <- app_assoc; cbn [app]; f_equal; f_equal; [f_equal|]; lia|].
    assert (HR1 : same_object P m0 o m2 o1 /\ tables_within P o1 data (dsz o)).
    { apply restored; try assumption.
      - intros L. rewrite (A7 L). unfold base_of. rewrite HK. cbn [st_data]. destruct (Z.eqb_spec data 0); [lia|reflexivity].
      - rewrite <- B2. apply read_ext. intros x Hx. apply O2. unfold inside, dsz in *. lia. }
    destruct HR1 as [R1 R2]. split; [constructor; assumption|]. split.
    + cbn [Serialization_Model.consecutive]. rewrite A4. fold (dsz o). split; assumption.
    + intros x Hx. unfold inside in Hx. rewrite O2; [apply B1|]; unfold inside; lia.
Qed.

(** shared region already holding the tables *)
Fixpoint shared_holds m (data : Z) (os : list Obj) : Prop :=
  match os with
  | [] => True
  | o :: r => read P m data (dsz o) = concat (tables P m0 o) /\ shared_holds m (data + Z.of_nat (dsz o)) r
  end.

(** rank that is not root: no byte is written *)
Lemma deser_loop_nonroot os : forall m offst data shared acc,
  Forall (fun o => representable P o /\ o_kind o = Honors) os -> 0 < data ->
  stored_all m0 m (src + Z.of_nat offst) os -> shared_holds m data os ->
  exists os', bulk_deser_loop P check m src offst data false shared (length os) acc =
      Some (m, acc ++ os', (offst + total ssz os)%nat, (shared + total dsz os)%nat) /\
    Forall2 (fun o o1 => same_object P m0 o m o1) os os' /\ consecutive data os'.
Proof.
  induction os as [|o r IH]; intros m offst data shared acc HF Hd HS HH.
  - exists []. cbn [length bulk_deser_loop total]. rewrite !Nat.add_0_r, app_nil_r. split; [reflexivity|].
    split; [constructor|exact I].
  - cbn [length bulk_deser_loop total] in *. inversion HF as [|? ? [HR HK] HF']; subst. destruct HS as [S1 S2].
    destruct HH as [H1 H2].
    destruct (DeSerialize_spec check m (src + Z.of_nat offst) (mkSettings data false) o _ HR S1)
      as [m1 [o1 [E [A1 [A2 [A3 [A4 [A5 [_ A7]]]]]]]]].
    assert (HC : CopyNeeded (mkSettings data false) = false) by apply andb_false_r.
    rewrite (A5 HC) in E. clear A5.
    rewrite E. fold (ssz o). unfold SharedMemorySizeInBytes. rewrite A4. fold (dsz o) in *.
    destruct (IH m (offst + ssz o)%nat (data + Z.of_nat (dsz o)) (shared + dsz o)%nat (acc ++ [o1]) HF') as [os' [E2 [F2 C2]]].
    { lia. }
    { replace (src + Z.of_nat (offst + ssz o)) with (src + Z.of_nat offst + Z.of_nat (ssz o)) by lia. exact S2. }
    { exact H2. }
    rewrite E2. exists (o1 :: os'). split; [rewrite <- app_assoc; cbn [app]; f_equal; f_equal; [f_equal|]; lia|].
    assert (HR1 : same_object P m0 o m o1 /\ tables_within P o1 data (dsz o)).
    { apply restored; try assumption.
      intros L. rewrite (A7 L). unfold base_of. rewrite HK. cbn [st_data]. destruct (Z.eqb_spec data 0); [lia|reflexivity]. }
    destruct HR1 as [R1 R2]. split; [constructor; assumption|].
    cbn [Serialization_Model.consecutive]. rewrite A4. fold (dsz o). split; assumption.
Qed.

(** no tables at all: whatever the settings *)
Lemma deser_loop_none os : forall m offst data root shared acc,
  Forall (fun o => representable P o /\ dsz o = O) os ->
  stored_all m0 m (src + Z.of_nat offst) os ->
  exists m1 os', bulk_deser_loop P check m src offst data root shared (length os) acc =
      Some (m1, acc ++ os', (offst + total ssz os)%nat, (shared + total dsz os)%nat) /\
    m1 = m /\ Forall2 (fun o o1 => same_object P m0 o m o1) os os'.
Proof.
  induction os as [|o r IH]; intros m offst data root shared acc HF HS.
  - exists m, []. cbn [length bulk_deser_loop total]. rewrite !Nat.add_0_r, app_nil_r. split; [reflexivity|].
    split; [reflexivity|constructor].
  - cbn [length bulk_deser_loop total] in *. inversion HF as [|? ? [HR HK] HF']; subst. destruct HS as [S1 S2].
    assert (E : DeSerialize P check m (src + Z.of_nat offst) (mkSettings data root) = Some (m, o, ssz o)).
    { unfold DeSerialize. destruct S1 as [-> _]. rewrite dec_enc by exact HR. unfold dsz in HK. rewrite HK. cbn [Nat.ltb Nat.leb].
      unfold ssz, SerializedSizeInBytes. rewrite HK, Nat.add_0_r. cbn [Nat.add]. rewrite Nat.eqb_refl, andb_false_r. reflexivity. }
    rewrite E. unfold SharedMemorySizeInBytes. fold (dsz o).
    destruct (IH m (offst + ssz o)%nat (data + Z.of_nat (dsz o)) root (shared + dsz o)%nat (acc ++ [o]) HF') as [m1 [os' [E2 [-> F2]]]].
    { replace (src + Z.of_nat (offst + ssz o)) with (src + Z.of_nat offst + Z.of_nat (ssz o)) by lia. exact S2. }
    rewrite E2. exists m, (o :: os'). split; [rewrite <- app_assoc; cbn [app]; f_equal; f_equal; [f_equal|]; lia|].
    split; [reflexivity|]. constructor; [|exact F2].
    apply same_of_contents; try reflexivity. apply contents_zero. exact HK.
Qed.

(** without shared memory, at most one object with tables *)
Lemma deser_loop_one pre o post : forall m offst root shared acc,
  Forall (fun o => representable P o /\ dsz o = O) pre -> representable P o ->
  Forall (fun o => representable P o /\ dsz o = O) post ->
  stored_all m0 m (src + Z.of_nat offst) (pre ++ o :: post) ->
  exists os', bulk_deser_loop P check m src offst 0 root shared (length (pre ++ o :: post)) acc =
      Some (m, acc ++ os', (offst + total ssz (pre ++ o :: post))%nat, (shared + total dsz (pre ++ o :: post))%nat) /\
    Forall2 (fun o o1 => same_object P m0 o m o1) (pre ++ o :: post) os'.
Proof.
  induction pre as [|q pre IH]; intros m offst root shared acc H1 H2 H3 HS.
  - cbn [app] in *. cbn [length bulk_deser_loop total] in *. destruct HS as [S1 S2].
    destruct (DeSerialize_spec check m (src + Z.of_nat offst) (mkSettings 0 root) o _ H2 S1)
      as [m1 [o1 [E [A1 [A2 [A3 [A4 [A5 [_ A7]]]]]]]]].
    rewrite (A5 eq_refl) in E. clear A5.
    rewrite E. fold (ssz o). unfold SharedMemorySizeInBytes. rewrite A4. fold (dsz o) in *.
    destruct (deser_loop_none post m (offst + ssz o)%nat (0 + Z.of_nat (dsz o)) root (shared + dsz o)%nat (acc ++ [o1]) H3)
      as [m2 [os' [E2 [-> F2]]]].
    { replace (src + Z.of_nat (offst + ssz o)) with (src + Z.of_nat offst + Z.of_nat (ssz o)) by lia. exact S2. }
    rewrite E2. exists (o1 :: os'). split; [rewrite <- app_assoc; cbn [app]; f_equal; f_equal; [f_equal|]; lia|].
    constructor; [|exact F2].
    apply (restored m0 m o o1 (src + Z.of_nat offst + Z.of_nat (SZ P))); try assumption.
    + intros L. rewrite (A7 L). unfold base_of. cbn [st_data Z.eqb]. destruct (o_kind o); reflexivity.
    + destruct S1 as [_ S1]. exact S1.
  - cbn [app] in *. cbn [length bulk_deser_loop total] in *. inversion H1 as [|? ? [HR HK] H1']; subst. destruct HS as [S1 S2].
    assert (E : DeSerialize P check m (src + Z.of_nat offst) (mkSettings 0 root) = Some (m, q, ssz q)).
    { unfold DeSerialize. destruct S1 as [-> _]. rewrite dec_enc by exact HR. unfold dsz in HK. rewrite HK. cbn [Nat.ltb Nat.leb].
      unfold ssz, SerializedSizeInBytes. rewrite HK, Nat.add_0_r. cbn [Nat.add]. rewrite Nat.eqb_refl, andb_false_r. reflexivity. }
    rewrite E. unfold SharedMemorySizeInBytes. fold (dsz q). rewrite HK.
    destruct (IH m (offst + ssz q)%nat root (shared + 0)%nat (acc ++ [q]) H1' H2 H3) as [os' [E2 F2]].
    { replace (src + Z.of_nat (offst + ssz q)) with (src + Z.of_nat offst + Z.of_nat (ssz q)) by lia. exact S2. }
    change (0 + Z.of_nat 0) with 0. rewrite E2. exists (q :: os').
    split; [rewrite <- app_assoc; cbn [app]; f_equal; f_equal; [f_equal|]; lia|].
    constructor; [|exact F2].
    apply same_of_contents; try reflexivity. apply contents_zero. exact HK.
Qed.
End Loop.

Lemma sizes_pass m0 m1 os os' : Forall2 (fun o o1 => same_object P m0 o m1 o1) os os' ->
  bulk_size P os' = bulk_size P os /\ bulk_shared_size P os' = bulk_shared_size P os.
Proof.
  intros H. rewrite !bulk_size_total, !bulk_shared_total. destruct (total_Forall2 m0 m1 os os' H) as [-> ->]. auto.
Qed.

Lemma bulk_root check m dst os data :
  Forall (fun o => representable P o /\ o_kind o = Honors) os -> representable_n P (length os) ->
  (forall o, In o os -> tables_apart P o dst (bulk_size P os)) ->
  0 < data -> disjoint dst (bulk_size P os) data (bulk_shared_size P os) ->
  exists m2 m3 os', BulkSerialize P m dst os = Some (m2, bulk_size P os) /\
    same_outside m m2 dst (bulk_size P os) /\
    BulkDeSerialize P check m2 dst (mkSettings data true) = Some (m3, os', bulk_size P os) /\
    Forall2 (fun o o1 => same_object P m o m3 o1) os os' /\ consecutive data os' /\
    same_outside m2 m3 data (bulk_shared_size P os).
Proof.
  intros HF HN HA Hd HD. destruct (BulkSerialize_spec m dst os HA) as [m2 [E [O2 [HE S2]]]].
  destruct (deser_loop_root check m dst os m2 (SIZE_T P) data 0 [] HF Hd S2) as [m3 [os' [E3 [F3 [C3 O3]]]]].
  { rewrite bulk_size_total, bulk_shared_total in HD. intros x Hx Hy. apply (HD x); [unfold inside in *; lia|exact Hy]. }
  exists m2, m3, os'. split; [exact E|]. split; [exact O2|]. split.
  - unfold BulkDeSerialize. rewrite HE, decn_encn by exact HN. cbn [st_data st_root]. rewrite E3. cbn [app].
    destruct (sizes_pass _ _ _ _ F3) as [-> ->]. rewrite <- bulk_size_total, Nat.add_0_l, <- bulk_shared_total, !Nat.eqb_refl. reflexivity.
  - rewrite bulk_shared_total. auto.
Qed.

(** another rank, sharing the memory, reads its copy of the buffer after the root *)
Lemma deser_loop_root_holds check m0 src os : forall m offst data shared acc m1 os' a b,
  Forall (fun o => representable P o /\ o_kind o = Honors) os -> 0 < data ->
  stored_all m0 m (src + Z.of_nat offst) os ->
  disjoint (src + Z.of_nat offst) (total ssz os) data (total dsz os) ->
  bulk_deser_loop P check m src offst data true shared (length os) acc = Some (m1, os', a, b) ->
  shared_holds m0 m1 data os.
Proof.
  induction os as [|o r IH]; intros m offst data shared acc m1 os' a b HF Hd HS HD E; [exact I|].
  cbn [length bulk_deser_loop total] in *. inversion HF as [|? ? [HR HK] HF']; subst. destruct HS as [S1 S2].
  destruct (DeSerialize_spec check m (src + Z.of_nat offst) (mkSettings data true) o _ HR S1)
    as [m2 [o1 [E1 [A1 [A2 [A3 [A4 [_ [A6 A7]]]]]]]]].
  rewrite E1 in E. fold (ssz o) in E. unfold SharedMemorySizeInBytes in E. rewrite A4 in E. fold (dsz o) in *.
  assert (HC : CopyNeeded (mkSettings data true) = true).
  { unfold CopyNeeded. cbn. destruct (Z.eqb_spec data 0); [lia|reflexivity]. }
  destruct (A6 HC) as [B1 B2]. cbn [st_data] in B1, B2.
  assert (S2' : stored_all m0 m2 (src + Z.of_nat (offst + ssz o)) r).
  { replace (src + Z.of_nat (offst + ssz o)) with (src + Z.of_nat offst + Z.of_nat (ssz o)) by lia.
    eapply stored_all_ext; [|exact S2]. intros x Hx. symmetry. apply B1. intros Hy.
    apply (HD x); unfold inside in *; lia. }
  assert (HD' : disjoint (src + Z.of_nat (offst + ssz o)) (total ssz r) (data + Z.of_nat (dsz o)) (total dsz r)).
  { intros x Hx Hy. apply (HD x); unfold inside in *; lia. }
  assert (Hd' : 0 < data + Z.of_nat (dsz o)) by lia.
  split; [|eapply IH; [exact HF'|exact Hd'|exact S2'|exact HD'|exact E]].
  destruct (deser_loop_root check m0 src r m2 (offst + ssz o)%nat (data + Z.of_nat (dsz o)) (shared + dsz o)%nat (acc ++ [o1])
              HF' Hd' S2' HD') as [m3 [os3 [E3 [_ [_ O3]]]]].
  rewrite E3 in E. injection E as <- _ _ _. rewrite <- B2. apply read_ext. intros x Hx. apply O3. unfold inside, dsz in *. lia.
Qed.

Lemma bulk_nonroot check m dst os data :
  Forall (fun o => representable P o /\ o_kind o = Honors) os -> representable_n P (length os) ->
  (forall o, In o os -> tables_apart P o dst (bulk_size P os)) ->
  0 < data -> disjoint dst (bulk_size P os) data (bulk_shared_size P os) ->
  forall m2 n m3 os' n', BulkSerialize P m dst os = Some (m2, n) ->
  BulkDeSerialize P check m2 dst (mkSettings data true) = Some (m3, os', n') ->
  exists os'', BulkDeSerialize P check m3 dst (mkSettings data false) = Some (m3, os'', bulk_size P os) /\
    Forall2 (fun o o1 => same_object P m o m3 o1) os os'' /\ consecutive data os''.
Proof.
  intros HF HN HA Hd HD m2 n m3 os' n' E E3. destruct (BulkSerialize_spec m dst os HA) as [m2' [E' [O2 [HE S2]]]].
  rewrite E' in E. injection E as <- <-.
  rewrite bulk_size_total, bulk_shared_total in HD.
  assert (HD' : disjoint (dst + Z.of_nat (SIZE_T P)) (total ssz os) data (total dsz os)).
  { intros x Hx Hy. apply (HD x); [unfold inside in *; lia|exact Hy]. }
  destruct (deser_loop_root check m dst os m2' (SIZE_T P) data 0 [] HF Hd S2 HD') as [m3' [os3 [E4 [_ [_ O3]]]]].
  unfold BulkDeSerialize in E3. rewrite HE, decn_encn in E3 by exact HN. cbn [st_data st_root] in E3. rewrite E4 in E3.
  destruct (_ && _) in E3; [|discriminate]. injection E3 as <- <- <-.
  assert (HH := deser_loop_root_holds check m dst os _ _ _ _ _ _ _ _ _ HF Hd S2 HD' E4).
  assert (S3 : stored_all m m3' (dst + Z.of_nat (SIZE_T P)) os).
  { eapply stored_all_ext; [|exact S2]. intros x Hx. symmetry. apply O3. intros Hy. apply (HD' x); assumption. }
  assert (HE3 : read P m3' dst (SIZE_T P) = encn P (length os)).
  { rewrite <- HE. apply read_ext. intros x Hx. apply O3. intros Hy. apply (HD x); [unfold inside in *; lia|exact Hy]. }
  destruct (deser_loop_nonroot check m dst os m3' (SIZE_T P) data 0 [] HF Hd S3 HH) as [os4 [E5 [F5 C5]]].
  exists os4. split; [|split; assumption].
  unfold BulkDeSerialize. rewrite HE3, decn_encn by exact HN. cbn [st_data st_root]. rewrite E5. cbn [app].
  destruct (sizes_pass _ _ _ _ F5) as [-> ->].
  rewrite bulk_size_total, bulk_shared_total, Nat.add_0_l, !Nat.eqb_refl. reflexivity.
Qed.

Lemma bulk_one check m dst pre o post root :
  Forall (fun o => representable P o /\ dsz o = O) pre -> representable P o ->
  Forall (fun o => representable P o /\ dsz o = O) post -> representable_n P (length (pre ++ o :: post)) ->
  (forall q, In q (pre ++ o :: post) -> tables_apart P q dst (bulk_size P (pre ++ o :: post))) ->
  exists m2 os', BulkSerialize P m dst (pre ++ o :: post) = Some (m2, bulk_size P (pre ++ o :: post)) /\
    BulkDeSerialize P check m2 dst (mkSettings 0 root) = Some (m2, os', bulk_size P (pre ++ o :: post)) /\
    Forall2 (fun o o1 => same_object P m o m2 o1) (pre ++ o :: post) os'.
Proof.
  intros H1 H2 H3 HN HA. destruct (BulkSerialize_spec m dst _ HA) as [m2 [E [O2 [HE S2]]]].
  destruct (deser_loop_one check m dst pre o post m2 (SIZE_T P) root 0 [] H1 H2 H3 S2) as [os' [E5 F5]].
  exists m2, os'. split; [exact E|]. split; [|exact F5].
  unfold BulkDeSerialize. rewrite HE, decn_encn by exact HN. cbn [st_data st_root]. rewrite E5. cbn [app].
  destruct (sizes_pass _ _ _ _ F5) as [-> ->].
  rewrite bulk_size_total, bulk_shared_total, Nat.add_0_l, !Nat.eqb_refl. reflexivity.
Qed.

(** single objects *)
Lemma single_private check m dst o root : representable P o -> tables_apart P o dst (SerializedSizeInBytes P o) ->
  exists m2 o1, Serialize P m dst o = Some (m2, SerializedSizeInBytes P o) /\
    same_outside m m2 dst (SerializedSizeInBytes P o) /\
    DeSerialize P check m2 dst (mkSettings 0 root) = Some (m2, o1, SerializedSizeInBytes P o) /\
    same_object P m o m2 o1 /\ tables_within P o1 dst (SerializedSizeInBytes P o).
Proof.
  intros HR HA. destruct (Serialize_spec m dst o HA) as [m2 [E [O2 S2]]].
  destruct (DeSerialize_spec check m2 dst (mkSettings 0 root) o _ HR S2) as [m1 [o1 [E1 [A1 [A2 [A3 [A4 [A5 [_ A7]]]]]]]]].
  rewrite (A5 eq_refl) in E1. exists m2, o1.
  destruct (restored m m2 o o1 (dst + Z.of_nat (SZ P)) A1 A2 A3) as [R1 R2].
  { intros L. rewrite (A7 L). unfold base_of. cbn. destruct (o_kind o); reflexivity. }
  { apply S2. }
  repeat (split; [assumption|]). intros b Hb x Hx. specialize (R2 b Hb x Hx).
  unfold inside, SerializedSizeInBytes in *. lia.
Qed.
Lemma single_shared check m dst o data : representable P o -> o_kind o = Honors -> 0 < data ->
  tables_apart P o dst (SerializedSizeInBytes P o) ->
  disjoint dst (SerializedSizeInBytes P o) data (SharedMemorySizeInBytes P o) ->
  exists m2 m3 o1 o2, Serialize P m dst o = Some (m2, SerializedSizeInBytes P o) /\
    DeSerialize P check m2 dst (mkSettings data true) = Some (m3, o1, SerializedSizeInBytes P o) /\
    same_outside m2 m3 data (SharedMemorySizeInBytes P o) /\
    same_object P m o m3 o1 /\ tables_within P o1 data (SharedMemorySizeInBytes P o) /\
    DeSerialize P check m3 dst (mkSettings data false) = Some (m3, o2, SerializedSizeInBytes P o) /\
    same_object P m o m3 o2 /\ tables_within P o2 data (SharedMemorySizeInBytes P o).
Proof.
  intros HR HK Hd HA HD. unfold SharedMemorySizeInBytes in *. destruct (Serialize_spec m dst o HA) as [m2 [E [O2 S2]]].
  destruct (DeSerialize_spec check m2 dst (mkSettings data true) o _ HR S2) as [m3 [o1 [E1 [A1 [A2 [A3 [A4 [_ [A6 A7]]]]]]]]].
  assert (HC : CopyNeeded (mkSettings data true) = true).
  { unfold CopyNeeded. cbn. destruct (Z.eqb_spec data 0); [lia|reflexivity]. }
  destruct (A6 HC) as [B1 B2]. cbn [st_data] in B1, B2.
  assert (S3 : stored m3 dst o (tables P m o)).
  { eapply stored_ext; [|exact S2]. intros x Hx. symmetry. apply B1. intros Hy. apply (HD x); assumption. }
  destruct (DeSerialize_spec check m3 dst (mkSettings data false) o _ HR S3) as [m4 [o2 [E2 [D1 [D2 [D3 [D4 [D5 [_ D7]]]]]]]]].
  rewrite (D5 eq_refl) in E2 || rewrite (D5 (andb_false_r _)) in E2.
  exists m2, m3, o1, o2.
  destruct (restored m m3 o o1 data A1 A2 A3) as [R1 R2].
  { intros L. rewrite (A7 L). unfold base_of. rewrite HK. cbn. destruct (Z.eqb_spec data 0); [lia|reflexivity]. }
  { exact B2. }
  destruct (restored m m3 o o2 data D1 D2 D3) as [R3 R4].
  { intros L. rewrite (D7 L). unfold base_of. rewrite HK. cbn. destruct (Z.eqb_spec data 0); [lia|reflexivity]. }
  { exact B2. }
  repeat (split; [assumption|]). assumption.
Qed.
End M.
