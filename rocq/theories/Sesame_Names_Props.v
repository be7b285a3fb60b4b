(** Property theorems C74: the names under which sesame2spiner stores the materials. *)
From Coq Require Import ZArith List Bool Ascii String Lia DecimalString DecimalPos DecimalZ DecimalNat.
From Verif Require Import Sesame_Model Sesame_Spec Sesame_Parse_Props.
Import ListNotations.
Open Scope string_scope.

(** ** Decimal strings *)
Lemma to_string_inj a b : to_string a = to_string b -> a = b.
Proof.
  unfold to_string. intros H. apply DecimalZ.to_int_inj.
  assert (N : forall z, Z.to_int z <> Decimal.Pos Decimal.Nil /\ Z.to_int z <> Decimal.Neg Decimal.Nil).
  { intros [|p|p]; cbn; split; try discriminate; intros E; injection E; apply DecimalPos.Unsigned.to_uint_nonnil. }
  assert (Q := f_equal NilZero.int_of_string H).
  rewrite !NilZero.isi in Q by (apply N). injection Q. auto.
Qed.
Lemma uint_nonnil n : Nat.to_uint n <> Decimal.Nil.
Proof.
  intros E. assert (Q := DecimalNat.Unsigned.of_to n). rewrite E in Q. cbn in Q. subst n. discriminate E.
Qed.
Lemma to_string_nat_inj a b : to_string_nat a = to_string_nat b -> a = b.
Proof.
  unfold to_string_nat. intros H. apply DecimalNat.Unsigned.to_uint_inj.
  assert (Q := f_equal NilZero.uint_of_string H). rewrite !NilZero.usu in Q by (apply uint_nonnil). injection Q. auto.
Qed.
Definition numeral (s : string) : Prop := forall c, In c (list_ascii_of_string s) -> digit c <> None \/ c = "-"%char.
Lemma uint_numeral d : numeral (NilEmpty.string_of_uint d).
Proof.
  induction d; cbn; intros c I; [destruct I|..]; (destruct I as [<-|I]; [left; discriminate|apply IHd, I]).
Qed.
Lemma nz_numeral d : numeral (NilZero.string_of_uint d).
Proof. destruct d; try apply uint_numeral. intros c I. cbn in I. destruct I as [<-|[]]. left. discriminate. Qed.
Lemma to_string_numeral z : numeral (to_string z).
Proof.
  unfold to_string. destruct (Z.to_int z) as [d|d]; cbn [NilZero.string_of_int]; [apply nz_numeral|].
  intros c I. cbn in I. destruct I as [<-|I]; [right; reflexivity|apply (nz_numeral d), I].
Qed.
Lemma to_string_nat_numeral n : numeral (to_string_nat n).
Proof. apply nz_numeral. Qed.
Lemma numeral_free s : numeral s -> free "_" s.
Proof. intros H I. destruct (H _ I) as [E|E]; [apply E; reflexivity|discriminate E]. Qed.

(** ** The numbered name: the text after the last underscore is determined *)
Lemma las_app a b : list_ascii_of_string (a ++ b) = (list_ascii_of_string a ++ list_ascii_of_string b)%list.
Proof. induction a as [|c a IH]; cbn; [reflexivity|rewrite IH; reflexivity]. Qed.
Lemma last_mark (u : ascii) (a b x y : list ascii) : ~ In u x -> ~ In u y -> (a ++ u :: x)%list = (b ++ u :: y)%list -> a = b /\ x = y.
Proof.
  intros Hx Hy. revert b. induction a as [|c a IH]; intros [|d b] E; cbn in E.
  - injection E as <-. auto.
  - exfalso. injection E as <- E. apply Hx. rewrite E. apply in_or_app. right. left. reflexivity.
  - exfalso. injection E as -> E. apply Hy. rewrite <- E. apply in_or_app. right. left. reflexivity.
  - injection E as <- E. destruct (IH b E) as [-> ->]. auto.
Qed.
Lemma copy_inj a b k l : a ++ "_" ++ to_string_nat k = b ++ "_" ++ to_string_nat l -> a = b /\ k = l.
Proof.
  intros E. apply (f_equal list_ascii_of_string) in E. rewrite !las_app in E.
  destruct (last_mark "_" _ _ _ _ (numeral_free _ (to_string_nat_numeral k)) (numeral_free _ (to_string_nat_numeral l)) E) as [A B].
  split; [apply las_inj, A|apply to_string_nat_inj, las_inj, B].
Qed.
Lemma copy_marked a k : In "_"%char (list_ascii_of_string (a ++ "_" ++ to_string_nat k)).
Proof. rewrite las_app. apply in_or_app. right. left. reflexivity. Qed.

(** ** Specification of the output: every written material has two links, its number and its name; a name used before gets the number of its
    occurrence *)
Definition bases (meta_name : Z -> string) (ws : list (nat * Z * Params)) : list string :=
  map (fun w => base_name meta_name (fst (fst w)) (snd (fst w)) (snd w)) ws.
Definition ids (ws : list (nat * Z * Params)) : list Z := map (fun w => snd (fst w)) ws.
Definition occurrence (b : string) (earlier : list string) : string :=
  match count_occ string_dec earlier b with O => b | S c => b ++ "_" ++ to_string_nat (S (S c)) end.
Fixpoint names_after (earlier bs : list string) : list string :=
  match bs with [] => [] | b :: r => occurrence b earlier :: names_after (earlier ++ [b])%list r end.
Definition two_links (ns : list string) (ms : list Z) : list (string * Z) :=
  flat_map (fun nm => [(to_string (snd nm), snd nm); (fst nm, snd nm)]) (combine ns ms).
(** no name is the number of a material or the numbered copy of another name *)
Definition unmistakable (bs : list string) (ms : list Z) : Prop :=
  forall b, In b bs -> ~ In b (map to_string ms) /\ forall b' k, In b' bs -> b <> b' ++ "_" ++ to_string_nat k.

Lemma occurrence_inj bs ms b b' l l' : unmistakable bs ms -> In b bs -> In b' bs -> occurrence b l = occurrence b' l' ->
  b = b' /\ count_occ string_dec l b = count_occ string_dec l' b'.
Proof.
  intros U I I'. unfold occurrence.
  destruct (count_occ string_dec l b) as [|c], (count_occ string_dec l' b') as [|c']; intros E.
  - auto.
  - exfalso. apply (proj2 (U b I) b' _ I' E).
  - exfalso. symmetry in E. apply (proj2 (U b' I') b _ I E).
  - apply copy_inj in E. destruct E as [-> E]. injection E as ->. auto.
Qed.
Lemma occurrence_number bs ms b l m : unmistakable bs ms -> In b bs -> In m ms -> occurrence b l <> to_string m.
Proof.
  intros U I Im E. unfold occurrence in E. destruct (count_occ string_dec l b) as [|c].
  - apply (proj1 (U b I)). rewrite E. apply in_map, Im.
  - assert (K := copy_marked b (S (S c))). rewrite E in K. apply (numeral_free _ (to_string_numeral m)), K.
Qed.
Lemma in_names earlier bs n : In n (names_after earlier bs) -> exists b l, In b bs /\ n = occurrence b (earlier ++ l)%list.
Proof.
  revert earlier. induction bs as [|b r IH]; intros earlier I; [destruct I|]. destruct I as [<-|I].
  - exists b, []. rewrite app_nil_r. split; [left; reflexivity|reflexivity].
  - destruct (IH _ I) as (b' & l & J & ->). exists b', (b :: l). rewrite <- app_assoc. split; [right; exact J|reflexivity].
Qed.
Lemma names_nodup bs0 ms earlier bs : unmistakable bs0 ms -> incl bs bs0 -> NoDup (names_after earlier bs).
Proof.
  intros U. revert earlier. induction bs as [|b r IH]; intros earlier H; [constructor|]. constructor.
  - intros I. destruct (in_names _ _ _ I) as (b' & l & J & E).
    destruct (occurrence_inj bs0 ms b b' _ _ U (H _ (or_introl eq_refl)) (H _ (or_intror J)) E) as [<- C].
    rewrite !count_occ_app in C. cbn in C. destruct (string_dec b b); [lia|congruence].
  - apply IH. intros x I. apply H. right. exact I.
Qed.
Lemma links_nodup ns ms : NoDup ns -> NoDup ms -> (forall n m, In n ns -> In m ms -> n <> to_string m) -> NoDup (map fst (two_links ns ms)).
Proof.
  intros N. revert ms. induction N as [|n ns Nn N IH]; intros ms M D; [constructor|].
  destruct M as [|m ms Mm M]; [constructor|].
  change (map fst (two_links (n :: ns) (m :: ms))) with (to_string m :: n :: map fst (two_links ns ms)).
  assert (IN : forall x, In x (map fst (two_links ns ms)) -> (exists m', In m' ms /\ x = to_string m') \/ In x ns).
  { intros x I. apply in_map_iff in I. destruct I as ([y z] & <- & I). apply in_flat_map in I. destruct I as ([n' m'] & J & K).
    cbn in K. destruct K as [K|[K|[]]]; injection K as <- <-; cbn [fst].
    - left. exists m'. split; [eapply in_combine_r, J|reflexivity].
    - right. eapply in_combine_l, J. }
  constructor; [|constructor].
  - intros [E|I]; [apply (D n m); [left; reflexivity|left; reflexivity|exact E]|].
    destruct (IN _ I) as [(m' & J & E)|J].
    + apply to_string_inj in E. subst m'. contradiction.
    + apply (D (to_string m) m); [right; exact J|left; reflexivity|reflexivity].
  - intros I. destruct (IN _ I) as [(m' & J & E)|J]; [|contradiction].
    apply (D n m'); [left; reflexivity|right; exact J|exact E].
  - apply IH; [exact M|]. intros x y Ix Iy. apply D; right; assumption.
Qed.

Lemma create_ok n m l : ~ In n (map fst l) -> create n m (mkSF l true) = mkSF (l ++ [(n, m)])%list true.
Proof.
  intros H. unfold create. cbn [links ok]. replace (mem n l) with false; [reflexivity|]. symmetry. unfold mem.
  destruct (existsb _ _) eqn:E; [|reflexivity]. exfalso. apply existsb_exists in E. destruct E as ([x y] & I & E).
  apply String.eqb_eq in E. cbn in E. subst x. apply H. apply (in_map fst) in I. exact I.
Qed.
(** what the code remembers of the names *)
Definition remembers (u : list (string * nat)) (earlier : list string) : Prop :=
  forall n, count_of n u = match count_occ string_dec earlier n with O => None | S c => Some (S c) end.
Lemma remembers_add u earlier b c : remembers u earlier -> c = S (count_occ string_dec earlier b) -> remembers ((b, c) :: u) (earlier ++ [b])%list.
Proof.
  intros H -> n. cbn [count_of]. rewrite count_occ_app. cbn. destruct (String.eqb_spec n b) as [->|N].
  - destruct (string_dec b b); [|congruence]. rewrite Nat.add_1_r. reflexivity.
  - destruct (string_dec b n); [congruence|]. rewrite Nat.add_0_r. apply H.
Qed.
Lemma nodup_left {A} (a b : list A) : NoDup (a ++ b) -> NoDup a.
Proof.
  induction a as [|x a IH]; cbn; intros H; [constructor|]. inversion H as [|y l N M]; subst. constructor; [|apply IH, M].
  intros I. apply N, in_or_app. left. exact I.
Qed.
Lemma save_from_spec meta : forall mats i s l earlier, remembers (used_n s) earlier -> out s = mkSF l true ->
  let ws := firsts (used_m s) i mats in
  let new := two_links (names_after earlier (bases meta ws)) (ids ws) in
  NoDup (map fst (l ++ new)%list) -> out (save_from meta i mats s) = mkSF (l ++ new)%list true.
Proof.
  induction mats as [|[m p] r IH]; intros i s l earlier U O ws new N.
  - unfold new. cbn. rewrite app_nil_r. exact O.
  - cbn [save_from]. unfold save_one. destruct (existsb (Z.eqb m) (used_m s)) eqn:X.
    + unfold new, ws in *. cbn [firsts] in *. rewrite X in *. apply (IH _ _ _ earlier U O N).
    + unfold new, ws in *. cbn [firsts] in *. rewrite X in *.
      set (b := base_name meta i m p) in *. set (ws' := firsts (m :: used_m s) (S i) r) in *.
      change (bases meta ((i, m, p) :: ws')) with (b :: bases meta ws') in *. change (ids ((i, m, p) :: ws')) with (m :: ids ws') in *.
      cbn [names_after] in *.
      change (two_links (occurrence b earlier :: names_after (earlier ++ [b]) (bases meta ws')) (m :: ids ws'))%list
        with ([(to_string m, m); (occurrence b earlier, m)] ++ two_links (names_after (earlier ++ [b]) (bases meta ws')) (ids ws'))%list in *.
      rewrite app_assoc in *. set (rest := two_links _ _) in *.
      assert (NM : (match count_of b (used_n s) with
                    | Some c => (b ++ "_" ++ to_string_nat (S c), (b, S c) :: used_n s) | None => (b, (b, 1) :: used_n s) end) =
                   (occurrence b earlier, (b, S (count_occ string_dec earlier b)) :: used_n s)).
      { rewrite (U b). unfold occurrence. destruct (count_occ string_dec earlier b); reflexivity. }
      rewrite NM. apply (IH (S i) (mkSST _ _ _) _ (earlier ++ [b])%list); cbn [used_n out used_m].
      * apply remembers_add; [exact U|reflexivity].
      * assert (ND : NoDup (map fst l ++ [to_string m; occurrence b earlier])%list).
        { rewrite !map_app in N. apply nodup_left in N. exact N. }
        unfold saveMaterial. rewrite O, create_ok.
        -- rewrite create_ok; [rewrite <- app_assoc; reflexivity|]. rewrite map_app. cbn [map fst].
           replace [to_string m; occurrence b earlier] with ([to_string m] ++ [occurrence b earlier])%list in ND by reflexivity.
           rewrite app_assoc in ND. apply NoDup_remove_2 with (l' := []) in ND. rewrite app_nil_r in ND. exact ND.
        -- replace [to_string m; occurrence b earlier] with (to_string m :: [occurrence b earlier]) in ND by reflexivity.
           apply NoDup_remove_2 in ND. intros I. apply ND, in_or_app. left. exact I.
      * exact N.
Qed.

(** ** [firsts] is the list of the distinct numbers, each where it is first seen *)
Lemma firsts_ids seen i mats : NoDup (ids (firsts seen i mats)) /\ forall m, In m (ids (firsts seen i mats)) <-> (In m (map fst mats) /\ ~ In m seen).
Proof.
  revert seen i. induction mats as [|[m p] r IH]; intros seen i; [split; [constructor|cbn; tauto]|].
  assert (EX : forall x, existsb (Z.eqb x) seen = true <-> In x seen).
  { intros x. rewrite existsb_exists. split; [intros (y & I & E); apply Z.eqb_eq in E; subst; exact I|intros I; exists x; split; [exact I|apply Z.eqb_refl]]. }
  cbn [firsts map fst]. destruct (existsb (Z.eqb m) seen) eqn:X.
  - destruct (IH seen (S i)) as [A B]. split; [exact A|]. intros x. rewrite B. apply EX in X. cbn [In]. split; [tauto|].
    intros [[<-|I] N]; [contradiction|tauto].
  - assert (Xn : ~ In m seen) by (intros I; apply EX in I; congruence).
    destruct (IH (m :: seen) (S i)) as [A B]. cbn [ids map fst snd]. fold (ids (firsts (m :: seen) (S i) r)). split.
    + constructor; [|exact A]. rewrite B. cbn [In]. tauto.
    + intros x. cbn [In]. rewrite B. cbn [In]. destruct (Z.eq_dec m x) as [<-|N]; [tauto|]. intuition.
Qed.
Lemma firsts_first seen i mats j m p : In (j, m, p) (firsts seen i mats) ->
  exists before after, mats = (before ++ (m, p) :: after)%list /\ j = (i + List.length before)%nat /\ ~ In m (map fst before).
Proof.
  revert seen i. induction mats as [|[m' p'] r IH]; intros seen i I; [destruct I|]. cbn [firsts] in I.
  assert (ST : In (j, m, p) (firsts (m' :: seen) (S i) r) \/ In (j, m, p) (firsts seen (S i) r) /\ In m' seen \/ (j, m, p) = (i, m', p')).
  { destruct (existsb (Z.eqb m') seen) eqn:X.
    - right; left. split; [exact I|]. apply existsb_exists in X. destruct X as (y & J & E). apply Z.eqb_eq in E. subst. exact J.
    - destruct I as [I|I]; [right; right; symmetry; exact I|left; exact I]. }
  assert (NM : forall seen', In m' seen' -> In (j, m, p) (firsts seen' (S i) r) -> m <> m').
  { intros seen' I' J E. subst m'. destruct (firsts_ids seen' (S i) r) as [_ B].
    assert (K : In m (ids (firsts seen' (S i) r))) by (apply (in_map (fun w => snd (fst w))) in J; exact J).
    apply B in K. tauto. }
  destruct ST as [J|[[J K]|E]].
  - destruct (IH _ _ J) as (b & a & -> & -> & N). exists ((m', p') :: b), a. split; [reflexivity|]. split; [cbn; lia|].
    cbn. intros [E|L]; [apply (NM (m' :: seen) (or_introl eq_refl) J); symmetry; exact E|contradiction].
  - destruct (IH _ _ J) as (b & a & -> & -> & N). exists ((m', p') :: b), a. split; [reflexivity|]. split; [cbn; lia|].
    cbn. intros [E|L]; [apply (NM _ K J); symmetry; exact E|contradiction].
  - injection E as -> -> ->. exists [], r. split; [reflexivity|]. split; [cbn; lia|]. intros [].
Qed.

(** ** C74 *)
(** For every list of materials whose names cannot be mistaken: every HDF5 call succeeds, the file holds exactly two links per distinct
    material number, the number and the name, in the order of first appearance, and no link twice. *)
Theorem C74_file : forall meta mats, let ws := firsts [] 0 mats in unmistakable (bases meta ws) (ids ws) ->
  let f := saveAllMaterials meta mats in
  ok f = true /\ links f = two_links (names_after [] (bases meta ws)) (ids ws) /\ NoDup (map fst (links f)).
Proof.
  intros meta mats ws U f.
  assert (N : NoDup (map fst (two_links (names_after [] (bases meta ws)) (ids ws)))).
  { apply links_nodup; [apply (names_nodup _ _ _ _ U), incl_refl|apply firsts_ids|].
    intros n m I J. destruct (in_names _ _ _ I) as (b & l & K & ->). apply (occurrence_number _ _ _ _ _ U K J). }
  assert (E : f = mkSF (two_links (names_after [] (bases meta ws)) (ids ws)) true).
  { unfold f, saveAllMaterials. apply (save_from_spec meta mats 0 (mkSST [] [] (mkSF [] true)) [] []); [intros n; reflexivity|reflexivity|exact N]. }
  rewrite E. cbn [ok links]. auto.
Qed.
Lemma names_length earlier bs : List.length (names_after earlier bs) = List.length bs.
Proof. revert earlier. induction bs as [|b r IH]; intros e; cbn; [reflexivity|rewrite IH; reflexivity]. Qed.
Lemma in_two_links x m ns ms : In (x, m) (two_links ns ms) <-> exists n, In (n, m) (combine ns ms) /\ (x = to_string m \/ x = n).
Proof.
  unfold two_links. rewrite in_flat_map. split.
  - intros ([n m'] & I & K). cbn in K. destruct K as [K|[K|[]]]; injection K as <- <-; exists n; auto.
  - intros (n & I & [->| ->]); exists (n, m); split; cbn; auto.
Qed.
Lemma nodup_fst {A B} (l : list (A * B)) a x y : NoDup (map fst l) -> In (a, x) l -> In (a, y) l -> x = y.
Proof.
  induction l as [|[c z] l IH]; cbn; intros N I J; [destruct I|]. inversion N as [|? ? H M]; subst.
  destruct I as [I|I], J as [J|J]; [congruence| | |apply (IH M I J)].
  - injection I as -> ->. exfalso. apply H. apply (in_map fst) in J. exact J.
  - injection J as -> ->. exfalso. apply H. apply (in_map fst) in I. exact I.
Qed.
Lemma combine_cover {A B} (a : list A) (b : list B) y : List.length a = List.length b -> In y b -> exists x, In (x, y) (combine a b).
Proof.
  revert b. induction a as [|x a IH]; intros [|z b] L I; try discriminate L; [destruct I|]. destruct I as [<-|I].
  - exists x. left. reflexivity.
  - injection L as L. destruct (IH b L I) as [x' J]. exists x'. right. exact J.
Qed.
(** Every material of the input, repeated or not, is found under its number, and only it. *)
Theorem C74_found_by_number : forall meta mats, unmistakable (bases meta (firsts [] 0 mats)) (ids (firsts [] 0 mats)) ->
  forall m, In m (map fst mats) -> forall x, In (to_string m, x) (links (saveAllMaterials meta mats)) <-> x = m.
Proof.
  intros meta mats U m Im x. destruct (C74_file meta mats U) as (_ & E & N). rewrite E in N |- *. destruct (firsts_ids [] 0 mats) as [_ B].
  assert (M : In (to_string m, m) (two_links (names_after [] (bases meta (firsts [] 0 mats))) (ids (firsts [] 0 mats)))).
  { apply in_two_links.
    destruct (combine_cover (names_after [] (bases meta (firsts [] 0 mats))) (ids (firsts [] 0 mats)) m) as [n J].
    - rewrite names_length. unfold bases, ids. rewrite !map_length. reflexivity.
    - apply B. split; [exact Im|intros []].
    - exists n. auto. }
  split; [intros I; apply (nodup_fst _ _ _ _ N I M)|intros ->; exact M].
Qed.
Lemma names_nth earlier before w after meta :
  In (occurrence (base_name meta (fst (fst w)) (snd (fst w)) (snd w)) (earlier ++ bases meta before)%list, snd (fst w))
     (combine (names_after earlier (bases meta (before ++ w :: after))) (ids (before ++ w :: after))).
Proof.
  revert earlier. induction before as [|v before IH]; intros earlier; cbn.
  - left. rewrite app_nil_r. reflexivity.
  - right. assert (K := IH (earlier ++ [base_name meta (fst (fst v)) (snd (fst v)) (snd v)])%list). rewrite <- app_assoc in K. exact K.
Qed.
(** Every written material is found under its name: the name itself the first time it is used, then with _2, _3, ... *)
Theorem C74_found_by_name : forall meta mats, unmistakable (bases meta (firsts [] 0 mats)) (ids (firsts [] 0 mats)) ->
  forall before i m p after, firsts [] 0 mats = (before ++ (i, m, p) :: after)%list ->
  forall x, In (occurrence (base_name meta i m p) (bases meta before), x) (links (saveAllMaterials meta mats)) <-> x = m.
Proof.
  intros meta mats U before i m p after F x. destruct (C74_file meta mats U) as (_ & E & N). rewrite E in N |- *. rewrite F in N |- *.
  assert (M : In (occurrence (base_name meta i m p) (bases meta before), m)
     (two_links (names_after [] (bases meta (before ++ (i, m, p) :: after))) (ids (before ++ (i, m, p) :: after)))).
  { apply in_two_links. eexists. split; [apply (names_nth [] before (i, m, p) after meta)|]. right. reflexivity. }
  split; [intros I; apply (nodup_fst _ _ _ _ N I M)|intros ->; exact M].
Qed.

(** ** Names that cannot be mistaken: plain ones, other than "material", and the default ones *)
Lemma plain_not_copy n a k : free "_" n -> n <> a ++ "_" ++ to_string_nat k.
Proof. intros H E. apply H. rewrite E. apply copy_marked. Qed.
Theorem C74_plain_names_suffice : forall meta mats,
  (forall i m p, In (i, m, p) (firsts [] 0 mats) -> let n := GetS p "name" (meta m) in n = "-1" \/ n = "" \/ (plain n /\ n <> "material")) ->
  unmistakable (bases meta (firsts [] 0 mats)) (ids (firsts [] 0 mats)).
Proof.
  intros meta mats H.
  assert (C : forall b, In b (bases meta (firsts [] 0 mats)) -> (plain b /\ b <> "material") \/ exists i, b = "material" ++ "_" ++ to_string_nat i).
  { intros b I. apply in_map_iff in I. destruct I as ([[i m] p] & <- & I). cbn [fst snd]. specialize (H i m p I). cbv zeta in H. unfold base_name.
    destruct (String.eqb_spec (GetS p "name" (meta m)) "-1"); cbn [orb]; [right; exists i; reflexivity|].
    destruct (String.eqb_spec (GetS p "name" (meta m)) ""); [right; exists i; reflexivity|]. left. tauto. }
  intros b I. destruct (C b I) as [[(A1 & A2 & c & A3 & A4 & A5) A6]|[i ->]]; split.
  - intros J. apply in_map_iff in J. destruct J as (m & E & _). destruct (to_string_numeral m c) as [D|D]; [rewrite E; exact A3|congruence|congruence].
  - intros b' k _. apply plain_not_copy, A2.
  - intros J. apply in_map_iff in J. destruct J as (m & E & _). apply (numeral_free _ (to_string_numeral m)). rewrite E. apply copy_marked.
  - intros b' k J E. apply copy_inj in E. destruct E as [E _]. subst b'. destruct (C _ J) as [[_ K]|[j E]]; [apply K; reflexivity|].
    apply (plain_not_copy "material" "material" j); [|exact E]. intros Q. cbn in Q. intuition discriminate.
Qed.

(** The hypotheses are met, with a repeated material, a repeated name and an unnamed material *)
Example C74_example :
  let mats := [(5030%Z, [("name", "air")]); (4272%Z, [("name", "steel")]); (5030%Z, [("name", "again")]); (4271%Z, [("name", "steel")]); (3720%Z, [("name", "")])] in
  unmistakable (bases (fun _ => "") (firsts [] 0 mats)) (ids (firsts [] 0 mats)) /\
  saveAllMaterials (fun _ => "") mats =
    mkSF [("5030", 5030%Z); ("air", 5030%Z); ("4272", 4272%Z); ("steel", 4272%Z); ("4271", 4271%Z); ("steel_2", 4271%Z); ("3720", 3720%Z); ("material_4", 3720%Z)] true.
Proof.
  cbv zeta. split; [|vm_compute; reflexivity]. apply C74_plain_names_suffice. intros i m p I. cbn in I.
  assert (PL : forall n c r, n = String c r -> digit c = None -> c <> "-"%char -> free "_" n -> plain n).
  { intros n c r -> D1 D2 F. split; [discriminate|]. split; [exact F|]. exists c. split; [left; reflexivity|auto]. }
  destruct I as [I|[I|[I|[I|[]]]]]; injection I as <- <- <-; cbn.
  - right; right. split; [|discriminate]. eapply PL; [reflexivity|reflexivity|discriminate|]. intros Q; cbn in Q; intuition discriminate.
  - right; right. split; [|discriminate]. eapply PL; [reflexivity|reflexivity|discriminate|]. intros Q; cbn in Q; intuition discriminate.
  - right; right. split; [|discriminate]. eapply PL; [reflexivity|reflexivity|discriminate|]. intros Q; cbn in Q; intuition discriminate.
  - right; left. reflexivity.
Qed.

(** ** C73: integers are read exactly *)
Lemma digits_acc d : forall acc, digits (Zpos acc) (NilEmpty.string_of_uint d) = Zpos (Pos.of_uint_acc d acc).
Proof.
  induction d; intros acc; [reflexivity|..]; cbn [NilEmpty.string_of_uint Pos.of_uint_acc]; rewrite <- IHd;
    cbn -[Z.add Z.mul Pos.add Pos.mul NilEmpty.string_of_uint].
  all: match goal with |- match digit ?c with _ => _ end = _ => let v := eval vm_compute in (digit c) in change (digit c) with v end; cbv iota.
  all: f_equal; lia.
Qed.
Lemma digits_uint d : digits 0 (NilEmpty.string_of_uint d) = Z.of_N (Pos.of_uint d).
Proof. induction d; [reflexivity|exact IHd|..]; cbn [NilEmpty.string_of_uint Pos.of_uint Z.of_N]; apply (digits_acc d). Qed.
Lemma starts_uint d : d <> Decimal.Nil -> starts_digit (NilEmpty.string_of_uint d) = true.
Proof. destruct d; [congruence|reflexivity..]. Qed.
Lemma not_signed d : d <> Decimal.Nil -> exists c r, NilEmpty.string_of_uint d = String c r /\ Ascii.eqb c "-" = false /\ Ascii.eqb c "+" = false.
Proof. destruct d; [congruence|intros _; do 2 eexists; split; [reflexivity|split; reflexivity]..]. Qed.
Theorem C73_integers_read_back : forall z, (- 2 ^ 31 <= z < 2 ^ 31)%Z -> stoi (to_string z) = Some z.
Proof.
  intros z H.
  assert (R : (Z.leb (- 2 ^ 31) z && Z.ltb z (2 ^ 31))%bool = true) by (apply andb_true_intro; split; [apply Z.leb_le; lia|apply Z.ltb_lt; lia]).
  destruct z as [|p|p]; [reflexivity| |]; unfold to_string; cbn [Z.to_int NilZero.string_of_int]; assert (NN := DecimalPos.Unsigned.to_uint_nonnil p);
    assert (Z1 : NilZero.string_of_uint (Pos.to_uint p) = NilEmpty.string_of_uint (Pos.to_uint p)) by (destruct (Pos.to_uint p); [congruence|reflexivity..]);
    rewrite Z1; unfold stoi.
  - destruct (not_signed _ NN) as (c & r & E & E1 & E2). rewrite E, E1, E2, <- E, (starts_uint _ NN), digits_uint, DecimalPos.Unsigned.of_to.
    cbn [Z.of_N]. rewrite Z.mul_1_l, R. reflexivity.
  - change (Ascii.eqb "-" "-") with true. cbv iota. rewrite (starts_uint _ NN), digits_uint, DecimalPos.Unsigned.of_to.
    change (-1 * Z.of_N (N.pos p))%Z with (Zneg p). rewrite R. reflexivity.
Qed.
Print Assumptions C74_file.
Print Assumptions C74_found_by_number.
Print Assumptions C74_found_by_name.
Print Assumptions C74_plain_names_suffice.
Print Assumptions C73_integers_read_back.
