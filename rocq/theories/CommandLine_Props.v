(** C93, C94: the command line of sesame2spiner. *)
From Coq Require Import ZArith List Bool String Lia.
From Verif Require Import Sesame_Model CommandLine_Model.
Import ListNotations.
Open Scope string_scope.

(** ** Specification: what the usage message says
    [-p] [-w] [-h] [-v] [-vv] [-d] [-s <savename>] <parameter files>; -w is the same as -v and -d the same as -vv *)
Inductive item := Print | Warnings (w : bool) | DebugInfo (d : bool) | SaveTo (f : string) | Material (f : string).
Definition words (i : item) : list string :=
  match i with
  | Print => ["-p"]
  | Warnings w => [if w then "-w" else "-v"]
  | DebugInfo d => [if d then "-d" else "-vv"]
  | SaveTo f => ["-s"; f]
  | Material f => [f]
  end.
Definition line (l : list item) : list string := flat_map words l.
Definition option_words : list string := ["-p"; "-w"; "-h"; "-v"; "-vv"; "-d"; "-s"].
Definition files (l : list item) : list string := flat_map (fun i => match i with Material f => [f] | _ => [] end) l.
Definition saves (l : list item) : list string := flat_map (fun i => match i with SaveTo f => [f] | _ => [] end) l.
Definition asks_print (l : list item) : bool := existsb (fun i => match i with Print => true | _ => false end) l.
Definition asks_warnings (l : list item) : bool := existsb (fun i => match i with Warnings _ => true | _ => false end) l.
Definition asks_debug (l : list item) : bool := existsb (fun i => match i with DebugInfo _ => true | _ => false end) l.
Definition verbosity_of (l : list item) : Verbosity := if asks_debug l then Debug else if asks_warnings l then Verbose else Quiet.
(** the settings the line asks for: the last -s counts *)
Definition meaning (l : list item) : settings := mkS (last (saves l) "materials.sp5") (files l) (asks_print l) (verbosity_of l).

(** parameter files are not spelled like options *)
Definition plain (l : list item) : Prop := forall f, In (Material f) l -> ~ In f option_words.
Definition is_verbosity (i : item) : Prop := match i with Warnings _ | DebugInfo _ => True | _ => False end.
(** of two verbosity options the first is -v or -w and the second -vv or -d; so there are at most two *)
Definition rising (l : list item) : Prop := forall pre a mid b post, l = (pre ++ a :: mid ++ b :: post)%list ->
  is_verbosity a -> is_verbosity b -> (exists w, a = Warnings w) /\ (exists d, b = DebugInfo d).

(** ** Proofs *)
Definition app1 (i : item) (c : settings) : settings :=
  match i with
  | Print => mkS (savename c) (filenames c) true (eospacWarn c)
  | Warnings _ => mkS (savename c) (filenames c) (printMetadata c) Verbose
  | DebugInfo _ => mkS (savename c) (filenames c) (printMetadata c) Debug
  | SaveTo f => mkS f (filenames c) (printMetadata c) (eospacWarn c)
  | Material f => mkS (savename c) (filenames c ++ [f]) (printMetadata c) (eospacWarn c)
  end.
Fixpoint rise (v : Verbosity) (l : list item) : Prop :=
  match l with
  | [] => True
  | Warnings _ :: r => v = Quiet /\ rise Verbose r
  | DebugInfo _ :: r => v <> Debug /\ rise Debug r
  | _ :: r => rise v r
  end.

Lemma neq_eqb : forall a b, a <> b -> String.eqb a b = false.
Proof. intros a b N. now apply String.eqb_neq. Qed.

Lemma options_items : forall l rest c, plain l -> rise (eospacWarn c) l ->
  options (line l ++ rest) c = options rest (fold_left (fun c i => app1 i c) l c).
Proof.
  induction l as [|i l IH]; intros rest c P R; [reflexivity|].
  assert (P' : plain l) by (intros f H; apply P; now right).
  destruct i as [|w|d|f|f]; cbn [line flat_map words] in *; fold (line l) in *; cbn [rise] in R.
  - cbn [app options String.eqb Ascii.eqb Bool.eqb fold_left]. rewrite IH; auto.
  - destruct R as [Q R]. destruct w; cbn [app options String.eqb Ascii.eqb Bool.eqb fold_left orb]; rewrite Q; cbn [veqb andb]; rewrite IH; auto.
  - destruct R as [Q R]. destruct d; cbn [app options String.eqb Ascii.eqb Bool.eqb fold_left orb andb]; destruct (eospacWarn c); try congruence;
      cbn [veqb negb andb]; rewrite IH; auto.
  - cbn [app options String.eqb Ascii.eqb Bool.eqb fold_left orb andb]. rewrite IH; auto.
  - specialize (P f (or_introl eq_refl)). cbn [option_words In] in P.
    cbn [app options fold_left].
    rewrite !neq_eqb by (intro E; apply P; subst; tauto). cbn [orb andb]. rewrite IH; auto.
Qed.

Lemma rising_rise : forall l v, rising l ->
  (forall i, In i l -> is_verbosity i -> v = Quiet \/ (v = Verbose /\ exists d, i = DebugInfo d)) -> rise v l.
Proof.
  induction l as [|i l IH]; intros v R H; [exact I|].
  assert (R' : rising l) by (intros pre a mid b post E; apply (R (i :: pre) a mid b post); cbn; now rewrite E).
  assert (Hl : forall j, In j l -> is_verbosity j -> v = Quiet \/ (v = Verbose /\ exists d, j = DebugInfo d)) by (intros j J; apply H; now right).
  assert (S : is_verbosity i -> forall j, In j l -> is_verbosity j -> (exists w, i = Warnings w) /\ (exists d, j = DebugInfo d)).
  { intros Vi j J Vj. destruct (in_split _ _ J) as (m & p & E). apply (R [] i m j p); auto. cbn. now rewrite E. }
  destruct i as [|w|d|f|f]; cbn [rise]; auto.
  - split.
    + destruct (H (Warnings w) (or_introl eq_refl) I) as [Q|[_ [d D]]]; [exact Q|discriminate].
    + apply IH; auto. intros j J Vj. destruct (S I j J Vj). right. auto.
  - split.
    + destruct (H (DebugInfo d) (or_introl eq_refl) I) as [Q|[Q _]]; subst v; discriminate.
    + apply IH; auto. intros j J Vj. destruct (S I j J Vj) as [[w W] _]. discriminate.
Qed.

Lemma fold_meaning : forall l c, fold_left (fun c i => app1 i c) l c =
  mkS (last (savename c :: saves l) "") (filenames c ++ files l) (printMetadata c || asks_print l)
      (match rev (filter (fun i => match i with Warnings _ | DebugInfo _ => true | _ => false end) l) with
       | [] => eospacWarn c | Warnings _ :: _ => Verbose | _ => Debug end).
Proof.
  induction l as [|i l IH]; intros c; cbn [fold_left].
  - cbn. rewrite app_nil_r, orb_false_r. now destruct c.
  - rewrite IH. clear IH.
    assert (L : forall a b (x : list string), last (a :: b :: x) "" = last (b :: x) "") by reflexivity.
    destruct i as [|w|d|f|f]; cbn [app1 savename filenames printMetadata eospacWarn saves files asks_print flat_map existsb filter app orb];
      fold (saves l) (files l) (asks_print l); rewrite ?orb_true_r; try reflexivity.
    + f_equal. cbn [rev]. destruct (rev (filter _ l)); reflexivity.
    + f_equal. cbn [rev]. destruct (rev (filter _ l)); reflexivity.
    + now rewrite <- app_assoc.
Qed.

Lemma last_cons_default : forall (l : list string) a d, last (a :: l) d = last l a.
Proof. induction l as [|b l IH]; intros; [reflexivity|]. change (last (a :: b :: l) d) with (last (b :: l) d). now rewrite IH, (IH b a). Qed.

Lemma last_verbosity : forall l v, rise v l ->
  (match rev (filter (fun i => match i with Warnings _ | DebugInfo _ => true | _ => false end) l) with
   | [] => v | Warnings _ :: _ => Verbose | _ => Debug end) = (if asks_debug l then Debug else if asks_warnings l then Verbose else v).
Proof.
  intros l. induction l as [|i l IH] using rev_ind; intros v R; [reflexivity|].
  assert (S : forall l v j, rise v (l ++ [j]) -> rise v l).
  { clear. induction l as [|i l IH]; intros v j; [easy|]. cbn [app rise]. destruct i; eauto; intros [? ?]; split; eauto. }
  assert (D : forall l v w, rise v (l ++ [Warnings w]) -> asks_debug l = false).
  { clear. intros l v w. revert v. induction l as [|i l IH]; intros v; [easy|]. cbn [app rise]. unfold asks_debug in *. cbn [existsb].
    assert (Z : forall l, ~ rise Debug (l ++ [Warnings w])).
    { clear. induction l as [|i l IH]; cbn [app rise]; [intros [? _]; discriminate|]. destruct i; auto; intros [? ?]; congruence. }
    destruct i; cbn [orb]; eauto; intros [? ?]; eauto. exfalso. eapply Z; eauto. }
  rewrite filter_app, rev_app_distr. unfold asks_debug, asks_warnings in *. rewrite !existsb_app.
  destruct i as [|w|d|f|f]; cbn [filter rev app existsb]; rewrite ?orb_false_r, ?orb_true_r; try (apply IH; eapply S; eauto); try reflexivity.
  rewrite (D _ _ _ R). reflexivity.
Qed.

Lemma parse_items : forall prog l c0, plain l -> rising l -> eospacWarn c0 = Quiet -> printMetadata c0 = false -> l <> [] ->
  options (line l) (mkS DEFAULT_SAVENAME [] (printMetadata c0) (eospacWarn c0)) = Parsed (meaning l) /\
  (List.length (prog :: line l) <? 2)%nat = false.
Proof.
  intros prog l c0 P R Q M N. rewrite Q, M. split.
  - rewrite <- (app_nil_r (line l)), options_items; auto.
    + cbn [options]. rewrite fold_meaning. cbn [savename filenames printMetadata eospacWarn app orb]. unfold meaning.
      rewrite last_cons_default, last_verbosity; [reflexivity|]. apply rising_rise; auto.
    + apply rising_rise; auto.
  - apply Nat.ltb_ge. destruct l as [|i l]; [congruence|]. destruct i; cbn [line flat_map words app List.length]; lia.
Qed.

Lemma not_help : forall prog l, plain l ->
  ((List.length (prog :: line l) =? 2)%nat && String.eqb (nth 1 (prog :: line l) "") "-h")%bool = false.
Proof.
  intros prog l P. destruct l as [|i l]; [reflexivity|]. destruct i as [|w|d|f|f]; cbn [line flat_map words app nth].
  - rewrite andb_false_r; reflexivity.
  - destruct w; rewrite andb_false_r; reflexivity.
  - destruct d; rewrite andb_false_r; reflexivity.
  - rewrite andb_false_r; reflexivity.
  - specialize (P f (or_introl eq_refl)). rewrite neq_eqb; [now rewrite andb_false_r|]. intro E. apply P. subst. cbn. tauto.
Qed.

(** ** Theorems *)
(** A line in the documented form gives the documented settings, in whatever order options and files stand: every file once and in order,
    the last -s (materials.sp5 without one), metadata if -p, the verbosity asked for. *)
Theorem C93_settings : forall prog l c0, plain l -> rising l -> files l <> [] -> eospacWarn c0 = Quiet -> printMetadata c0 = false ->
  parseCLI (prog :: line l) c0 = Parsed (meaning l).
Proof.
  intros prog l c0 P R F Q M. assert (N : l <> []) by (intros ->; now apply F).
  destruct (parse_items prog l c0 P R Q M N) as [O L]. unfold parseCLI. rewrite L, (not_help prog l P). cbv iota. cbn [tl].
  rewrite O. cbn [filenames meaning]. destruct (files l) as [|f r]; [congruence|]. reflexivity.
Qed.

(** Without a parameter file the program stops with a non-zero exit code before it reads or writes anything. *)
Theorem C93_no_file : forall fs prog l, plain l -> rising l -> files l = [] -> exists s code, main fs (prog :: line l) = Exited s code /\ code <> 0%Z.
Proof.
  intros fs prog l P R F. unfold main, parseCLI. destruct l as [|i l].
  - exists Err, 1%Z. split; [reflexivity|discriminate].
  - set (c0 := mkS "" [] false Quiet). destruct (parse_items prog (i :: l) c0 P R eq_refl eq_refl ltac:(discriminate)) as [O L].
    rewrite L, (not_help prog _ P). cbv iota. cbn [tl]. rewrite O. cbn [filenames meaning]. rewrite F. exists Out, 1%Z. split; [reflexivity|discriminate].
Qed.

(** -h, unless it is the name after -s, prints the help to stdout and exits with 0 before anything is read, whatever follows and however
    often verbosity options stand before it. *)
Theorem C93_help : forall fs prog l rest, plain l -> main fs (prog :: line l ++ "-h" :: rest) = Exited Out 0.
Proof.
  assert (A : forall l rest c, plain l -> options (line l ++ "-h" :: rest) c = Exit Out 0).
  { induction l as [|i l IH]; intros rest c P; [reflexivity|].
    assert (P' : plain l) by (intros f H; apply P; now right).
    destruct i as [|w|d|f|f]; cbn [line flat_map words app options]; fold (line l).
    - cbn [String.eqb Ascii.eqb Bool.eqb]. now apply IH.
    - destruct w; cbn [String.eqb Ascii.eqb Bool.eqb orb]; destruct (eospacWarn c); cbn [veqb andb negb]; now apply IH.
    - destruct d; cbn [String.eqb Ascii.eqb Bool.eqb orb andb]; destruct (eospacWarn c); cbn [veqb andb negb]; now apply IH.
    - cbn [String.eqb Ascii.eqb Bool.eqb orb andb]. now apply IH.
    - specialize (P f (or_introl eq_refl)). cbn [option_words In] in P.
      rewrite !neq_eqb by (intro E; apply P; subst; tauto). cbn [orb andb]. now apply IH. }
  intros fs prog l rest P. unfold main, parseCLI.
  assert (L : (List.length (prog :: line l ++ "-h" :: rest) <? 2)%nat = false).
  { apply Nat.ltb_ge. cbn [List.length]. rewrite app_length. cbn [List.length]. lia. }
  rewrite L. destruct (_ && _)%bool; [reflexivity|]. cbn [tl]. rewrite A; auto.
Qed.

(** Every command line whatsoever: nothing is dropped or invented. If the program goes on, the line splits into options and files as
    documented, except that a file may be spelled like a verbosity option when such an option stands before it. *)
Theorem C93_every_line : forall prog args c0 c, parseCLI (prog :: args) c0 = Parsed c -> exists l, args = line l /\ files l <> [] /\
  filenames c = files l /\ savename c = last (saves l) "materials.sp5" /\ printMetadata c = (printMetadata c0 || asks_print l)%bool /\
  (forall pre f post, l = (pre ++ Material f :: post)%list -> In f option_words ->
     In f ["-w"; "-v"; "-vv"; "-d"] /\ (eospacWarn c0 <> Quiet \/ exists i, In i pre /\ is_verbosity i)).
Proof.
  assert (A : forall n args c c', (List.length args <= n)%nat -> options args c = Parsed c' -> exists l, args = line l /\
    c' = fold_left (fun c i => app1 i c) l c /\
    (forall pre f post, l = (pre ++ Material f :: post)%list -> In f option_words ->
       In f ["-w"; "-v"; "-vv"; "-d"] /\ (eospacWarn c <> Quiet \/ exists i, In i pre /\ is_verbosity i))).
  { assert (K : forall n i rest c c', (forall args c c', (List.length args <= n)%nat -> options args c = Parsed c' -> exists l, args = line l /\
        c' = fold_left (fun c i => app1 i c) l c /\
        (forall pre f post, l = (pre ++ Material f :: post)%list -> In f option_words ->
           In f ["-w"; "-v"; "-vv"; "-d"] /\ (eospacWarn c <> Quiet \/ exists i, In i pre /\ is_verbosity i))) ->
      (List.length rest <= n)%nat -> options rest (app1 i c) = Parsed c' -> (is_verbosity i \/ eospacWarn (app1 i c) = eospacWarn c) ->
      (forall f, i = Material f -> In f option_words -> In f ["-w"; "-v"; "-vv"; "-d"] /\ eospacWarn c <> Quiet) ->
      exists l, (words i ++ rest)%list = line l /\ c' = fold_left (fun c i => app1 i c) l c /\
        (forall pre f post, l = (pre ++ Material f :: post)%list -> In f option_words ->
           In f ["-w"; "-v"; "-vv"; "-d"] /\ (eospacWarn c <> Quiet \/ exists i, In i pre /\ is_verbosity i))).
    { intros n i rest c c' IH L O V F. destruct (IH _ _ _ L O) as (l & E & C & H). exists (i :: l). split; [|split].
      - cbn [line flat_map]. fold (line l). now rewrite E.
      - cbn [fold_left]. exact C.
      - intros pre f post EL I. destruct pre as [|j pre]; cbn [app] in EL; injection EL as Ei El.
        + destruct (F f Ei I). split; auto.
        + subst j. destruct (H pre f post El I) as [W X]. split; [exact W|]. destruct V as [V|V].
          * right. exists i. split; [now left|exact V].
          * rewrite V in X. destruct X as [X|(j & J & Vj)]; [now left|]. right. exists j. split; [now right|exact Vj]. }
    induction n as [|n IH]; intros args c c' L O.
    - destruct args; [|cbn in L; lia]. exists []. cbn in O. injection O as <-. split; [reflexivity|split; [reflexivity|]]. intros [|? ?]; discriminate.
    - destruct args as [|a rest].
      { exists []. cbn in O. injection O as <-. split; [reflexivity|split; [reflexivity|]]. intros [|? ?]; discriminate. }
      cbn [List.length] in L. assert (L' : (List.length rest <= n)%nat) by lia.
      cbn [options] in O.
      destruct (String.eqb_spec a "-h") as [->|Nh]; [discriminate|].
      destruct (String.eqb_spec a "-p") as [->|Np].
      { apply (K n Print rest c c' IH L' O); [now right|discriminate]. }
      destruct (String.eqb_spec a "-w") as [->|Nw]; [|destruct (String.eqb_spec a "-v") as [->|Nv]].
      { cbn [orb andb String.eqb Ascii.eqb Bool.eqb] in O. destruct (veqb (eospacWarn c) Quiet) eqn:Q.
        - apply (K n (Warnings true) rest c c' IH L' O); [now left|discriminate].
        - apply (K n (Material "-w") rest c c' IH L' O); [now right|]. intros f [= <-] _. split; [cbn; tauto|]. intro E. rewrite E in Q. discriminate. }
      { cbn [orb andb String.eqb Ascii.eqb Bool.eqb] in O. destruct (veqb (eospacWarn c) Quiet) eqn:Q.
        - apply (K n (Warnings false) rest c c' IH L' O); [now left|discriminate].
        - apply (K n (Material "-v") rest c c' IH L' O); [now right|]. intros f [= <-] _. split; [cbn; tauto|]. intro E. rewrite E in Q. discriminate. }
      cbn [orb andb] in O.
      destruct (String.eqb_spec a "-d") as [->|Nd]; [|destruct (String.eqb_spec a "-vv") as [->|Nvv]].
      { cbn [orb andb String.eqb Ascii.eqb Bool.eqb] in O. destruct (veqb (eospacWarn c) Debug) eqn:Q; cbn [negb] in O.
        - apply (K n (Material "-d") rest c c' IH L' O); [now right|]. intros f [= <-] _. split; [cbn; tauto|]. intro E. rewrite E in Q. discriminate.
        - apply (K n (DebugInfo true) rest c c' IH L' O); [now left|discriminate]. }
      { cbn [orb andb String.eqb Ascii.eqb Bool.eqb] in O. destruct (veqb (eospacWarn c) Debug) eqn:Q; cbn [negb] in O.
        - apply (K n (Material "-vv") rest c c' IH L' O); [now right|]. intros f [= <-] _. split; [cbn; tauto|]. intro E. rewrite E in Q. discriminate.
        - apply (K n (DebugInfo false) rest c c' IH L' O); [now left|discriminate]. }
      cbn [orb andb] in O.
      destruct (String.eqb_spec a "-s") as [->|Ns].
      { destruct rest as [|s rest]; [discriminate|]. cbn [List.length] in L'.
        apply (K n (SaveTo s) rest c c' IH); [lia|exact O|now right|discriminate]. }
      apply (K n (Material a) rest c c' IH L' O); [now right|]. intros f [= <-] I. exfalso. cbn in I. intuition congruence. }
  intros prog args c0 c H. unfold parseCLI in H.
  destruct (_ <? 2)%nat; [discriminate|]. destruct (_ && _)%bool; [discriminate|]. cbn [tl] in H.
  destruct (options args _) as [c1| |] eqn:O; [|discriminate|discriminate].
  destruct (A (List.length args) _ _ _ (le_n _) O) as (l & E & C & F). rewrite fold_meaning in C. cbn [savename filenames printMetadata eospacWarn app] in C.
  destruct (List.length (filenames c1) <? 1)%nat eqn:Z; [discriminate|]. injection H as <-. subst c1. exists l. cbn [filenames savename printMetadata] in *.
  split; [exact E|]. split; [intros X; rewrite X in Z; discriminate|]. split; [reflexivity|]. split; [unfold DEFAULT_SAVENAME; apply last_cons_default|].
  split; [reflexivity|]. exact F.
Qed.

(** The program reads exactly the files named, in order (an unreadable one ends it), and only then opens the output file. *)
Theorem C93_reads_files : forall fs prog l, plain l -> rising l -> files l <> [] ->
  (forall c a, main fs (prog :: line l) = Ready c a <-> c = meaning l /\
     exists texts, map fs (files l) = map Some texts /\ parse_files ([], []) texts = Some a) /\
  (main fs (prog :: line l) = Terminated <-> forall texts a, map fs (files l) = map Some texts -> parse_files ([], []) texts <> Some a).
Proof.
  assert (G : forall fs fl a0 a, AddAll fs fl a0 = Some a <-> exists texts, map fs fl = map Some texts /\ parse_files a0 texts = Some a).
  { induction fl as [|f fl IH]; intros a0 a.
    - split; [intros H; exists []; split; [reflexivity|exact H]|]. intros (t & E & H). destruct t; [exact H|discriminate].
    - cbn [AddAll map]. destruct (fs f) as [t|] eqn:E.
      + destruct (parse_file a0 t) as [a1|] eqn:Q.
        * rewrite IH. split.
          -- intros (ts & M & H). exists (t :: ts). split; [cbn; now rewrite M|]. cbn. now rewrite Q.
          -- intros (ts & M & H). destruct ts as [|t' ts]; [discriminate|]. cbn in M. injection M as <- M. exists ts. split; [exact M|]. cbn in H. now rewrite Q in H.
        * split; [discriminate|]. intros (ts & M & H). destruct ts as [|t' ts]; [discriminate|]. cbn in M. injection M as <- M. cbn in H. now rewrite Q in H.
      + split; [discriminate|]. intros (ts & M & H). destruct ts as [|t' ts]; discriminate. }
  intros fs prog l P R F. unfold main. rewrite C93_settings by auto. cbn [filenames meaning].
  destruct (AddAll fs (files l) ([], [])) as [a1|] eqn:E.
  - split.
    + intros c a. split.
      * intros [= <- <-]. split; [reflexivity|]. now apply G.
      * intros [-> H]. apply G in H. congruence.
    + split; [discriminate|]. intros H. apply G in E. destruct E as (t & M & Q). exfalso. now apply (H t a1).
  - split.
    + intros c a. split; [discriminate|]. intros [-> H]. apply G in H. congruence.
    + split; [|reflexivity]. intros _ t a M Q. assert (X : AddAll fs (files l) ([], []) = Some a) by (apply G; now exists t). congruence.
Qed.

(** A line that meets the hypotheses: files before, between and after options *)
Example C93_nonvacuous : plain [Material "air.dat"; Warnings true; SaveTo "a.sp5"; Material "-x.dat"; DebugInfo false; Print; SaveTo "-h"] /\
  rising [Material "air.dat"; Warnings true; SaveTo "a.sp5"; Material "-x.dat"; DebugInfo false; Print; SaveTo "-h"] /\
  parseCLI ["sesame2spiner"; "air.dat"; "-w"; "-s"; "a.sp5"; "-x.dat"; "-vv"; "-p"; "-s"; "-h"] (mkS "" [] false Quiet) =
    Parsed (mkS "-h" ["air.dat"; "-x.dat"] true Debug).
Proof.
  split; [|split].
  - intros f H I. cbn in H, I. intuition congruence.
  - intros pre a mid b post E A B.
    set (v := fun i => match i with Warnings _ | DebugInfo _ => true | _ => false end).
    assert (Va : v a = true) by (destruct a; try contradiction; reflexivity). assert (Vb : v b = true) by (destruct b; try contradiction; reflexivity).
    apply (f_equal (filter v)) in E. rewrite filter_app in E. cbn [filter] in E. rewrite Va in E. rewrite filter_app in E. cbn [filter] in E. rewrite Vb in E.
    cbn in E. destruct (filter v pre) as [|x1 [|x2 l]]; cbn in E.
    + injection E as <- E. destruct (filter v mid) as [|y l]; cbn in E; injection E as <- E; [eauto|]. now destruct l.
    + injection E as _ <- E. now destruct (filter v mid).
    + injection E as _ _ E. now destruct l.
  - reflexivity.
Qed.

(** ** C94: every occurrence of a documented option acts as that option, and every line is accepted or refused with an exit code *)
Definition good_file : list string := ["matid = 5030"].
Definition one_file : string -> option (list string) := fun f => if String.eqb f "air.dat" then Some good_file else None.

(** A verbosity option given twice (or -v after -vv) is taken as a parameter file: the program dies of a missing file "-v", although without
    the repetition it does its work. *)
Theorem C94_repeated_verbosity_refuted : exists fs c a,
  main fs ["sesame2spiner"; "-v"; "air.dat"] = Ready c a /\ main fs ["sesame2spiner"; "-vv"; "air.dat"] = Ready (mkS (savename c) (filenames c) false Debug) a /\
  main fs ["sesame2spiner"; "-v"; "-v"; "air.dat"] = Terminated /\ main fs ["sesame2spiner"; "-v"; "-w"; "air.dat"] = Terminated /\
  main fs ["sesame2spiner"; "-vv"; "-v"; "air.dat"] = Terminated /\ main fs ["sesame2spiner"; "-d"; "-vv"; "air.dat"] = Terminated.
Proof.
  exists one_file. eexists. eexists. split; [vm_compute; reflexivity|]. vm_compute. auto 10.
Qed.

(** -s as the last word makes a std::string from a null pointer: undefined behaviour instead of the help text. *)
Theorem C94_save_without_name_refuted : forall fs prog l, plain l -> rising l -> main fs (prog :: line l ++ ["-s"]) = Undefined.
Proof.
  intros fs prog l P R. unfold main, parseCLI.
  assert (L : (List.length (prog :: line l ++ ["-s"]) <? 2)%nat = false).
  { apply Nat.ltb_ge. cbn [List.length]. rewrite app_length. cbn [List.length]. lia. }
  assert (H : ((List.length (prog :: line l ++ ["-s"]) =? 2)%nat && String.eqb (nth 1 (prog :: line l ++ ["-s"]) "") "-h")%bool = false).
  { pose proof (not_help prog l P) as N. destruct l as [|i l]; [reflexivity|].
    assert (E : exists w r, line (i :: l) = w :: r) by (destruct i; cbn [line flat_map words app]; eauto).
    destruct E as (w & r & E). rewrite E in N |- *. cbn [app nth List.length] in N |- *. rewrite app_length. cbn [List.length].
    replace (S (S (List.length r + 1)) =? 2)%nat with false; [reflexivity|]. symmetry. apply Nat.eqb_neq. lia. }
  rewrite L, H. cbv iota. cbn [tl]. rewrite options_items; auto. apply rising_rise; auto.
Qed.
Print Assumptions C93_settings.
Print Assumptions C93_no_file.
Print Assumptions C93_help.
Print Assumptions C93_every_line.
Print Assumptions C93_reads_files.
Print Assumptions C94_repeated_verbosity_refuted.
Print Assumptions C94_save_without_name_refuted.
