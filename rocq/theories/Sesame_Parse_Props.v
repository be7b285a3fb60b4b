(** Property theorems C73: sesame2spiner's input files. *)
From Coq Require Import ZArith List Bool Ascii String Lia.
From Verif Require Import Sesame_Model Sesame_Spec.
Import ListNotations.
Open Scope string_scope.

Lemma las_inj a b : list_ascii_of_string a = list_ascii_of_string b -> a = b.
Proof. intros H. rewrite <- (string_of_list_ascii_of_string a), <- (string_of_list_ascii_of_string b), H. reflexivity. Qed.
Lemma isspace_white c : isspace c = existsb (Nat.eqb (nat_of_ascii c)) white.
Proof.
  unfold isspace, white. cbn [existsb]. generalize (nat_of_ascii c). intros n.
  destruct (Nat.eqb_spec n 32); [reflexivity|]. cbn [orb].
  destruct (Nat.eqb_spec n 9); [subst; reflexivity|]. destruct (Nat.eqb_spec n 10); [subst; reflexivity|].
  destruct (Nat.eqb_spec n 11); [subst; reflexivity|]. destruct (Nat.eqb_spec n 12); [subst; reflexivity|].
  destruct (Nat.eqb_spec n 13); [subst; reflexivity|]. cbn [orb].
  destruct (Nat.leb_spec 9 n), (Nat.leb_spec n 13); cbn [andb]; try reflexivity; exfalso; lia.
Qed.
Lemma strip_letters s : list_ascii_of_string (strip s) = letters s.
Proof.
  unfold letters. induction s as [|c r IH]; [reflexivity|]. cbn [strip list_ascii_of_string filter].
  rewrite <- isspace_white. destruct (isspace c); cbn [negb list_ascii_of_string]; [exact IH|rewrite IH; reflexivity].
Qed.
Lemma strip_is s t : letters s = list_ascii_of_string t -> strip s = t.
Proof. intros H. apply las_inj. rewrite strip_letters. exact H. Qed.

Lemma find_app c k r : free c k -> find c (k ++ String c r) = Some (String.length k).
Proof.
  intros H. induction k as [|d k IH]; cbn.
  - rewrite Ascii.eqb_refl. reflexivity.
  - destruct (Ascii.eqb_spec d c) as [E|E]; [exfalso; apply H; left; exact E|].
    rewrite IH by (intros I; apply H; right; exact I). reflexivity.
Qed.
Lemma find_none c k : free c k -> find c k = None.
Proof.
  intros H. induction k as [|d k IH]; cbn; [reflexivity|].
  destruct (Ascii.eqb_spec d c) as [E|E]; [exfalso; apply H; left; exact E|].
  rewrite IH by (intros I; apply H; right; exact I). reflexivity.
Qed.
Lemma take_app k r : take (String.length k) (k ++ r) = k.
Proof. induction k as [|d k IH]; cbn; [destruct r; reflexivity|rewrite IH; reflexivity]. Qed.
Lemma drop_app k c r : drop (S (String.length k)) (k ++ String c r) = r.
Proof. induction k as [|d k IH]; cbn; [destruct r; reflexivity|exact IH]. Qed.

(** what one line does *)
Definition on_item (st : Params * acc_t) (it : item) : option (Params * acc_t) :=
  match it with
  | Nothing => Some st
  | Header n => match flush (fst st) (snd st) with Some a' => Some ([("name", n)], a') | None => None end
  | Setting k v => Some ((k, v) :: fst st, snd st)
  end.
Lemma parse_line_says line it st : says line it -> parse_line st line = on_item st it.
Proof.
  destruct st as [p a]. destruct it as [|n|k v]; cbn [says on_item fst snd].
  - intros [H|[r H]].
    + unfold parse_line. rewrite (strip_is line "" H). reflexivity.
    + unfold parse_line. rewrite (strip_is _ _ H). reflexivity.
  - intros (r & F & H). apply strip_is in H. unfold parse_line. rewrite H. cbn [append].
    change (Ascii.eqb "<" "#") with false. change (Ascii.eqb "<" "<") with true. cbv iota.
    assert (Ef : find ">" (String "<" (n ++ String ">" r)) = Some (S (String.length n))).
    { cbn [find]. change (Ascii.eqb "<" ">") with false. cbv iota. rewrite find_app by exact F. reflexivity. }
    rewrite Ef. cbn [Nat.sub]. rewrite Nat.sub_0_r. cbn [drop].
    rewrite take_app. reflexivity.
  - intros (F1 & F2 & Fk & r & Hr & H). apply strip_is in H. unfold parse_line. rewrite H.
    assert (Hkey : key_of (k ++ "=" ++ v ++ r) = k).
    { unfold key_of. cbn [append]. rewrite find_app by exact F1. apply take_app. }
    assert (Hval : value_of (k ++ "=" ++ v ++ r) = v ++ r).
    { unfold value_of. cbn [append]. rewrite find_app by exact F1. apply drop_app. }
    assert (Hcut : cut_comment (v ++ r) = v).
    { unfold cut_comment. destruct Hr as [->|[r' ->]].
      - assert (Ev : v ++ "" = v) by (clear; induction v as [|c v IH]; cbn; [reflexivity|rewrite IH; reflexivity]).
        rewrite Ev, find_none by exact F2. reflexivity.
      - cbn [append]. rewrite find_app by exact F2. apply take_app. }
    rewrite Hkey, Hval, Hcut. destruct k as [|c k']; cbn [append].
    + reflexivity.
    + destruct (Fk c k' eq_refl) as [N1 N2].
      rewrite (proj2 (Ascii.eqb_neq c "#") N1), (proj2 (Ascii.eqb_neq c "<") N2). reflexivity.
Qed.
Fixpoint on_items (st : Params * acc_t) (its : list item) : option (Params * acc_t) :=
  match its with [] => Some st | it :: r => match on_item st it with Some st' => on_items st' r | None => None end end.
Lemma parse_lines_says lines items : Forall2 says lines items -> forall st, parse_lines st lines = on_items st (filter meaningful items).
Proof.
  induction 1 as [|l it ls its H _ IH]; intros st; [reflexivity|]. cbn [parse_lines filter]. rewrite (parse_line_says l it st H).
  destruct it; cbn [meaningful on_item on_items].
  - apply IH.
  - destruct (flush (fst st) (snd st)); [apply IH|reflexivity].
  - apply IH.
Qed.
Lemma on_items_settings s p a rest : on_items (p, a) (map (fun kv => Setting (fst kv) (snd kv)) s ++ rest)%list = on_items ((rev s ++ p)%list, a) rest.
Proof.
  revert p. induction s as [|[k v] s IH]; intros p; [reflexivity|]. cbn [map app on_items on_item fst snd].
  rewrite IH. cbn [rev]. rewrite <- app_assoc. reflexivity.
Qed.
Lemma pget_app k a b : pget k (a ++ b)%list = match pget k a with Some v => Some v | None => pget k b end.
Proof. induction a as [|[k' v] a IH]; cbn; [reflexivity|]. destruct (String.eqb k k'); [reflexivity|exact IH]. Qed.
Lemma holds_rev s : holds (rev s) s.
Proof.
  intros k. unfold last_setting.
  cut (forall o, match pget k (rev s) with Some v => Some v | None => o end =
         fold_left (fun acc kv => if String.eqb k (fst kv) then Some (snd kv) else acc) s o).
  { intros H. rewrite <- H. destruct (pget k (rev s)); reflexivity. }
  induction s as [|[k' v] s IH]; intros o; [reflexivity|]. cbn [rev fold_left fst snd]. rewrite pget_app. cbn [pget].
  rewrite <- IH. destruct (pget k (rev s)); [reflexivity|]. destruct (String.eqb k k'); reflexivity.
Qed.

(** ** C73 *)
(** the sections of a file: settings before the first header, if any, are a section of their own *)
Definition file_sections (pre : section) (secs : list (string * section)) : list section :=
  ((match pre with [] => [] | _ => [pre] end) ++ map (fun ns => ("name", fst ns) :: snd ns) secs)%list.
Definition numbered (s : section) (z : Z) : Prop := exists v, last_setting "matid" s = Some v /\ stoi v = Some z.

Lemma flush_rev s a : flush (rev s) a =
  match s with [] => Some a | _ => match last_setting "matid" s with None => None | Some v =>
    match stoi v with Some z => Some ((fst a ++ [rev s])%list, (snd a ++ [z])%list) | None => None end end end.
Proof.
  destruct s as [|kv s]; [reflexivity|]. unfold flush, add_param. rewrite <- (holds_rev (kv :: s) "matid").
  destruct (rev (kv :: s)) as [|x y] eqn:E; [|reflexivity].
  exfalso. assert (L := f_equal (@List.length _) E). rewrite rev_length in L. discriminate L.
Qed.
Definition step (o : option acc_t) (s : section) : option acc_t := match o with None => None | Some a => flush (rev s) a end.
Lemma step_none l : fold_left step l None = None.
Proof. induction l; [reflexivity|assumption]. Qed.
Definition one (cur : section) : list section := match cur with [] => [] | _ => [cur] end.
Lemma run_sections cur secs a : (forall st, on_items st [] = Some st) ->
  match on_items (rev cur, a) (flat_map section_items secs) with Some (p, a') => flush p a' | None => None end =
  fold_left step (one cur ++ map (fun ns => ("name", fst ns) :: snd ns) secs)%list (Some a).
Proof.
  intros _. revert cur a. induction secs as [|[n s] secs IH]; intros cur a.
  - cbn [flat_map on_items map]. rewrite app_nil_r. destruct cur; reflexivity.
  - cbn [flat_map section_items fst snd app on_items on_item map].
    assert (G : fold_left step (one cur) (Some a) = flush (rev cur) a)
      by (destruct cur; reflexivity).
    rewrite fold_left_app. rewrite G. destruct (flush (rev cur) a) as [a'|].
    + rewrite on_items_settings. change (rev s ++ [("name", n)])%list with (rev (("name", n) :: s)). rewrite IH. reflexivity.
    + symmetry. cbn [fold_left step]. apply step_none.
Qed.
Lemma parse_eq lines items pre secs a : Forall2 says lines items ->
  filter meaningful items = (map (fun kv => Setting (fst kv) (snd kv)) pre ++ flat_map section_items secs)%list ->
  parse_file a lines = fold_left step (file_sections pre secs) (Some a).
Proof.
  intros H E. unfold parse_file. rewrite (parse_lines_says _ _ H), E, on_items_settings, app_nil_r.
  rewrite (run_sections pre secs a (fun st => eq_refl)). unfold file_sections, one. destruct pre; reflexivity.
Qed.
Lemma nonempty_sections pre secs s : In s (file_sections pre secs) -> s <> [].
Proof.
  unfold file_sections. rewrite in_app_iff, in_map_iff. intros [H|[[n x] [<- _]]]; [|discriminate].
  destruct pre; [destruct H|]. destruct H as [<-|[]]. discriminate.
Qed.

(** Every file that says a list of sections gives one material per section, in order, with the section's number and, for every key, its last
    setting; comments, blank lines and white space do not matter; materials already read are kept. *)
Theorem C73_parse : forall lines items pre secs ids a,
  Forall2 says lines items ->
  filter meaningful items = (map (fun kv => Setting (fst kv) (snd kv)) pre ++ flat_map section_items secs)%list ->
  Forall2 numbered (file_sections pre secs) ids ->
  exists ps, parse_file a lines = Some ((fst a ++ ps)%list, (snd a ++ ids)%list) /\ Forall2 holds ps (file_sections pre secs).
Proof.
  intros lines items pre secs ids a H E N. rewrite (parse_eq _ _ _ _ _ H E).
  assert (NE := nonempty_sections pre secs). revert a. induction N as [|s z ss zs Hs _ IH]; intros a.
  - exists []. cbn. rewrite !app_nil_r. destruct a. split; [reflexivity|constructor].
  - cbn [fold_left step]. rewrite flush_rev. destruct Hs as (v & E1 & E2). rewrite E1, E2.
    destruct s as [|kv s]; [exfalso; apply (NE [] (or_introl eq_refl)); reflexivity|].
    destruct (IH (fun x I => NE x (or_intror I)) ((fst a ++ [rev (kv :: s)])%list, (snd a ++ [z])%list)) as (ps & Q1 & Q2).
    exists (rev (kv :: s) :: ps). split; [refine (eq_trans Q1 _); cbn [fst snd]; rewrite <- !app_assoc; reflexivity|].
    constructor; [apply holds_rev|exact Q2].
Qed.
(** A section without an integer matid is refused. *)
Theorem C73_refuses : forall lines items pre secs a s,
  Forall2 says lines items ->
  filter meaningful items = (map (fun kv => Setting (fst kv) (snd kv)) pre ++ flat_map section_items secs)%list ->
  In s (file_sections pre secs) -> (forall z, ~ numbered s z) -> parse_file a lines = None.
Proof.
  intros lines items pre secs a s H E I N. rewrite (parse_eq _ _ _ _ _ H E).
  assert (NE := nonempty_sections pre secs). revert a. induction (file_sections pre secs) as [|x r IH]; [destruct I|]. intros a.
  cbn [fold_left step]. rewrite flush_rev. destruct x as [|kv x]; [exfalso; apply (NE [] (or_introl eq_refl)); reflexivity|].
  destruct I as [<-|I].
  - destruct (last_setting "matid" (kv :: x)) as [v|] eqn:Ev; [|apply step_none].
    destruct (stoi v) as [z|] eqn:Ez; [|apply step_none]. exfalso. apply (N z). exists v. split; assumption.
  - destruct (last_setting "matid" (kv :: x)) as [v|]; [|apply step_none]. destruct (stoi v) as [z|]; [|apply step_none].
    apply (IH I (fun y J => NE y (or_intror J))).
Qed.
(** Several files: the materials of the first, then those of the second, and so on. *)
Theorem C73_files : forall files contents,
  Forall2 (fun f c => exists items pre secs, Forall2 says f items /\
     filter meaningful items = (map (fun kv => Setting (fst kv) (snd kv)) pre ++ flat_map section_items secs)%list /\
     Forall2 numbered (file_sections pre secs) (snd c) /\ fst c = file_sections pre secs) files contents ->
  exists ps, parse_files ([], []) files = Some (ps, List.concat (map snd contents)) /\ Forall2 holds ps (List.concat (map fst contents)).
Proof.
  intros files contents H.
  cut (forall a, exists ps, parse_files a files = Some ((fst a ++ ps)%list, (snd a ++ List.concat (map snd contents))%list) /\
     Forall2 holds ps (List.concat (map fst contents))); [intros K; apply (K ([], []))|].
  induction H as [|f c fs cs (items & pre & secs & H1 & H2 & H3 & H4) _ IH]; intros a.
  - exists []. cbn. rewrite !app_nil_r. destruct a. split; [reflexivity|constructor].
  - destruct (C73_parse f items pre secs (snd c) a H1 H2 H3) as (ps & Q1 & Q2). cbn [parse_files]. rewrite Q1.
    destruct (IH ((fst a ++ ps)%list, (snd a ++ snd c)%list)) as (ps' & Q3 & Q4). exists (ps ++ ps')%list. rewrite Q3.
    cbn [fst snd map List.concat]. rewrite <- !app_assoc. split; [reflexivity|]. rewrite H4. apply Forall2_app; assumption.
Qed.
(** An unclosed header is refused. *)
Theorem C73_unclosed_header : forall line st, (exists r, free ">" r /\ letters line = list_ascii_of_string ("<" ++ r)) -> parse_line st line = None.
Proof.
  intros line [p a] (r & F & H). unfold parse_line. rewrite (strip_is _ _ H). cbn [append].
  change (Ascii.eqb "<" "#") with false. change (Ascii.eqb "<" "<") with true. cbv iota.
  cbn [find]. change (Ascii.eqb "<" ">") with false. cbv iota. rewrite find_none by exact F. reflexivity.
Qed.

(** Settings as users read them: yes/no values, and the default of a setting that is not given. *)
Theorem C73_values : forall p k,
  (forall d, GetB p k d = match pget k p with None => Some d | Some v =>
     if existsb (String.eqb v) ["true"; "1"] then Some true else if existsb (String.eqb v) ["false"; "0"] then Some false else None end) /\
  (forall d, pget k p = None -> GetS p k d = d /\ GetB p k true = Some true /\ GetB p k false = Some false) /\
  (forall d, pget k p = None -> GetI p k d = Some d) /\
  (forall v d, pget k p = Some v -> GetS p k d = v) /\
  (forall d, (pget k p = Some "true" \/ pget k p = Some "1" -> GetB p k d = Some true) /\ (pget k p = Some "false" \/ pget k p = Some "0" -> GetB p k d = Some false)).
Proof.
  intros p k. unfold GetB, GetS, GetI, stob. cbn [existsb]. repeat split.
  - intros d. destruct (pget k p) as [v|]; [|reflexivity]. rewrite !orb_false_r. reflexivity.
  - rewrite H. reflexivity.
  - rewrite H. reflexivity.
  - rewrite H. reflexivity.
  - intros d H. rewrite H. reflexivity.
  - intros v d H. rewrite H. reflexivity.
  - intros [H|H]; rewrite H; reflexivity.
  - intros [H|H]; rewrite H; reflexivity.
Qed.

Example C73_example :
  parse_file ([], []) ["# air"; " < air > "; "matid = 5030 # comment"; ""; "rhomin = 1e-2"; "rhomin=1e-3"; "<steel>"; "matid=4272"] =
  Some ([[("rhomin", "1e-3"); ("rhomin", "1e-2"); ("matid", "5030"); ("name", "air")]; [("matid", "4272"); ("name", "steel")]], [5030%Z; 4272%Z]).
Proof. vm_compute. reflexivity. Qed.
Example C73_example_says : Forall2 says ["# air"; " < air > "; "matid = 5030 # comment"; ""] [Nothing; Header "air"; Setting "matid" "5030"; Nothing].
Proof.
  constructor; [right; exists "air"; reflexivity|]. constructor; [exists ""; split; [intros I; cbn in I; intuition discriminate|reflexivity]|].
  constructor; [|constructor; [left; reflexivity|constructor]].
  cbn [says]. split; [intros I; cbn in I; intuition discriminate|]. split; [intros I; cbn in I; intuition discriminate|].
  split; [intros c r E; injection E as <- _; split; discriminate|].
  exists "#comment". split; [right; exists "comment"; reflexivity|reflexivity].
Qed.
Print Assumptions C73_parse.
Print Assumptions C73_refuses.
Print Assumptions C73_files.
Print Assumptions C73_unclosed_header.
Print Assumptions C73_values.
