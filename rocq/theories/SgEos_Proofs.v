(** Lemmas for SgEos_Props. *)
From Coq Require Import ZArith Reals Bool List Lia Lra Permutation FunctionalExtensionality.
From Flocq Require Import Core.
From Verif Require Import Arith Robust_Model RootFinding_Model PTE_Driver_Model PTE_Model PTE_Tools SgEos_Model.
Import ListNotations.
Local Open Scope R_scope.

Lemma run_body_app p q x : run_body (p ++ q) x = run_body q (run_body p x).
Proof. unfold run_body. apply fold_left_app. Qed.

(** ** The parallel loop, for any body *)
Section Schedule.
Variable offsets : nat -> nat.
Variable ncell : nat.
Variable b : list phase.
Variable c0 : nat -> cell.
Notation cof := (cell_of offsets).
Hypothesis inj : forall j k, (j < ncell)%nat -> (k < ncell)%nat -> cof j = cof k -> j = k.

Definition from_start (pre : list phase) (k : nat) (x : cell * row * loc) : Prop :=
  exists r0, run_body pre (c0 (cof k), r0, loc0) = x.
Record minv (m : machine) : Prop := {
  mi_perm : Permutation (seq 0 ncell) (m_todo m ++ map ru_k (m_run m) ++ m_done m);
  mi_tids : NoDup (map ru_tid (m_run m));
  mi_run : forall x, In x (m_run m) -> exists pre, b = pre ++ ru_todo x /\
             from_start pre (ru_k x) (m_cells m (cof (ru_k x)), m_rows m (ru_tid x), ru_loc x);
  mi_todo : forall k, In k (m_todo m) -> m_cells m (cof k) = c0 (cof k);
  mi_done : forall k, In k (m_done m) -> exists r l, from_start b k (m_cells m (cof k), r, l);
  mi_other : forall i, (forall k, (k < ncell)%nat -> cof k <> i) -> m_cells m i = c0 i
}.
Lemma minv_initial rw : minv (initial ncell c0 rw).
Proof.
  constructor; cbn; try tauto.
  - rewrite app_nil_r. reflexivity.
  - constructor.
Qed.
Lemma perm_lt m k : minv m -> In k (m_todo m) \/ In k (map ru_k (m_run m)) \/ In k (m_done m) -> (k < ncell)%nat.
Proof.
  intros H Hin. assert (In k (seq 0 ncell)) as Hs.
  { eapply Permutation_in; [apply Permutation_sym, (mi_perm _ H)|]. rewrite !in_app_iff. tauto. }
  apply in_seq in Hs. lia.
Qed.
Lemma put_same {X} (a : nat -> X) i x : put a i x i = x. Proof. unfold put. rewrite Nat.eqb_refl. reflexivity. Qed.
Lemma put_other {X} (a : nat -> X) i k x : k <> i -> put a i x k = a k. Proof. unfold put. destruct (Nat.eqb_spec k i); [contradiction|reflexivity]. Qed.
Lemma minv_step m m' : minv m -> mstep offsets b m m' -> minv m'.
Proof.
  intros H S. assert (NoDup (m_todo m ++ map ru_k (m_run m) ++ m_done m)) as HN.
  { eapply Permutation_NoDup; [apply (mi_perm _ H)|apply seq_NoDup]. }
  pose proof (perm_lt m) as HL. destruct H as [HP HT HR HTo HD HO]. destruct S as [c rw td1 k td2 rn dn t Ht|c rw td rn1 k t f fs l rn2 dn c' r' l' E|c rw td rn1 k t l rn2 dn]; cbn [m_cells m_rows m_todo m_run m_done] in *.
  - constructor; cbn [m_cells m_rows m_todo m_run m_done map ru_k ru_tid].
    + rewrite HP, <- !app_assoc. apply Permutation_app_head. cbn [app].
      apply Permutation_middle.
    + constructor; [|exact HT]. intros Hin. apply in_map_iff in Hin. destruct Hin as (x & <- & Hx). apply (Ht x Hx). reflexivity.
    + intros x [<-|Hx]; [|apply HR; exact Hx]. cbn [ru_k ru_tid ru_todo ru_loc]. exists []. split; [reflexivity|]. exists (rw t). cbn.
      rewrite HTo; [reflexivity|]. rewrite in_app_iff. right. left. reflexivity.
    + intros j Hj. apply HTo. rewrite in_app_iff in *. cbn. tauto.
    + exact HD.
    + exact HO.
  - rewrite map_app in *. cbn [map ru_k ru_tid] in *.
    assert (k < ncell)%nat as Hk. { apply HL; [constructor; cbn [m_cells m_rows m_todo m_run m_done]; rewrite ?map_app; assumption|]. right. left. rewrite in_app_iff. right. left. reflexivity. }
    assert (forall j, In j td \/ In j (map ru_k rn1) \/ In j (map ru_k rn2) \/ In j dn -> j <> k /\ (j < ncell)%nat) as Hne.
    { intros j Hj. split.
      - intros ->. assert (Permutation (td ++ (map ru_k rn1 ++ k :: map ru_k rn2) ++ dn) (k :: td ++ map ru_k rn1 ++ map ru_k rn2 ++ dn)) as HP2.
        { rewrite <- !app_assoc. cbn [app]. rewrite (app_assoc td), (app_assoc td). symmetry. rewrite Permutation_middle. reflexivity. }
        apply (Permutation_NoDup HP2) in HN. inversion HN as [|? ? Hno _]. apply Hno. rewrite !in_app_iff. tauto.
      - apply HL; [constructor; cbn [m_cells m_rows m_todo m_run m_done]; rewrite ?map_app; assumption|]. rewrite in_app_iff. cbn. tauto. }
    assert (forall j, In j td \/ In j (map ru_k rn1) \/ In j (map ru_k rn2) \/ In j dn -> cof j <> cof k) as Hnc.
    { intros j Hj E2. destruct (Hne j Hj) as [N L]. apply N. apply inj; assumption. }
    assert (forall x, In x rn1 \/ In x rn2 -> ru_tid x <> t) as Htd.
    { intros x Hx Ex. apply NoDup_remove_2 in HT. apply HT. rewrite in_app_iff. destruct Hx as [Hx|Hx]; [left|right]; rewrite <- Ex; apply in_map; exact Hx. }
    constructor; cbn [m_cells m_rows m_todo m_run m_done]; rewrite ?map_app; cbn [map ru_k ru_tid].
    + exact HP.
    + exact HT.
    + intros x Hx. rewrite in_app_iff in Hx. cbn in Hx. assert (x = mkRun k t fs l' \/ In x rn1 \/ In x rn2) as [-> |Hx'] by (clear - Hx; destruct Hx as [?|[?|?]]; auto).
      * cbn [ru_k ru_tid ru_todo ru_loc]. destruct (HR (mkRun k t (f :: fs) l)) as (pre & Eb & r0 & Er).
        { rewrite in_app_iff. right. left. reflexivity. }
        cbn [ru_k ru_tid ru_todo ru_loc] in *. exists (pre ++ [f]). split; [rewrite <- app_assoc; exact Eb|]. exists r0.
        rewrite run_body_app, Er. cbn [run_body fold_left]. unfold run_body. cbn [fold_left]. rewrite E, !put_same. reflexivity.
      * destruct (HR x) as (pre & Eb & r0 & Er). { rewrite in_app_iff. cbn. tauto. }
        exists pre. split; [exact Eb|]. exists r0. rewrite Er, !put_other; [reflexivity|apply Htd; exact Hx'|].
        apply Hnc. destruct Hx'; [right; left|right; right; left]; apply in_map; assumption.
    + intros j Hj. rewrite put_other by (apply Hnc; auto). apply HTo. exact Hj.
    + intros j Hj. rewrite put_other by (apply Hnc; auto). apply HD. exact Hj.
    + intros i Hi. rewrite put_other; [apply HO; exact Hi|]. intros ->. apply (Hi k Hk). reflexivity.
  - rewrite map_app in *. cbn [map ru_k ru_tid] in *. constructor; cbn [m_cells m_rows m_todo m_run m_done]; rewrite ?map_app.
    + rewrite HP. apply Permutation_app_head. rewrite <- !app_assoc. apply Permutation_app_head. cbn [app]. apply Permutation_middle.
    + apply NoDup_remove_1 in HT. exact HT.
    + intros x Hx. apply HR. rewrite in_app_iff in *. cbn. tauto.
    + exact HTo.
    + intros j [<-|Hj]; [|apply HD; exact Hj]. destruct (HR (mkRun k t [] l)) as (pre & Eb & HF); [rewrite in_app_iff; right; left; reflexivity|].
      cbn [ru_k ru_tid ru_todo ru_loc] in *. rewrite app_nil_r in Eb. subst pre. eauto.
    + exact HO.
Qed.
Lemma minv_steps m m' : minv m -> msteps offsets b m m' -> minv m'.
Proof. intros H S. induction S; [exact H|]. apply IHS. eapply minv_step; eassumption. Qed.

(** total number of steps: one start, one end and one step per phase for every cell *)
Definition remaining (m : machine) : nat :=
  (length (m_todo m) * (length b + 2) + fold_right (fun x acc => length (ru_todo x) + 1 + acc) 0 (m_run m))%nat.
Lemma fold_rest l1 l2 : fold_right (fun x acc => (length (ru_todo x) + 1 + acc)%nat) 0%nat (l1 ++ l2) =
  (fold_right (fun x acc => length (ru_todo x) + 1 + acc) 0 l1 + fold_right (fun x acc => length (ru_todo x) + 1 + acc) 0 l2)%nat.
Proof. induction l1; cbn; [reflexivity|lia]. Qed.
Lemma remaining_step m m' : mstep offsets b m m' -> remaining m = S (remaining m').
Proof.
  intros S. destruct S; unfold remaining; cbn [m_todo m_run]; rewrite ?fold_rest, ?app_length; cbn [fold_right length ru_todo]; try lia; nia.
Qed.
End Schedule.

(** ** Participating materials *)
Section Select.
Variable P : nat -> bool.
Definition parts (N : nat) : list nat := filter P (seq 0 N).
Definition rank (m : nat) : nat := length (parts m).
Lemma parts_S N : parts (S N) = parts N ++ (if P N then [N] else []).
Proof. unfold parts. rewrite seq_S, filter_app. cbn. reflexivity. Qed.
Lemma rank_lt N m : (m < N)%nat -> P m = true -> (rank m < length (parts N))%nat.
Proof.
  unfold rank. induction N as [|N IH]; intros H HP; [lia|]. rewrite parts_S, app_length. destruct (Nat.eq_dec m N) as [->|].
  - rewrite HP. cbn. lia.
  - specialize (IH ltac:(lia) HP). lia.
Qed.
Lemma nth_rank N m : (m < N)%nat -> P m = true -> nth (rank m) (parts N) 0%nat = m.
Proof.
  unfold rank. induction N as [|N IH]; intros H HP; [lia|]. rewrite parts_S. destruct (Nat.eq_dec m N) as [->|].
  - rewrite HP, app_nth2, Nat.sub_diag by lia. reflexivity.
  - rewrite app_nth1; [apply IH; [lia|exact HP]|]. apply (rank_lt N m); [lia|exact HP].
Qed.
Lemma parts_in N m : In m (parts N) <-> (m < N)%nat /\ P m = true.
Proof. unfold parts. rewrite filter_In, in_seq. split; intros [? ?]; split; auto; lia. Qed.
Lemma parts_nodup N : NoDup (parts N). Proof. apply NoDup_filter, seq_NoDup. Qed.
Lemma parts_nth N j : (j < length (parts N))%nat -> (nth j (parts N) 0 < N)%nat /\ P (nth j (parts N) 0%nat) = true.
Proof. intros H. apply parts_in. apply nth_In. exact H. Qed.
Lemma rank_nth N j : (j < length (parts N))%nat -> rank (nth j (parts N) 0%nat) = j.
Proof.
  intros H. destruct (parts_nth N j H) as [H1 H2]. pose proof (nth_rank N _ H1 H2) as E.
  pose proof (rank_lt N _ H1 H2) as L. apply (proj1 (NoDup_nth (parts N) 0%nat) (parts_nodup N)); auto.
Qed.
Lemma parts_length N : (length (parts N) <= N)%nat.
Proof. induction N as [|N IH]; [reflexivity|]. rewrite parts_S, app_length. destruct (P N); cbn; lia. Qed.
Lemma rsum_parts N g : rsum (length (parts N)) (fun j => g (nth j (parts N) 0%nat)) = rsum N (fun m => if P m then g m else 0).
Proof.
  induction N as [|N IH]; [reflexivity|]. cbn [rsum]. rewrite <- IH, parts_S. destruct (P N) eqn:E.
  - rewrite app_length, Nat.add_1_r. cbn [rsum length]. rewrite app_nth2, Nat.sub_diag by lia. cbn [nth]. f_equal.
    apply rsum_ext. intros j Hj. rewrite app_nth1 by exact Hj. reflexivity.
  - rewrite app_nil_r. ring.
Qed.
(** a sum over row entries is a sum over participating materials *)
Lemma rsum_rank N g : rsum (length (parts N)) g = rsum N (fun m => if P m then g (rank m) else 0).
Proof.
  rewrite <- (rsum_parts N (fun m => g (rank m))). apply rsum_ext. intros j Hj. rewrite rank_nth by exact Hj. reflexivity.
Qed.
End Select.
Lemma parts_ext P Q N : (forall m, (m < N)%nat -> P m = Q m) -> parts P N = parts Q N.
Proof. induction N as [|N IH]; intros H; [reflexivity|]. rewrite !parts_S, IH, H by (try lia; intros; apply H; lia). reflexivity. Qed.

Lemma scatter_at n mats f old : (forall i j, (i < n)%nat -> (j < n)%nat -> mats i = mats j -> i = j) ->
  forall i, (i < n)%nat -> scatter_to n mats f old (mats i) = f i.
Proof.
  unfold scatter_to. intros H i Hi. induction n as [|n IH]; [lia|]. rewrite seq_S, fold_left_app. cbn [fold_left Nat.add].
  unfold upd at 1. destruct (Nat.eqb_spec (mats i) (mats n)) as [E|N].
  - apply H in E; [|lia|lia]. subst. reflexivity.
  - apply IH; [intros; apply H; auto; lia|]. assert (i <> n) by congruence. lia.
Qed.
Lemma scatter_not n mats f old m : (forall i, (i < n)%nat -> mats i <> m) -> scatter_to n mats f old m = old m.
Proof.
  unfold scatter_to. intros H. induction n as [|n IH]; [reflexivity|]. rewrite seq_S, fold_left_app. cbn [fold_left Nat.add].
  unfold upd at 1. destruct (Nat.eqb_spec m (mats n)) as [E|N]; [exfalso; apply (H n); [lia|congruence]|].
  apply IH. intros. apply H. lia.
Qed.
Lemma scatter_ext n mats mats' f f' old : (forall i, (i < n)%nat -> mats i = mats' i /\ f i = f' i) -> scatter_to n mats f old = scatter_to n mats' f' old.
Proof.
  unfold scatter_to. intros H. induction n as [|n IH]; [reflexivity|]. rewrite seq_S, !fold_left_app. cbn [fold_left Nat.add].
  rewrite IH by (intros; apply H; lia). destruct (H n ltac:(lia)) as [-> ->]. reflexivity.
Qed.

Section Cell.
Variable nmat : nat.
Variable eos : nat -> seos.
Variable eos_offsets : nat -> nat.
Variable cutoff : R.

Lemma select_fold l : forall fm np mats idxs np' mats' idxs',
  fold_left (fun '(np, mats, idxs) m =>
    if Rlt_bool cutoff (fm m) then (S np, set_nat mats np m, set_nat idxs np (eos_offsets m - 1)%nat)
    else (np, mats, idxs)) l (np, mats, idxs) = (np', mats', idxs') ->
  let P m := Rlt_bool cutoff (fm m) in
  np' = (np + length (filter P l))%nat /\
  (forall j, (j < np)%nat -> mats' j = mats j /\ idxs' j = idxs j) /\
  (forall j, (j < length (filter P l))%nat -> mats' (np + j)%nat = nth j (filter P l) 0%nat /\ idxs' (np + j)%nat = (eos_offsets (nth j (filter P l) 0%nat) - 1)%nat) /\
  (forall j, (np' <= j)%nat -> mats' j = mats j /\ idxs' j = idxs j).
Proof.
  induction l as [|m l IH]; cbn [fold_left]; intros fm np mats idxs np' mats' idxs' E; cbv zeta.
  - injection E as <- <- <-. cbn. repeat split; try lia; auto.
  - cbn [filter]. destruct (Rlt_bool cutoff (fm m)) eqn:EP.
    + apply IH in E. cbv zeta in E. destruct E as (E1 & E2 & E3 & E4). cbn [length]. split; [lia|]. split; [|split].
      * intros j Hj. destruct (E2 j ltac:(lia)) as [-> ->]. unfold set_nat. destruct (Nat.eqb_spec j np); [lia|]. split; reflexivity.
      * intros [|j] Hj; cbn [nth].
        -- rewrite Nat.add_0_r. destruct (E2 np ltac:(lia)) as [-> ->]. unfold set_nat. rewrite Nat.eqb_refl. split; reflexivity.
        -- replace (np + S j)%nat with (S np + j)%nat by lia. apply E3. lia.
      * intros j Hj. destruct (E4 j Hj) as [-> ->]. unfold set_nat. destruct (Nat.eqb_spec j np); [lia|]. split; reflexivity.
    + apply IH in E. exact E.
Qed.
Lemma select_spec fm r np mats idxs : select nmat eos_offsets cutoff fm r = (np, mats, idxs) ->
  let P m := Rlt_bool cutoff (fm m) in
  np = length (parts P nmat) /\
  (forall j, (j < np)%nat -> mats j = nth j (parts P nmat) 0%nat /\ idxs j = (eos_offsets (nth j (parts P nmat) 0%nat) - 1)%nat) /\
  (forall j, (np <= j)%nat -> mats j = r_mats r j /\ ((j < nmat)%nat -> idxs j = (eos_offsets j - 1)%nat)).
Proof.
  intros E. apply select_fold in E. cbv zeta in E |- *. destruct E as (E1 & E2 & E3 & E4). cbn in E1. split; [exact E1|]. split.
  - intros j Hj. apply (E3 j). unfold parts in E1. lia.
  - intros j Hj. destruct (E4 j Hj) as [A B]. split; [exact A|]. intros Hn. rewrite B. unfold map_nat. destruct (Nat.ltb_spec j nmat); [reflexivity|lia].
Qed.

(** ** The result does not depend on what the scratch row held before *)
Record row_eq (n : nat) (r r' : row) : Prop := {
  re_mats : forall m, (m < n)%nat -> r_mats r m = r_mats r' m;
  re_idxs : forall m, (m < n)%nat -> r_idxs r m = r_idxs r' m;
  re_sie : forall m, (m < n)%nat -> r_sie r m = r_sie r' m;
  re_vfrac : forall m, (m < n)%nat -> r_vfrac r m = r_vfrac r' m;
  re_temp : forall m, (m < n)%nat -> r_temp r m = r_temp r' m;
  re_press : forall m, (m < n)%nat -> r_press r m = r_press r' m;
  re_rho : forall m, (m < n)%nat -> r_rho r m = r_rho r' m
}.
Lemma init_indep t s p c r r' : 
  fst (fst (init_fun nmat eos_offsets cutoff t s p c r)) = fst (fst (init_fun nmat eos_offsets cutoff t s p c r')) /\
  snd (init_fun nmat eos_offsets cutoff t s p c r) = snd (init_fun nmat eos_offsets cutoff t s p c r') /\
  row_eq (l_npte (snd (init_fun nmat eos_offsets cutoff t s p c r))) (snd (fst (init_fun nmat eos_offsets cutoff t s p c r))) (snd (fst (init_fun nmat eos_offsets cutoff t s p c r'))).
Proof.
  unfold init_fun. cbv zeta. set (fm := map_n nmat (fun m => f_mass c m / rsum nmat (f_mass c)) (f_mass c)).
  destruct (select nmat eos_offsets cutoff fm r) as [[np mats] idxs] eqn:E1. destruct (select nmat eos_offsets cutoff fm r') as [[np' mats'] idxs'] eqn:E2.
  apply select_spec in E1. apply select_spec in E2. cbv zeta in E1, E2. destruct E1 as (A1 & A2 & _). destruct E2 as (B1 & B2 & _).
  assert (np' = np) as EN by congruence. rewrite EN in *. clear EN B1 np'.
  assert (forall j, (j < np)%nat -> mats j = mats' j) as HM by (intros j Hj; destruct (A2 j Hj) as [-> _], (B2 j Hj) as [-> _]; reflexivity).
  cbn [fst snd l_npte]. split; [reflexivity|]. split.
  - f_equal. apply rsum_ext. intros j Hj. rewrite !map_n_lt by exact Hj. rewrite HM by exact Hj. reflexivity.
  - constructor; cbn [r_mats r_idxs r_sie r_vfrac r_temp r_press r_rho]; intros j Hj; rewrite ?map_n_lt by exact Hj; rewrite ?HM by exact Hj; try reflexivity.
    destruct (A2 j Hj) as [_ ->], (B2 j Hj) as [_ ->]. reflexivity.
Qed.
Lemma final_indep o t s p c r r' l : row_eq (l_npte l) r r' -> final_fun nmat eos o t s p c r l = final_fun nmat eos o t s p c r' l.
Proof.
  intros [H1 H2 H3 H4 H5 H6 H7]. unfold final_fun.
  assert (forall f g, (forall m, (m < l_npte l)%nat -> f m = g m) -> rsum (l_npte l) f = rsum (l_npte l) g) as HE by (intros; apply rsum_ext; assumption).
  f_equal; try reflexivity.
  - f_equal. apply HE. intros m Hm. rewrite H6, H4 by exact Hm. reflexivity.
  - assert (rsum (l_npte l) (fun mp => r_sie r mp * f_mass c (r_mats r mp) * l_mass_sum l * s) = rsum (l_npte l) (fun mp => r_sie r' mp * f_mass c (r_mats r' mp) * l_mass_sum l * s)) as ->; [|reflexivity].
    apply HE; intros m Hm; rewrite H3, H1 by exact Hm; reflexivity.
  - assert (rsum (l_npte l) (fun mp => r_temp r mp * r_vfrac r mp * t) = rsum (l_npte l) (fun mp => r_temp r' mp * r_vfrac r' mp * t)) as ->; [|reflexivity].
    apply HE; intros m Hm; rewrite H5, H4 by exact Hm; reflexivity.
  - apply HE. intros m Hm. rewrite H2, H7, H5, H4 by exact Hm. reflexivity.
  - apply HE. intros m Hm. rewrite H2, H7, H5, H4 by exact Hm. reflexivity.
  - apply HE. intros m Hm. rewrite H2, H7, H5, H1 by exact Hm. reflexivity.
  - apply scatter_ext. intros m Hm. rewrite H1, H4 by exact Hm. split; reflexivity.
  - apply scatter_ext. intros m Hm. rewrite H1, H3 by exact Hm. split; reflexivity.
  - destruct (do_frac_bmod o); [|reflexivity]. apply scatter_ext. intros m Hm. rewrite H1, H2, H7, H5 by exact Hm. split; reflexivity.
  - destruct (do_frac_dpde o); [|reflexivity]. apply scatter_ext. intros m Hm. rewrite H1, H2, H7, H5 by exact Hm. split; reflexivity.
  - destruct (do_frac_cv o); [|reflexivity]. apply scatter_ext. intros m Hm. rewrite H1, H2, H7, H5 by exact Hm. split; reflexivity.
Qed.
Lemma cut_ext n a a' : (forall m, (m < n)%nat -> a m = a' m) -> cut n a = cut n a'.
Proof. intros H. apply functional_extensionality. intros m. unfold cut. destruct (Nat.ltb_spec m n); auto. Qed.
Lemma accessor_ext n i i' : (1 <= n)%nat -> (forall m, (m < n)%nat -> i m = i' m) -> accessor eos n i = accessor eos n i'.
Proof. intros Hn H. apply functional_extensionality. intros m. unfold accessor. destruct (Nat.ltb_spec m n); rewrite H by lia; reflexivity. Qed.
Lemma pst_of_ext n r r' T P : row_eq n r r' -> pst_of n r T P = pst_of n r' T P.
Proof. intros [H1 H2 H3 H4 H5 H6 H7]. unfold pst_of. rewrite (cut_ext n (r_rho r) (r_rho r')), (cut_ext n (r_vfrac r) (r_vfrac r')), (cut_ext n (r_sie r) (r_sie r')), (cut_ext n (r_temp r) (r_temp r')), (cut_ext n (r_press r) (r_press r')) by assumption. reflexivity. Qed.
Lemma row_of_ext n s r r' : row_eq n r r' -> row_eq n (row_of n s r) (row_of n s r').
Proof. intros [H1 H2 H3 H4 H5 H6 H7]. constructor; cbn [row_of r_mats r_idxs r_sie r_vfrac r_temp r_press r_rho]; intros m Hm; rewrite ?map_n_lt by exact Hm; auto. Qed.
Lemma upd_ext a a' i x m : (m <> i -> a m = a' m) -> upd a i x m = upd a' i x m.
Proof. unfold upd. destruct (Nat.eqb_spec m i); auto. Qed.
Variable lin : nat -> (nat -> R) -> (nat -> R) -> (nat -> R).
Variable junk : R.
Ltac pure H := destruct H as [H1 H2 H3 H4 H5 H6 H7]; constructor; cbn [r_mats r_idxs r_sie r_vfrac r_temp r_press r_rho]; intros m Hm; auto; apply upd_ext; auto.
Lemma solve_rho_e_indep c r r' l : (1 <= l_npte l)%nat -> row_eq (l_npte l) r r' ->
  row_eq (l_npte l) (fst (solve_rho_e eos lin c r l)) (fst (solve_rho_e eos lin c r' l)) /\ snd (solve_rho_e eos lin c r l) = snd (solve_rho_e eos lin c r' l).
Proof.
  intros Hn H. unfold solve_rho_e. destruct (Nat.ltb_spec 1 (l_npte l)).
  - rewrite (accessor_ext _ (r_idxs r) (r_idxs r') Hn (re_idxs _ _ _ H)), (pst_of_ext _ r r' _ _ H).
    destruct (PTESolver _ _ _) as [st s]. cbn [fst snd]. split; [apply row_of_ext; exact H|reflexivity].
  - cbv zeta. cbn [fst snd]. rewrite (re_idxs _ _ _ H), (re_rho _ _ _ H), (re_sie _ _ _ H) by lia. split; [|reflexivity]. pure H.
Qed.
Lemma solve_rho_t_indep c r r' l : (1 <= l_npte l)%nat -> row_eq (l_npte l) r r' ->
  row_eq (l_npte l) (fst (fst (solve_rho_t eos lin c r l))) (fst (fst (solve_rho_t eos lin c r' l))) /\
  snd (fst (solve_rho_t eos lin c r l)) = snd (fst (solve_rho_t eos lin c r' l)) /\ snd (solve_rho_t eos lin c r l) = snd (solve_rho_t eos lin c r' l).
Proof.
  intros Hn H. unfold solve_rho_t. destruct (Nat.ltb_spec 1 (l_npte l)).
  - rewrite (re_temp _ _ _ H 0%nat) by lia.
    rewrite (accessor_ext _ (r_idxs r) (r_idxs r') Hn (re_idxs _ _ _ H)), (pst_of_ext _ r r' _ _ H).
    destruct (PTESolver _ _ _) as [st s]. cbn [fst snd]. pose proof (row_of_ext _ s _ _ H) as H2. split; [exact H2|split; [reflexivity|]].
    apply rsum_ext. intros m Hm. rewrite (re_sie _ _ _ H2), (re_mats _ _ _ H2) by exact Hm. reflexivity.
  - cbv zeta. cbn [fst snd]. rewrite (re_idxs _ _ _ H), (re_rho _ _ _ H), (re_temp _ _ _ H) by lia. split; [|split; reflexivity]. pure H.
Qed.
Lemma solve_rho_p_indep c r r' l : (1 <= l_npte l)%nat -> row_eq (l_npte l) r r' ->
  row_eq (l_npte l) (fst (fst (solve_rho_p eos lin junk c r l))) (fst (fst (solve_rho_p eos lin junk c r' l))) /\
  snd (fst (solve_rho_p eos lin junk c r l)) = snd (fst (solve_rho_p eos lin junk c r' l)) /\ snd (solve_rho_p eos lin junk c r l) = snd (solve_rho_p eos lin junk c r' l).
Proof.
  intros Hn H. unfold solve_rho_p. destruct (Nat.ltb_spec 1 (l_npte l)).
  - rewrite (re_press _ _ _ H 0%nat) by lia.
    rewrite (accessor_ext _ (r_idxs r) (r_idxs r') Hn (re_idxs _ _ _ H)), (pst_of_ext _ r r' _ _ H).
    destruct (PTESolver _ _ _) as [st s]. cbn [fst snd]. pose proof (row_of_ext _ s _ _ H) as H2. split; [exact H2|split; [reflexivity|]].
    apply rsum_ext. intros m Hm. rewrite (re_sie _ _ _ H2), (re_mats _ _ _ H2) by exact Hm. reflexivity.
  - cbv zeta. cbn [fst snd]. rewrite (re_idxs _ _ _ H), (re_rho _ _ _ H) by lia. split; [|split; reflexivity]. pure H.
Qed.
Lemma pt_indep c r r' : (forall m P T r1 e1 r2 e2, (m < nmat)%nat -> de_pt (eos (eos_offsets m - 1)) P T r1 e1 = de_pt (eos (eos_offsets m - 1)) P T r2 e2) ->
  fst (fst (pt_fun nmat eos eos_offsets c r)) = fst (fst (pt_fun nmat eos eos_offsets c r')) /\
  snd (pt_fun nmat eos eos_offsets c r) = snd (pt_fun nmat eos eos_offsets c r') /\
  row_eq nmat (snd (fst (pt_fun nmat eos eos_offsets c r))) (snd (fst (pt_fun nmat eos eos_offsets c r'))).
Proof.
  intros HD. assert (forall m, (m < nmat)%nat -> pt_de nmat eos eos_offsets c r m = pt_de nmat eos eos_offsets c r' m) as HE.
  { intros m Hm. unfold pt_de, accessor, pt_idxs, map_nat. destruct (Nat.ltb_spec m nmat); [|lia]. apply HD. exact Hm. }
  assert (forall m, (m < nmat)%nat -> pt_vol nmat eos eos_offsets c r m = pt_vol nmat eos eos_offsets c r' m) as HV.
  { intros m Hm. unfold pt_vol. rewrite HE by exact Hm. reflexivity. }
  assert (rsum nmat (pt_vol nmat eos eos_offsets c r) = rsum nmat (pt_vol nmat eos eos_offsets c r')) as HS by (apply rsum_ext; exact HV).
  unfold pt_fun. cbv zeta. cbn [fst snd]. rewrite HS. split; [|split; [reflexivity|]].
  - f_equal. apply rsum_ext. intros m Hm. rewrite !map_n_lt, HE by exact Hm. reflexivity.
  - constructor; cbn [r_mats r_idxs r_sie r_vfrac r_temp r_press r_rho]; intros m Hm; rewrite ?map_n_lt by exact Hm; rewrite ?HE, ?HV by exact Hm; try reflexivity.
    + unfold map_nat. destruct (Nat.ltb_spec m nmat); [reflexivity|lia].
    + unfold pt_idxs, map_nat. destruct (Nat.ltb_spec m nmat); [reflexivity|lia].
Qed.
End Cell.
