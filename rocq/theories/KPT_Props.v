(** C38, C39: kinetic phase transitions *)
From Coq Require Import ZArith Reals Bool List Lia Lra Permutation.
From Flocq Require Import Core IEEE754.BinarySingleNaN IEEE754.PrimFloat.
From Verif Require Import Arith KPT_Model PTE_Model PTE_Tools KPT_Spec KPT_Proofs.
Import ListNotations.
Local Open Scope R_scope.

Lemma total_rsum n f : total n f = rsum n f.
Proof. induction n; cbn; [reflexivity|]. rewrite IHn. reflexivity. Qed.
Lemma doc_slot_eq n j k : (j < k < n)%nat -> doc_slot n j k = slot n j k.
Proof.
  intros H. unfold doc_slot, slot. pose proof (base_Z n j ltac:(lia)) as B.
  assert (j * (j - 1) = 2 * (j * (n - 1) - base n j))%nat as E by nia.
  rewrite E. rewrite (Nat.mul_comm 2), Nat.div_mul by lia. 
  assert (base n j <= j * (n - 1))%nat by nia.
  rewrite Nat.mul_add_distr_r, Nat.mul_1_l. set (P := (j * (n - 1))%nat) in *. clearbody P. lia.
Qed.

(** * SortGibbs *)
Section Sort.
Context {A : Arith}.
Variables (n : nat) (gibbs : nat -> num A).

Definition bij (o : nat -> nat) : Prop :=
  (forall j, (j < n)%nat -> (o j < n)%nat) /\ (forall i j, (i < n)%nat -> (j < n)%nat -> o i = o j -> i = j).
Lemma swap_bij o j k : (j < n)%nat -> (k < n)%nat -> bij o -> bij (aupd (aupd o j (o k)) k (o j)).
Proof.
  intros Hj Hk [Hb Hi]. split.
  - intros m Hm. unfold aupd. destruct (m =? k)%nat; [auto|]. destruct (m =? j)%nat; auto.
  - intros a b Ha Hb'. unfold aupd. 
    destruct (Nat.eqb_spec a k), (Nat.eqb_spec b k), (Nat.eqb_spec a j), (Nat.eqb_spec b j); subst; intros E;
      try reflexivity; try (apply Hi in E; [subst; congruence|assumption..]); auto.
Qed.
Lemma swap_cases o j k : sg_swap gibbs j o k = o \/ sg_swap gibbs j o k = aupd (aupd o j (o k)) k (o j).
Proof. unfold sg_swap. destruct ltb; auto. Qed.

Lemma sort_inv (P : (nat -> nat) -> Prop) o0 :
  (forall o, (forall j, (j < n)%nat -> o j = j) -> (forall j, (n <= j)%nat -> o j = o0 j) -> P o) ->
  (forall o j k, (j < k < n)%nat -> P o -> P (sg_swap gibbs j o k)) -> P (SortGibbs n gibbs o0).
Proof.
  intros H0 Hs. unfold SortGibbs.
  apply (fold_seq_ind (sg_row n gibbs) (fun _ => P) (n - 1) 0).
  - pose proof (fold_seq_ind (fun o j => aupd o j j)
      (fun p o => (forall j, (j < p)%nat -> o j = j) /\ (forall j, (p <= j)%nat -> o j = o0 j)) n 0 o0) as F. cbn [Nat.add] in F.
    destruct F as [F1 F2].
    + split; intros; [lia|reflexivity].
    + intros p s Hp [G1 G2]. split; intros j Hj.
      * destruct (Nat.eq_dec j p) as [->|]; [apply aupd_same|]. rewrite aupd_other by assumption. apply G1. lia.
      * rewrite aupd_other by lia. apply G2. lia.
    + apply H0; assumption.
  - intros j o Hj HP. unfold sg_row.
    apply (fold_down_ind (sg_swap gibbs j) (fun _ => P) n j o HP). intros p s Hp. apply Hs. lia.
Qed.
End Sort.

(** SortGibbs always returns an order of all the phases, whatever the comparison does (so also for NaN energies), and
    writes nothing beyond the first n entries. *)
Theorem C39_sort_lists_all_phases : forall (A : Arith) (n : nat) (gibbs : nat -> num A) (o0 : nat -> nat),
  lists_all_phases n (SortGibbs n gibbs o0) /\ forall i, (n <= i)%nat -> SortGibbs n gibbs o0 i = o0 i.
Proof.
  intros A n gibbs o0.
  assert (bij n (SortGibbs n gibbs o0) /\ forall i, (n <= i)%nat -> SortGibbs n gibbs o0 i = o0 i) as [[B1 B2] G].
  { apply (sort_inv n gibbs (fun o => bij n o /\ forall i, (n <= i)%nat -> o i = o0 i)).
    - intros o E1 E2. split; [|exact E2]. split; intros; rewrite ?E1 in * by assumption; auto.
    - intros o j k Hjk [HB HO]. destruct (swap_cases gibbs o j k) as [-> | ->]; [split; assumption|].
      split; [apply swap_bij; [lia|lia|exact HB]|]. intros i Hi. rewrite !aupd_other by lia. apply HO. exact Hi. }
  split; [|exact G]. apply phase_order_intro; assumption.
Qed.

(** In any arithmetic whose comparison is a strict weak order on the given energies, the result is sorted from the
    highest to the lowest Gibbs energy. *)
Theorem C39_sort_descending_any : forall (A : Arith) (n : nat) (gibbs : nat -> num A) (o0 : nat -> nat),
  (forall a b, (a < n)%nat -> (b < n)%nat -> ltb (gibbs a) (gibbs b) = true -> ltb (gibbs b) (gibbs a) = false) ->
  (forall a b c, (a < n)%nat -> (b < n)%nat -> (c < n)%nat ->
     ltb (gibbs a) (gibbs b) = false -> ltb (gibbs b) (gibbs c) = false -> ltb (gibbs a) (gibbs c) = false) ->
  let order := SortGibbs n gibbs o0 in
  forall i j, (i < j < n)%nat -> ltb (gibbs (order i)) (gibbs (order j)) = false.
Proof.
  intros A n gibbs o0 Hasym Htr. cbv zeta. unfold SortGibbs.
  pose (bd := fun o : nat -> nat => forall m, (m < n)%nat -> (o m < n)%nat).
  pose (ok := fun (p : nat) (o : nat -> nat) => bd o /\ forall i m, (i < p)%nat -> (i < m < n)%nat -> ltb (gibbs (o i)) (gibbs (o m)) = false).
  assert (ok (n - 1)%nat (fold_left (sg_row n gibbs) (seq 0 (n - 1)) (fold_left (fun o j => aupd o j j) (seq 0 n) o0))) as [_ H].
  2:{ intros i j Hij. apply H; lia. }
  pose proof (fold_seq_ind (sg_row n gibbs) ok (n - 1) 0) as F. cbn [Nat.add] in F. apply F; clear F.
  - split; [|intros; lia].
    refine (fold_seq_ind (fun o j => aupd o j j) (fun p o => forall m, (m < p)%nat -> (o m < n)%nat) n 0 o0 _ _); [intros; lia|].
    intros p s Hp G m Hm. unfold aupd. destruct (Nat.eqb_spec m p); [lia|apply G; lia].
  - intros j o Hj [Hb Hok].
    pose (row := fun (p : nat) (o : nat -> nat) => ok j o /\ forall m, (n - 1 - p < m < n)%nat -> ltb (gibbs (o j)) (gibbs (o m)) = false).
    assert (row (n - 1 - j)%nat (sg_row n gibbs o j)) as [[Rb Ro] Rj].
    2:{ split; [exact Rb|]. intros i m Hi Hm. destruct (Nat.eq_dec i j) as [->|]; [apply Rj; lia|apply Ro; lia]. }
    unfold sg_row. apply fold_down_ind.
    + split; [split; assumption|]. intros; lia.
    + intros p s Hp [[Sb So] Sj]. set (k := (n - 1 - p)%nat) in *. assert (j < k < n)%nat as Hk by lia.
      assert (k <= n - 1 - p)%nat as Hkp by lia. assert (n - 1 - S p < k)%nat as Hkp2 by lia. assert (k = n - 1 - p)%nat as Ek by reflexivity. clearbody k.
      unfold sg_swap. destruct (ltb (gibbs (s j)) (gibbs (s k))) eqn:Ec.
      * split; [split|].
        -- intros m Hm. unfold aupd. destruct (m =? k)%nat; [apply Sb; lia|]. destruct (m =? j)%nat; apply Sb; lia.
        -- intros i m Hi Hm. unfold aupd at 1. rewrite (proj2 (Nat.eqb_neq i k)), aupd_other by lia.
           unfold aupd. destruct (Nat.eqb_spec m k); [apply So; lia|]. destruct (Nat.eqb_spec m j); apply So; lia.
        -- intros m Hm. rewrite (aupd_other _ k _ j) by lia. rewrite aupd_same.
           destruct (Nat.eq_dec m k) as [->|]; [rewrite aupd_same; apply Hasym; [apply Sb; lia|apply Sb; lia|exact Ec]|].
           rewrite !aupd_other by lia. apply Htr with (s j); try (apply Sb; lia); [|apply Sj; lia].
           apply Hasym; [apply Sb; lia|apply Sb; lia|exact Ec].
      * split; [split; assumption|]. intros m Hm. destruct (Nat.eq_dec m k) as [->|]; [exact Ec|apply Sj; lia].
Qed.

(** over the exact reals: gibbs[order[0]] is the highest and gibbs[order[n-1]] the lowest *)
Theorem C39_sort_descending : forall (n : nat) (gibbs : nat -> R) (o0 : nat -> nat),
  let order := @SortGibbs RArith n gibbs o0 in
  forall i j, (i <= j < n)%nat -> gibbs (order j) <= gibbs (order i).
Proof.
  intros n gibbs o0 order i j Hij. destruct (Nat.eq_dec i j) as [->|]; [apply Rle_refl|].
  assert (Rlt_bool (gibbs (order i)) (gibbs (order j)) = false) as H.
  { apply (C39_sort_descending_any RArith n gibbs o0); [| |lia]; cbn [ltb RArith]; intros *; intros _ _.
    - case Rlt_bool_spec; [|discriminate]. intros. apply Rlt_bool_false. lra.
    - intros _. case Rlt_bool_spec; [discriminate|]. intros H1 _. case Rlt_bool_spec; [discriminate|]. intros H2 _. apply Rlt_bool_false. lra. }
  revert H. case Rlt_bool_spec; [discriminate|]. auto.
Qed.

(** in IEEE binary64, for finite energies: sorted by value, exactly *)
Theorem C39_sort_descending_binary64 : forall (n : nat) (gibbs : nat -> PrimFloat.float) (o0 : nat -> nat),
  (forall i, (i < n)%nat -> PrimFloat.is_finite (gibbs i) = true) ->
  let order := @SortGibbs FArith n gibbs o0 in
  forall i j, (i < j < n)%nat -> PrimFloat.ltb (gibbs (order i)) (gibbs (order j)) = false.
Proof.
  intros n gibbs o0 Hf order i j Hij.
  assert (forall a b, (a < n)%nat -> (b < n)%nat ->
    PrimFloat.ltb (gibbs a) (gibbs b) = Rlt_bool (B2R (Prim2B (gibbs a))) (B2R (Prim2B (gibbs b)))) as E.
  { intros a b Ha Hb. rewrite ltb_equiv. apply Bltb_correct; rewrite <- is_finite_equiv; apply Hf; assumption. }
  apply (C39_sort_descending_any FArith n gibbs o0); [| |exact Hij]; cbn [ltb FArith].
  - intros a b Ha Hb. rewrite !E by assumption. case Rlt_bool_spec; [|discriminate]. intros. apply Rlt_bool_false. lra.
  - intros a b c Ha Hb Hc. rewrite !E by assumption. case Rlt_bool_spec; [discriminate|]. intros H1 _.
    case Rlt_bool_spec; [discriminate|]. intros H2 _. apply Rlt_bool_false. lra.
Qed.

(** * Phase-transition indices *)
(** the documented index is a one-to-one numbering of the pairs j<k by 0 .. n(n-1)/2 - 1, i.e. it stays inside the
    documented array length and covers it *)
Theorem C39_pair_index_bijective : forall n,
  (forall j k, (j < k < n)%nat -> (doc_slot n j k < n * (n - 1) / 2)%nat) /\
  (forall j k j' k', (j < k < n)%nat -> (j' < k' < n)%nat -> doc_slot n j k = doc_slot n j' k' -> j = j' /\ k = k') /\
  (forall i, (i < n * (n - 1) / 2)%nat -> exists j k, (j < k < n)%nat /\ doc_slot n j k = i).
Proof.
  intros n. assert (n * (n - 1) / 2 = base n (n - 1))%nat as EL.
  { rewrite <- base_last, (Nat.mul_comm 2), Nat.div_mul by lia. reflexivity. }
  rewrite EL. split; [|split].
  - intros j k H. rewrite doc_slot_eq by exact H. pose proof (slot_lt_base n j k H). pose proof (base_mono n (S j) (n - 1) ltac:(lia)). lia.
  - intros j k j' k' H H'. rewrite !doc_slot_eq by assumption. apply slot_inj; assumption.
  - intros i Hi.
    assert (forall m, (m <= n - 1)%nat -> (i < base n m)%nat -> exists j k, (j < k < n)%nat /\ slot n j k = i) as G.
    { induction m as [|m IH]; intros Hm Hb; cbn [base] in Hb; [lia|].
      destruct (Nat.lt_ge_cases i (base n m)) as [L|L]; [apply IH; [lia|exact L]|].
      exists m, (n - 1 - (i - base n m))%nat. unfold slot. lia. }
    destruct (G (n - 1)%nat (Nat.le_refl _) Hi) as (j & k & H & E). exists j, k. split; [exact H|]. rewrite doc_slot_eq by exact H. exact E.
Qed.

(** * Rates *)
Record lr_inv (n : nat) (w b gibbs : nat -> R) (go : nat -> nat) (lr0 : nat -> option R) (ft0 : nat -> nat) (top : nat)
   (s : nat * (nat -> option R) * (nat -> nat)) : Prop := {
  li_jk : fst (fst s) = top;
  li_lr : forall j k, (j < k < n)%nat -> (slot n j k < top)%nat ->
     let x := (gibbs (go j) - gibbs (go k)) / b (go j * n + go k)%nat in
     snd (fst s) (slot n j k) = xadd (xlog (w (go j * n + go k)%nat * x)) (Some (x * x));
  li_ft : forall j k, (j < k < n)%nat -> (slot n j k < top)%nat -> snd s (slot n j k) = (go j * 10 + go k)%nat;
  li_out : forall i, (top <= i)%nat -> snd (fst s) i = lr0 i /\ snd s i = ft0 i
}.
Lemma rates_ok n w b gibbs go lr0 ft0 :
  lr_inv n w b gibbs go lr0 ft0 (base n (n - 1))
    (base n (n - 1), fst (LogRatesCGModel w b n gibbs go lr0 ft0), snd (LogRatesCGModel w b n gibbs go lr0 ft0)).
Proof.
  unfold LogRatesCGModel.
  set (F := fun s j => fold_left (lr_step n w b gibbs go j) (down n j) s).
  assert (lr_inv n w b gibbs go lr0 ft0 (base n (n - 1)) (fold_left F (seq 0 (n - 1)) (0%nat, lr0, ft0))) as H.
  2:{ destruct (fold_left F (seq 0 (n - 1)) (0%nat, lr0, ft0)) as [[jk lr] ft]. cbn [fst snd].
      destruct H as [H1 H2 H3 H4]. cbn [fst snd] in *. constructor; cbn [fst snd]; auto. }
  pose proof (fold_seq_ind F (fun j s => lr_inv n w b gibbs go lr0 ft0 (base n j) s) (n - 1) 0 (0%nat, lr0, ft0)) as FI. cbn [Nat.add] in FI.
  apply FI; clear FI.
  - constructor; cbn [fst snd base]; intros; try lia; split; reflexivity.
  - intros j s Hj Hs. unfold F. cbn [base].
    apply (fold_down_ind (lr_step n w b gibbs go j) (fun p s => lr_inv n w b gibbs go lr0 ft0 (base n j + p) s) n j s).
    + rewrite Nat.add_0_r. exact Hs.
    + intros p [[jk lr] ft] Hp [I1 I2 I3 I4]. cbn [fst snd] in *. subst jk. unfold lr_step.
      set (k := (n - 1 - p)%nat). assert (base n j + p = slot n j k)%nat as Esl by (unfold slot, k; lia).
      assert (j < k < n)%nat as Hk by (unfold k; lia).
      constructor; cbn [fst snd].
      * lia.
      * intros j' k' H' L. destruct (Nat.eq_dec (slot n j' k') (base n j + p)) as [E|E].
        -- rewrite E, aupd_same. rewrite Esl in E. apply slot_inj in E; [|assumption..]. destruct E as [-> ->]. reflexivity.
        -- rewrite aupd_other by exact E. apply I2; [exact H'|lia].
      * intros j' k' H' L. destruct (Nat.eq_dec (slot n j' k') (base n j + p)) as [E|E].
        -- rewrite E, aupd_same. rewrite Esl in E. apply slot_inj in E; [|assumption..]. destruct E as [-> ->]. reflexivity.
        -- rewrite aupd_other by exact E. apply I3; [exact H'|lia].
      * intros i Hi. rewrite !aupd_other by lia. apply I4. lia.
Qed.
Lemma xexp_rate v x : 0 <= v * x -> xexp (xadd (xlog (v * x)) (Some (x * x))) = v * x * exp (x * x).
Proof.
  intros H. unfold xlog. case Req_bool_spec; intros E; cbn [xadd xexp]; [rewrite E; ring|].
  rewrite exp_plus, exp_ln by lra. reflexivity.
Qed.

(** LogRatesCGModel stores, at the documented index of each pair of the order, the logarithm of Greeff's rate from the
    higher to the lower phase (minus infinity for a zero rate), and writes nothing beyond the n(n-1)/2 documented
    entries. *)
Theorem C39_rates_are_greeff : forall (n : nat) (nu B G : nat -> R) (order : nat -> nat) lr0 ft0,
  (forall i, (i < n * n)%nat -> 0 <= nu i) -> (forall i, (i < n * n)%nat -> 0 < B i) ->
  lists_all_phases n order -> (forall i j, (i <= j < n)%nat -> G (order j) <= G (order i)) ->
  let r := LogRatesCGModel nu B n G order lr0 ft0 in
  (forall j k, (j < k < n)%nat -> xexp (fst r (doc_slot n j k)) = greeff_rate n nu B G (order j) (order k)) /\
  (forall j k, (j < k < n)%nat -> snd r (doc_slot n j k) = (order j * 10 + order k)%nat) /\
  (forall i, (n * (n - 1) / 2 <= i)%nat -> fst r i = lr0 i /\ snd r i = ft0 i).
Proof.
  intros n nu B G order lr0 ft0 Hnu HB Ho Hs r.
  pose proof (rates_ok n nu B G order lr0 ft0) as [_ R1 R2 R3]. cbn [fst snd] in *. fold r in R1, R2, R3.
  assert (forall j k, (j < k < n)%nat -> (slot n j k < base n (n - 1))%nat) as SL.
  { intros j k H. pose proof (slot_lt_base n j k H). pose proof (base_mono n (S j) (n - 1) ltac:(lia)). lia. }
  refine (conj _ (conj _ _)).
  - intros j k H. rewrite doc_slot_eq by exact H. rewrite R1 by auto. cbv zeta.
    pose proof (phase_order_bound n order Ho j ltac:(lia)) as Bj. pose proof (phase_order_bound n order Ho k ltac:(lia)) as Bk.
    assert (order j * n + order k < n * n)%nat as Hi by nia.
    pose proof (Hnu _ Hi) as Pn. pose proof (HB _ Hi) as Pb. pose proof (Hs j k ltac:(lia)) as Pg.
    set (x := (G (order j) - G (order k)) / B (order j * n + order k)%nat).
    assert (0 <= x) as Px. { unfold x, Rdiv. apply Rmult_le_pos; [lra|]. left. apply Rinv_0_lt_compat. exact Pb. }
    rewrite xexp_rate by (apply Rmult_le_pos; assumption). unfold greeff_rate. cbv zeta. fold x.
    case Rlt_bool_spec; intros Hc; [reflexivity|]. assert (x = 0) as ->; [|ring].
    unfold x. replace (G (order j) - G (order k)) with 0 by lra. unfold Rdiv. ring.
  - intros j k H. rewrite doc_slot_eq by exact H. apply R2; auto.
  - intros i Hi. apply R3. pose proof (base_last n) as BL. assert (n * (n - 1) / 2 = base n (n - 1))%nat as <-; [|exact Hi].
    rewrite <- BL, (Nat.mul_comm 2), Nat.div_mul by lia. reflexivity.
Qed.

(** larger Gibbs difference, larger rate (same fitting constants) *)
Theorem C39_rate_monotone : forall n nu B G G' i j,
  0 <= nu (i * n + j)%nat -> 0 < B (i * n + j)%nat -> G i - G j <= G' i - G' j ->
  0 <= greeff_rate n nu B G i j <= greeff_rate n nu B G' i j.
Proof.
  intros n nu B G G' i j Hn HB Hd. unfold greeff_rate. cbv zeta.
  set (x := (G i - G j) / B (i * n + j)%nat). set (y := (G' i - G' j) / B (i * n + j)%nat).
  assert (x <= y) as Hxy. { unfold x, y, Rdiv. apply Rmult_le_compat_r; [left; apply Rinv_0_lt_compat; exact HB|exact Hd]. }
  assert (forall g h z, z = (g - h) / B (i * n + j)%nat -> h < g -> 0 < z) as Pz.
  { intros g h z -> L. unfold Rdiv. apply Rmult_lt_0_compat; [lra|apply Rinv_0_lt_compat; exact HB]. }
  case Rlt_bool_spec; intros H1; case Rlt_bool_spec; intros H2; try lra.
  - assert (0 < x) by (eapply Pz; [reflexivity|exact H1]).
    assert (exp (x * x) <= exp (y * y)) as He.
    { destruct (Rle_lt_or_eq_dec (x * x) (y * y)) as [L|E]; [nra|left; apply exp_increasing; exact L|rewrite E; apply Rle_refl]. }
    pose proof (exp_pos (x * x)). split; [apply Rmult_le_pos; [nra|lra]|].
    apply Rmult_le_compat; [nra|lra|nra|exact He].
  - assert (0 < y) by (eapply Pz; [reflexivity|exact H2]). pose proof (exp_pos (y * y)). split; [lra|]. apply Rmult_le_pos; [nra|lra].
Qed.

(** the from/to label decodes uniquely up to ten phases ... *)
Theorem C39_fromto_decodes_up_to_ten : forall i j i' j',
  (i < 10)%nat -> (j < 10)%nat -> (i' < 10)%nat -> (j' < 10)%nat -> (i * 10 + j = i' * 10 + j')%nat -> i = i' /\ j = j'.
Proof. intros. lia. Qed.
(** ... and not beyond: with eleven phases two different transitions of one run carry the same label *)
Theorem C54_fromto_eleven_phases_refuted : exists (n : nat) (w b gibbs : nat -> R) (go : nat -> nat) lr0 ft0 j k j' k',
  n = 11%nat /\ lists_all_phases n go /\ (forall i m, (i <= m < n)%nat -> gibbs (go m) <= gibbs (go i)) /\
  (j < k < n)%nat /\ (j' < k' < n)%nat /\ (go j, go k) <> (go j', go k') /\
  snd (LogRatesCGModel w b n gibbs go lr0 ft0) (doc_slot n j k) = snd (LogRatesCGModel w b n gibbs go lr0 ft0) (doc_slot n j' k').
Proof.
  (* order: 1, 0, 2, ..., 10 : transitions 1 -> 0 and 0 -> 10 *)
  set (go := fun i => match i with 0 => 1 | 1 => 0 | S (S k) => S (S k) end%nat).
  exists 11%nat, (fun _ => 1), (fun _ => 1), (fun _ => 0), go, (fun _ => None), (fun _ => 0%nat), 0%nat, 1%nat, 1%nat, 10%nat.
  assert (lists_all_phases 11 go) as Ho.
  { unfold lists_all_phases. cbn. apply perm_swap. }
  refine (conj eq_refl (conj Ho (conj _ (conj _ (conj _ (conj _ _)))))).
  - intros; apply Rle_refl.
  - lia.
  - lia.
  - cbn. congruence.
  - pose proof (C39_rates_are_greeff 11 (fun _ => 1) (fun _ => 1) (fun _ => 0) go (fun _ => None) (fun _ => 0%nat)) as H.
    destruct H as (_ & H & _); [intros; lra|intros; lra|exact Ho|intros; apply Rle_refl|].
    rewrite !H by lia. reflexivity.
Qed.

(** * The update *)
Lemma received_total n (d : nat -> R) j : (j < n)%nat -> rsum j (fun k => d (slot n k j)) = total j (fun k => d (doc_slot n k j)).
Proof. intros Hj. rewrite (total_rsum j (fun k => d (doc_slot n k j))). apply rsum_ext. intros k Hk. rewrite doc_slot_eq by lia. reflexivity. Qed.
Lemma slot_range n j k : (j < k < n)%nat -> (slot n j k < base n (n - 1))%nat.
Proof. intros H. pose proof (slot_lt_base n j k H). pose proof (base_mono n (S j) (n - 1) ltac:(lia)). lia. Qed.
Lemma base_len n : (n * (n - 1) / 2 = base n (n - 1))%nat.
Proof. rewrite <- base_last, (Nat.mul_comm 2), Nat.div_mul by lia. reflexivity. Qed.

Section Upd.
Variables (logdt : R) (n : nat) (mfs : nat -> R) (order : nat -> nat) (lr : nat -> option R) (d0 nw0 : nat -> R).
Hypothesis Hn : (0 < n)%nat.
Hypothesis Ho : lists_all_phases n order.
Hypothesis Hmf : forall i, (i < n)%nat -> 0 <= mfs i.
Let r := SmallStepMFUpdate logdt n mfs order lr d0 nw0.
Let dmfs := fst r.
Let newmfs := snd r.

Let U : update_facts logdt n mfs order lr d0 nw0 dmfs newmfs := update_ok logdt n mfs order lr d0 nw0 Ho Hmf Hn.

Lemma newmfs_nonneg i : (i < n)%nat -> 0 <= newmfs i.
Proof.
  intros Hi. destruct (phase_order_surj n order Ho i Hi) as (j & Hj & <-). pose proof MIN_pos as MP.
  destruct (Nat.eq_dec j (n - 1)) as [->|Hne].
  - rewrite (uf_last _ _ _ _ _ _ _ _ _ U). apply avail_nonneg; [assumption..|lia|]. apply (uf_nn _ _ _ _ _ _ _ _ _ U).
  - pose proof (uf_bal _ _ _ _ _ _ _ _ _ U j ltac:(lia)) as B. unfold row_balance in B. lra.
Qed.
End Upd.

(** Every transfer and every new fraction is non-negative; nothing is written beyond the first n fractions and the
    n(n-1)/2 transfers. *)
Theorem C38_fractions_stay_nonnegative : forall logdt n mfs order lr d0 nw0,
  (0 < n)%nat -> lists_all_phases n order -> (forall i, (i < n)%nat -> 0 <= mfs i) ->
  let r := SmallStepMFUpdate logdt n mfs order lr d0 nw0 in
  (forall i, (i < n)%nat -> 0 <= snd r i) /\
  (forall i, (i < n * (n - 1) / 2)%nat -> 0 <= fst r i) /\
  (forall i, (n <= i)%nat -> snd r i = nw0 i) /\
  (forall i, (n * (n - 1) / 2 <= i)%nat -> fst r i = d0 i).
Proof.
  intros logdt n mfs order lr d0 nw0 Hn Ho Hmf r.
  pose proof (update_ok logdt n mfs order lr d0 nw0 Ho Hmf Hn) as U. cbv zeta in U. fold r in U.
  refine (conj _ (conj _ (conj _ _))).
  - intros i Hi. apply (newmfs_nonneg logdt n mfs order lr d0 nw0 Hn Ho Hmf i Hi).
  - intros i Hi. apply (uf_nn _ _ _ _ _ _ _ _ _ U). rewrite base_len in Hi. exact Hi.
  - intros i Hi. apply (uf_out _ _ _ _ _ _ _ _ _ U i Hi).
  - intros i Hi. apply (uf_outd _ _ _ _ _ _ _ _ _ U). rewrite base_len in Hi. exact Hi.
Qed.

(** What happens to each phase. Position j of the order (not the last): let [avail] be its fraction plus what the
    higher phases gave it. If [avail] is below 1e-10 the phase gives nothing and is set to 0; otherwise what it gives
    plus what it keeps is exactly [avail]. The last phase keeps everything it has and receives. *)
Theorem C38_phase_balance : forall logdt n mfs order lr d0 nw0,
  (0 < n)%nat -> lists_all_phases n order -> (forall i, (i < n)%nat -> 0 <= mfs i) ->
  let r := SmallStepMFUpdate logdt n mfs order lr d0 nw0 in
  let avail := fun j => mfs (order j) + total j (fun k => fst r (doc_slot n k j)) in
  let given := fun j => total (n - 1 - j) (fun q => fst r (doc_slot n j (n - 1 - q))) in
  (forall j, (j < n - 1)%nat -> avail j < / 10000000000 -> given j = 0 /\ snd r (order j) = 0) /\
  (forall j, (j < n)%nat -> (j < n - 1)%nat -> / 10000000000 <= avail j -> given j + snd r (order j) = avail j) /\
  snd r (order (n - 1)%nat) = avail (n - 1)%nat.
Proof.
  intros logdt n mfs order lr d0 nw0 Hn Ho Hmf r av gv.
  pose proof (update_ok logdt n mfs order lr d0 nw0 Ho Hmf Hn) as U. cbv zeta in U. fold r in U.
  assert (forall j, (j < n)%nat -> av j = avail n mfs order (fst r) j) as Ea.
  { intros j Hj. unfold av, avail. f_equal. symmetry. apply (received_total n (fst r) j Hj). }
  assert (forall j, (j < n - 1)%nat -> gv j = given n (fst r) j) as Eg.
  { intros j Hj. unfold gv, given. change total with rsum. apply rsum_ext. intros q Hq. rewrite doc_slot_eq by lia. unfold slot. f_equal. lia. }
  fold MIN_MF. refine (conj _ (conj _ _)).
  - intros j Hj. rewrite Ea, Eg by lia. intros L. pose proof (uf_bal _ _ _ _ _ _ _ _ _ U j Hj) as B. unfold row_balance in B. lra.
  - intros j _ Hj. rewrite Ea, Eg by lia. intros L. pose proof (uf_bal _ _ _ _ _ _ _ _ _ U j Hj) as B. unfold row_balance in B. lra.
  - rewrite Ea by lia. apply (uf_last _ _ _ _ _ _ _ _ _ U).
Qed.

Lemma total_balance logdt n mfs order lr d0 nw0 : (0 < n)%nat -> lists_all_phases n order -> (forall i, (i < n)%nat -> 0 <= mfs i) ->
  let r := SmallStepMFUpdate logdt n mfs order lr d0 nw0 in
  rsum n (snd r) = rsum n mfs - rsum (n - 1) (dropped n mfs order (fst r)).
Proof.
  intros Hn Ho Hmf r. pose proof (update_ok logdt n mfs order lr d0 nw0 Ho Hmf Hn) as U. cbv zeta in U. fold r in U.
  pose proof (weighted_balance logdt n mfs order lr d0 nw0 Ho Hn (fst r) (snd r) (fun _ => 1) U) as W. cbv beta in W.
  rewrite (rsum_ext n (fun i => 1 * snd r i) (snd r)) in W by (intros; lra).
  rewrite (rsum_ext n (fun i => 1 * mfs i) mfs) in W by (intros; lra).
  rewrite (rsum_ext (n - 1) _ (dropped n mfs order (fst r))) in W by (intros; lra).
  rewrite (rsum_ext n (fun k => rsum (n - 1 - k) _) (fun _ => 0)) in W.
  2:{ intros k Hk. rewrite (rsum_ext (n - 1 - k) _ (fun _ => 0)); [apply rsum_zero|]. intros. ring. }
  rewrite rsum_zero in W. rewrite W. lra.
Qed.

(** Mass is never created, and a step loses less than 1e-10 per phase other than the lowest. *)
Theorem C38_total_mass_bounds : forall logdt n mfs order lr d0 nw0,
  (0 < n)%nat -> lists_all_phases n order -> (forall i, (i < n)%nat -> 0 <= mfs i) ->
  let r := SmallStepMFUpdate logdt n mfs order lr d0 nw0 in
  total n mfs - INR (n - 1) * / 10000000000 <= total n (snd r) <= total n mfs.
Proof.
  intros logdt n mfs order lr d0 nw0 Hn Ho Hmf r. change total with rsum.
  pose proof (update_ok logdt n mfs order lr d0 nw0 Ho Hmf Hn) as U. cbv zeta in U. fold r in U.
  unfold r. rewrite total_balance by assumption. fold r. fold MIN_MF.
  assert (forall j, (j < n - 1)%nat -> 0 <= dropped n mfs order (fst r) j < MIN_MF) as D.
  { intros j Hj. apply (dropped_bounds logdt n mfs order lr d0 nw0 Ho Hmf Hn (fst r) (snd r) j U Hj). }
  assert (0 <= rsum (n - 1) (dropped n mfs order (fst r))) by (apply rsum_nonneg; intros; apply D; assumption).
  assert (rsum (n - 1) (dropped n mfs order (fst r)) <= rsum (n - 1) (fun _ => 1 * MIN_MF)).
  { apply rsum_le. intros j Hj. pose proof (D j Hj). lra. }
  rewrite rsum_scal_r in *. assert (forall m, rsum m (fun _ => 1) = INR m) as EI.
  { induction m; [reflexivity|]. rewrite S_INR. cbn [rsum]. rewrite IHm. reflexivity. }
  rewrite EI in *. lra.
Qed.

(** The total is exactly conserved as soon as no phase but the lowest starts with a positive trace below 1e-10 and
    receives too little to exceed it; in particular when every fraction but the lowest phase's is at least 1e-10. *)
Theorem C38_total_mass_exact : forall logdt n mfs order lr d0 nw0,
  (0 < n)%nat -> lists_all_phases n order -> (forall i, (i < n)%nat -> 0 <= mfs i) ->
  let r := SmallStepMFUpdate logdt n mfs order lr d0 nw0 in
  let avail := fun j => mfs (order j) + total j (fun k => fst r (doc_slot n k j)) in
  (forall j, (j < n - 1)%nat -> avail j = 0 \/ / 10000000000 <= avail j) ->
  total n (snd r) = total n mfs.
Proof.
  intros logdt n mfs order lr d0 nw0 Hn Ho Hmf r av Hav. change total with rsum. unfold r. rewrite total_balance by assumption. fold r.
  rewrite (rsum_ext (n - 1) (dropped n mfs order (fst r)) (fun _ => 0)); [rewrite (rsum_zero (n - 1)); lra|]. intros j Hj. specialize (Hav j Hj). unfold av in Hav.
  rewrite <- (received_total n (fst r) j) in Hav by lia. fold (avail n mfs order (fst r) j) in Hav.
  fold MIN_MF in Hav. unfold dropped. case Rlt_bool_spec; intros; lra.
Qed.
Theorem C38_total_mass_exact_no_traces : forall logdt n mfs order lr d0 nw0,
  (0 < n)%nat -> lists_all_phases n order -> (forall i, (i < n)%nat -> 0 <= mfs i) ->
  (forall j, (j < n - 1)%nat -> / 10000000000 <= mfs (order j)) ->
  total n (snd (SmallStepMFUpdate logdt n mfs order lr d0 nw0)) = total n mfs.
Proof.
  intros logdt n mfs order lr d0 nw0 Hn Ho Hmf Hm. apply C38_total_mass_exact; [assumption..|]. intros j Hj. right.
  pose proof (update_ok logdt n mfs order lr d0 nw0 Ho Hmf Hn) as U. cbv zeta in U.
  rewrite <- received_total by lia. eapply Rle_trans; [apply Hm; exact Hj|].
  assert (0 <= rsum j (fun k => fst (SmallStepMFUpdate logdt n mfs order lr d0 nw0) (slot n k j))); [|lra].
  apply rsum_nonneg. intros k Hk. apply (uf_nn _ _ _ _ _ _ _ _ _ U). apply slot_range. lia.
Qed.

(** Without such a condition the total is not conserved: a trace of the higher phase vanishes. *)
Theorem C48_total_mass_conserved_refuted : exists logdt n mfs order lr d0 nw0,
  (0 < n)%nat /\ lists_all_phases n order /\ (forall i, (i < n)%nat -> 0 <= mfs i) /\ total n mfs = 1 /\
  total n (snd (SmallStepMFUpdate logdt n mfs order lr d0 nw0)) < 1.
Proof.
  set (mfs := fun i : nat => match i with O => / 100000000000 | _ => 1 - / 100000000000 end).
  exists 0, 2%nat, mfs, (fun i => i), (fun _ => None), (fun _ => 0), (fun _ => 0).
  assert (lists_all_phases 2 (fun i => i)) as Ho by (unfold lists_all_phases; cbn; apply Permutation_refl).
  assert (forall i, (i < 2)%nat -> 0 <= mfs i) as Hm by (intros [|[|i]] Hi; cbn; try lia; lra).
  refine (conj _ (conj Ho (conj Hm (conj _ _)))); [lia|cbn; lra|].
  rewrite total_rsum, total_balance by (assumption || lia).
  cbn [Nat.sub rsum]. unfold dropped, avail. cbn [rsum]. rewrite Rlt_bool_true; unfold mfs, MIN_MF; lra.
Qed.

(** A step never raises the Gibbs free energy of the mixture: if the order is by decreasing Gibbs energy and no trace is
    dropped, sum_i mu_i G_i does not increase. *)
Theorem C38_gibbs_energy_never_rises : forall logdt n mfs order lr d0 nw0 (G : nat -> R),
  (0 < n)%nat -> lists_all_phases n order -> (forall i, (i < n)%nat -> 0 <= mfs i) ->
  (forall i j, (i <= j < n)%nat -> G (order j) <= G (order i)) ->
  (forall j, (j < n - 1)%nat -> / 10000000000 <= mfs (order j)) ->
  let newmfs := snd (SmallStepMFUpdate logdt n mfs order lr d0 nw0) in
  total n (fun i => newmfs i * G i) <= total n (fun i => mfs i * G i).
Proof.
  intros logdt n mfs order lr d0 nw0 G Hn Ho Hmf HG Hm nw. change total with rsum.
  pose proof (update_ok logdt n mfs order lr d0 nw0 Ho Hmf Hn) as U. cbv zeta in U.
  set (d := fst (SmallStepMFUpdate logdt n mfs order lr d0 nw0)) in *. fold nw in U.
  pose proof (weighted_balance logdt n mfs order lr d0 nw0 Ho Hn d nw G U) as W.
  rewrite (rsum_ext n (fun i => nw i * G i) (fun i => G i * nw i)) by (intros; ring).
  rewrite (rsum_ext n (fun i => mfs i * G i) (fun i => G i * mfs i)) by (intros; ring).
  rewrite W. rewrite (rsum_ext (n - 1) _ (fun _ => 0)), rsum_zero.
  2:{ intros j Hj. unfold dropped. rewrite Rlt_bool_false; [ring|]. unfold avail. pose proof (Hm j Hj). fold MIN_MF in H.
      assert (0 <= rsum j (fun k => d (slot n k j))); [|lra]. apply rsum_nonneg. intros k Hk. apply (uf_nn _ _ _ _ _ _ _ _ _ U). apply slot_range. lia. }
  assert (0 <= rsum n (fun k => rsum (n - 1 - k) (fun q => (G (order k) - G (order (n - 1 - q)%nat)) * d (slot n k (n - 1 - q))))); [|lra].
  apply rsum_nonneg. intros k Hk. apply rsum_nonneg. intros q Hq. apply Rmult_le_pos.
  - pose proof (HG k (n - 1 - q)%nat ltac:(lia)). lra.
  - apply (uf_nn _ _ _ _ _ _ _ _ _ U). apply slot_range. lia.
Qed.

(** The highest phase never gains and the lowest never loses. *)
Theorem C38_highest_never_gains_lowest_never_loses : forall logdt n mfs order lr d0 nw0,
  (0 < n)%nat -> lists_all_phases n order -> (forall i, (i < n)%nat -> 0 <= mfs i) ->
  let newmfs := snd (SmallStepMFUpdate logdt n mfs order lr d0 nw0) in
  newmfs (order 0%nat) <= mfs (order 0%nat) /\ mfs (order (n - 1)%nat) <= newmfs (order (n - 1)%nat).
Proof.
  intros logdt n mfs order lr d0 nw0 Hn Ho Hmf nw.
  pose proof (update_ok logdt n mfs order lr d0 nw0 Ho Hmf Hn) as U. cbv zeta in U. fold nw in U.
  set (d := fst (SmallStepMFUpdate logdt n mfs order lr d0 nw0)) in *.
  assert (forall j, (j < n)%nat -> 0 <= rsum j (fun k => d (slot n k j))) as R.
  { intros j Hj. apply rsum_nonneg. intros k Hk. apply (uf_nn _ _ _ _ _ _ _ _ _ U). apply slot_range. lia. }
  split.
  - destruct (Nat.eq_dec n 1) as [->|].
    + change 0%nat with (1 - 1)%nat at 1. rewrite (uf_last _ _ _ _ _ _ _ _ _ U). unfold avail. cbn [Nat.sub rsum]. lra.
    + rewrite (out_eq logdt n mfs order lr d0 nw0 d nw 0 U) by lia.
      pose proof (dropped_bounds logdt n mfs order lr d0 nw0 Ho Hmf Hn d nw 0 U ltac:(lia)).
      assert (0 <= given n d 0). { apply rsum_nonneg. intros q Hq. apply (uf_nn _ _ _ _ _ _ _ _ _ U).
        pose proof (base_mono n 1 (n - 1) ltac:(lia)) as BM. cbn [base] in *. lia. }
      unfold avail. cbn [rsum]. lra.
  - rewrite (uf_last _ _ _ _ _ _ _ _ _ U). unfold avail. pose proof (R (n - 1)%nat ltac:(lia)). lra.
Qed.

Lemma request_eq logdt mfs go lr j jk : 0 <= mfs (go j) -> request logdt mfs go lr j jk = exp logdt * xexp (lr jk) * mfs (go j).
Proof.
  intros H. unfold request, xlog. case Req_bool_spec; intros E.
  - rewrite E. destruct (lr jk); cbn [xadd xexp]; ring.
  - destruct (lr jk); cbn [xadd xexp]; [|ring]. rewrite !exp_plus, exp_ln by lra. ring.
Qed.

(** Sort, rate and update composed: the new fractions satisfy the documented master equation
      mu_i' = mu_i + dt * sum_j (mu_j R_ji - mu_i R_ij)
    with Greeff's rates, whenever no phase but the lowest is exhausted by the step. *)
Theorem C38_master_equation : forall logdt n mfs nu B G o0 lr0 ft0 d0 nw0,
  (0 < n)%nat -> (forall i, (i < n)%nat -> 0 <= mfs i) ->
  (forall i, (i < n * n)%nat -> 0 <= nu i) -> (forall i, (i < n * n)%nat -> 0 < B i) ->
  let order := @SortGibbs RArith n G o0 in
  let lr := fst (LogRatesCGModel nu B n G order lr0 ft0) in
  let newmfs := snd (SmallStepMFUpdate logdt n mfs order lr d0 nw0) in
  (forall j, (j < n - 1)%nat -> 0 < newmfs (order j)) ->
  forall i, (i < n)%nat ->
    newmfs i = mfs i + exp logdt * total n (fun j => mfs j * greeff_rate n nu B G j i - mfs i * greeff_rate n nu B G i j).
Proof.
  intros logdt n mfs nu B G o0 lr0 ft0 d0 nw0 Hn Hmf Hnu HB order lr nw Hpos i Hi.
  destruct (C39_sort_lists_all_phases RArith n G o0) as [Ho _]. fold order in Ho.
  pose proof (C39_sort_descending n G o0) as Hs. cbv zeta in Hs. fold order in Hs.
  destruct (C39_rates_are_greeff n nu B G order lr0 ft0 Hnu HB Ho Hs) as (HR & _ & _). fold lr in HR.
  pose proof (update_ok logdt n mfs order lr d0 nw0 Ho Hmf Hn) as U. cbv zeta in U. fold nw in U.
  set (d := fst (SmallStepMFUpdate logdt n mfs order lr d0 nw0)) in *.
  assert (forall j k, (j < k < n)%nat -> d (slot n j k) = exp logdt * (mfs (order j) * greeff_rate n nu B G (order j) (order k))) as Hd.
  { intros j k H. unfold slot.
    assert (given n d j + nw (order j) = avail n mfs order d j) as Bs.
    { pose proof (uf_bal _ _ _ _ _ _ _ _ _ U j ltac:(lia)) as Bl. pose proof (Hpos j ltac:(lia)). unfold row_balance in Bl. lra. }
    rewrite (uf_full _ _ _ _ _ _ _ _ _ U j ltac:(lia) Bs (Hpos j ltac:(lia)) (n - 1 - k)%nat ltac:(lia)).
    fold (slot n j k). rewrite request_eq by (apply Hmf, phase_order_bound; [exact Ho|lia]).
    rewrite <- doc_slot_eq by exact H. rewrite HR by exact H. ring. }
  assert (forall j k, (k <= j < n)%nat -> greeff_rate n nu B G (order j) (order k) = 0) as Hz.
  { intros j k H. unfold greeff_rate. cbv zeta. rewrite Rlt_bool_false; [reflexivity|]. apply Hs. lia. }
  destruct (phase_order_surj n order Ho i Hi) as (m & Hm & <-).
  change total with rsum.
  rewrite <- (rsum_order n order (fun j => mfs j * greeff_rate n nu B G j (order m) - mfs (order m) * greeff_rate n nu B G (order m) j) Ho).
  rewrite rsum_minus.
  (* inflow *)
  assert (rsum n (fun j => mfs (order j) * greeff_rate n nu B G (order j) (order m)) * exp logdt = rsum m (fun k => d (slot n k m))) as Ein.
  { rewrite (rsum_below n m) by lia. rewrite <- rsum_scal_r. apply rsum_ext. intros k Hk.
    destruct (Nat.ltb_spec k m); [rewrite Hd by lia; ring|]. rewrite Hz by lia. ring. }
  (* outflow *)
  assert (rsum n (fun j => mfs (order m) * greeff_rate n nu B G (order m) (order j)) * exp logdt = given n d m) as Eout.
  { rewrite <- (rsum_rev n). unfold given. rewrite (rsum_below n (n - 1 - m)) by lia. rewrite <- rsum_scal_r. apply rsum_ext. intros q Hq.
    destruct (Nat.ltb_spec q (n - 1 - m)); [|rewrite Hz by lia; ring].
    replace (base n m + q)%nat with (slot n m (n - 1 - q)) by (unfold slot; lia). rewrite Hd by lia. ring. }
  destruct (Nat.eq_dec m (n - 1)) as [->|Hne].
  - rewrite (uf_last _ _ _ _ _ _ _ _ _ U). unfold avail. rewrite <- Ein.
    assert (given n d (n - 1) = 0) as Z by (unfold given; rewrite Nat.sub_diag; reflexivity). rewrite Z in Eout. lra.
  - pose proof (uf_bal _ _ _ _ _ _ _ _ _ U m ltac:(lia)) as Bl. pose proof (Hpos m ltac:(lia)) as Pm. unfold row_balance in Bl.
    assert (given n d m + nw (order m) = avail n mfs order d m) as E by lra. unfold avail in E. rewrite <- Ein, <- Eout in E. lra.
Qed.

(** * Time step *)
Record ts_inv (n : nat) (mfs : nat -> R) (go : nat -> nat) (lr : nat -> option R) (top : nat) (s : R * nat) : Prop := {
  ti_jk : snd s = top;
  ti_le1 : fst s <= 1;
  ti_le : forall j k y, (j < k < n)%nat -> (slot n j k < top)%nat -> MIN_MF < mfs (go j) -> lr (slot n j k) = Some y -> fst s <= - y;
  ti_att : fst s = 1 \/ exists j k y, (j < k < n)%nat /\ MIN_MF < mfs (go j) /\ lr (slot n j k) = Some y /\ fst s = - y
}.
Lemma timestep_ok n mfs go lr : ts_inv n mfs go lr (base n (n - 1)) (LogMaxTimeStep n mfs go lr, base n (n - 1)).
Proof.
  unfold LogMaxTimeStep. set (F := fun s j => fold_left (ts_step mfs go lr j) (down n j) s).
  assert (ts_inv n mfs go lr (base n (n - 1)) (fold_left F (seq 0 (n - 1)) (1, 0%nat))) as H.
  2:{ destruct (fold_left F (seq 0 (n - 1)) (1, 0%nat)) as [x jk]. destruct H as [H1 H2 H3 H4]. cbn [fst snd] in *. constructor; auto. }
  pose proof (fold_seq_ind F (fun j s => ts_inv n mfs go lr (base n j) s) (n - 1) 0 (1, 0%nat)) as FI. cbn [Nat.add] in FI.
  apply FI; clear FI.
  - constructor; cbn [fst snd base]; [reflexivity|lra|intros; lia|left; reflexivity].
  - intros j s Hj Hs. unfold F. cbn [base].
    apply (fold_down_ind (ts_step mfs go lr j) (fun p s => ts_inv n mfs go lr (base n j + p) s) n j s).
    + rewrite Nat.add_0_r. exact Hs.
    + intros p [x jk] Hp [I1 I2 I3 I4]. cbn [fst snd] in *. subst jk. unfold ts_step.
      set (k := (n - 1 - p)%nat). assert (base n j + p = slot n j k)%nat as Esl by (unfold slot, k; lia).
      assert (j < k < n)%nat as Hk by (unfold k; lia). clearbody k.
      rewrite Nat.add_succ_r. rewrite Esl in *.
      case Rlt_bool_spec; intros Hc.
      * destruct (lr (slot n j k)) as [y|] eqn:Ey; cbn [xneg_min]; constructor; cbn [fst snd]; try reflexivity.
        -- eapply Rle_trans; [apply Rmin_l|exact I2].
        -- intros j' k' y' H' L Hm' E'. destruct (Nat.eq_dec (slot n j' k') (slot n j k)) as [E|E].
           ++ rewrite E, Ey in E'. injection E' as <-. apply Rmin_r.
           ++ eapply Rle_trans; [apply Rmin_l|]. apply (I3 j' k' y'); [assumption|lia|assumption..].
        -- unfold Rmin. destruct (Rle_dec x (- y)); [exact I4|]. right. exists j, k, y. auto.
        -- exact I2.
        -- intros j' k' y' H' L Hm' E'. destruct (Nat.eq_dec (slot n j' k') (slot n j k)) as [E|E].
           ++ rewrite E, Ey in E'. discriminate.
           ++ apply (I3 j' k' y'); [assumption|lia|assumption..].
        -- exact I4.
      * constructor; cbn [fst snd]; [reflexivity|exact I2| |exact I4].
        intros j' k' y' H' L Hm' E'. destruct (Nat.eq_dec (slot n j' k') (slot n j k)) as [E|E].
        -- apply slot_inj in E; [|assumption..]. destruct E as [-> ->]. lra.
        -- apply (I3 j' k' y'); [assumption|lia|assumption..].
Qed.

(** The suggested step is at most e, at most the inverse of every rate out of an active phase (fraction above 1e-10),
    and is the largest such step. *)
Theorem C38_time_step : forall n mfs order lr logdt,
  logdt <= LogMaxTimeStep n mfs order lr <->
  logdt <= 1 /\ forall j k, (j < k < n)%nat -> / 10000000000 < mfs (order j) -> exp logdt * xexp (lr (doc_slot n j k)) <= 1.
Proof.
  intros n mfs order lr logdt. pose proof (timestep_ok n mfs order lr) as [_ T1 T2 T3]. cbn [fst snd] in *. fold MIN_MF. split.
  - intros L. split; [lra|]. intros j k H Hm. rewrite doc_slot_eq by exact H. destruct (lr (slot n j k)) as [y|] eqn:E; cbn [xexp]; [|lra].
    rewrite <- exp_plus, <- exp_0. pose proof (T2 j k y H (slot_range n j k H) Hm E).
    destruct (Rle_lt_or_eq_dec (logdt + y) 0) as [Lt|Eq]; [lra|left; apply exp_increasing; exact Lt|rewrite Eq; apply Rle_refl].
  - intros [L1 L2]. destruct T3 as [E|(j & k & y & H & Hm & Ey & E)]; [lra|].
    specialize (L2 j k H Hm). rewrite doc_slot_eq, Ey in L2 by exact H. cbn [xexp] in L2. rewrite <- exp_plus, <- exp_0 in L2.
    rewrite E. destruct (Rle_or_lt logdt (- y)) as [|G]; [assumption|]. assert (exp 0 < exp (logdt + y)) by (apply exp_increasing; lra). lra.
Qed.

(** With a step no longer than suggested, the update never moves more than a phase's own initial fraction (plus the
    1e-10 cutoff) along one transition. *)
Theorem C38_suggested_step_transfers : forall logdt n mfs order lr d0 nw0,
  (0 < n)%nat -> lists_all_phases n order -> (forall i, (i < n)%nat -> 0 <= mfs i) ->
  logdt <= LogMaxTimeStep n mfs order lr ->
  forall j k, (j < k < n)%nat -> / 10000000000 < mfs (order j) ->
  0 <= fst (SmallStepMFUpdate logdt n mfs order lr d0 nw0) (doc_slot n j k) <= mfs (order j) + / 10000000000.
Proof.
  intros logdt n mfs order lr d0 nw0 Hn Ho Hmf Hl j k H Hm.
  pose proof (update_ok logdt n mfs order lr d0 nw0 Ho Hmf Hn) as U. cbv zeta in U.
  apply C38_time_step in Hl. destruct Hl as [_ Hl]. specialize (Hl j k H Hm). rewrite doc_slot_eq in * by exact H.
  split; [apply (uf_nn _ _ _ _ _ _ _ _ _ U), slot_range; exact H|].
  pose proof (uf_le _ _ _ _ _ _ _ _ _ U j (n - 1 - k)%nat ltac:(lia) ltac:(lia)) as L. fold (slot n j k) in L.
  rewrite request_eq in L by (apply Hmf, phase_order_bound; [exact Ho|lia]). fold MIN_MF in Hm |- *. pose proof MIN_pos.
  eapply Rle_trans; [exact L|]. assert (exp logdt * xexp (lr (slot n j k)) * mfs (order j) <= mfs (order j)) by nra.
  apply Rmax_lub; [lra|]. eapply Rle_trans; [apply Rmin_r|]. lra.
Qed.

(** Input-only condition under which no phase is exhausted: each non-lowest phase holds at least 1e-10 more than the
    total the rates ask it to give. *)
Theorem C38_master_equation_small_steps : forall logdt n mfs nu B G o0 lr0 ft0 d0 nw0,
  (0 < n)%nat -> (forall i, (i < n)%nat -> 0 <= mfs i) ->
  (forall i, (i < n * n)%nat -> 0 <= nu i) -> (forall i, (i < n * n)%nat -> 0 < B i) ->
  let order := @SortGibbs RArith n G o0 in
  (forall j, (j < n - 1)%nat ->
     exp logdt * total n (fun k => mfs (order j) * greeff_rate n nu B G (order j) k) + / 10000000000 <= mfs (order j)) ->
  let lr := fst (LogRatesCGModel nu B n G order lr0 ft0) in
  let newmfs := snd (SmallStepMFUpdate logdt n mfs order lr d0 nw0) in
  forall i, (i < n)%nat ->
    newmfs i = mfs i + exp logdt * total n (fun j => mfs j * greeff_rate n nu B G j i - mfs i * greeff_rate n nu B G i j).
Proof.
  intros logdt n mfs nu B G o0 lr0 ft0 d0 nw0 Hn Hmf Hnu HB order Hsm lr nw i Hi.
  apply C38_master_equation; try assumption. fold order. fold lr. fold nw. clear i Hi.
  destruct (C39_sort_lists_all_phases RArith n G o0) as [Ho _]. fold order in Ho.
  pose proof (C39_sort_descending n G o0) as Hs. cbv zeta in Hs. fold order in Hs.
  destruct (C39_rates_are_greeff n nu B G order lr0 ft0 Hnu HB Ho Hs) as (HR & _ & _). fold lr in HR.
  pose proof (update_ok logdt n mfs order lr d0 nw0 Ho Hmf Hn) as U. cbv zeta in U. fold nw in U.
  set (d := fst (SmallStepMFUpdate logdt n mfs order lr d0 nw0)) in *. pose proof MIN_pos as MP.
  assert (forall j k, (k <= j < n)%nat -> greeff_rate n nu B G (order j) (order k) = 0) as Hz.
  { intros j k H. unfold greeff_rate. cbv zeta. rewrite Rlt_bool_false; [reflexivity|]. apply Hs. lia. }
  intros j Hj. pose proof (phase_order_bound n order Ho j ltac:(lia)) as Bj.
  specialize (Hsm j Hj). fold MIN_MF in Hsm.
  assert (exp logdt * total n (fun k => mfs (order j) * greeff_rate n nu B G (order j) k) =
          rsum (n - 1 - j) (fun q => request logdt mfs order lr j (base n j + q))) as E.
  { change total with rsum. rewrite <- (rsum_order n order (fun k => mfs (order j) * greeff_rate n nu B G (order j) k) Ho).
    rewrite <- (rsum_rev n), <- rsum_scal. rewrite (rsum_below n (n - 1 - j)) by lia. apply rsum_ext. intros q Hq.
    destruct (Nat.ltb_spec q (n - 1 - j)); [|rewrite Hz by lia; ring].
    rewrite request_eq by (apply Hmf; exact Bj).
    replace (base n j + q)%nat with (doc_slot n j (n - 1 - q)) by (rewrite doc_slot_eq by lia; unfold slot; lia).
    rewrite HR by lia. ring. }
  rewrite E in Hsm.
  assert (0 <= rsum (n - 1 - j) (fun q => request logdt mfs order lr j (base n j + q))) by (apply rsum_nonneg; intros; apply xexp_nonneg).
  assert (mfs (order j) <= avail n mfs order d j) as Ha.
  { unfold avail. assert (0 <= rsum j (fun k => d (slot n k j))); [|lra]. apply rsum_nonneg. intros k Hk. apply (uf_nn _ _ _ _ _ _ _ _ _ U). apply slot_range. lia. }
  destruct (uf_bal _ _ _ _ _ _ _ _ _ U j Hj) as [Bl|[Bl|Bl]]; [lra| |lra].
  destruct Bl as (B1 & _ & B3). pose proof (uf_depl _ _ _ _ _ _ _ _ _ U j Hj B1 B3). lra.
Qed.

(** Equal Gibbs energies: nothing moves, whatever the step. *)
Theorem C38_equilibrium_is_fixed : forall logdt n mfs nu B (g : R) o0 lr0 ft0 d0 nw0,
  (0 < n)%nat -> (forall i, (i < n)%nat -> / 10000000000 <= mfs i) ->
  (forall i, (i < n * n)%nat -> 0 <= nu i) -> (forall i, (i < n * n)%nat -> 0 < B i) ->
  let G := fun _ : nat => g in
  let order := @SortGibbs RArith n G o0 in
  let lr := fst (LogRatesCGModel nu B n G order lr0 ft0) in
  forall i, (i < n)%nat -> snd (SmallStepMFUpdate logdt n mfs order lr d0 nw0) i = mfs i.
Proof.
  intros logdt n mfs nu B g o0 lr0 ft0 d0 nw0 Hn Hm Hnu HB G order lr i Hi.
  assert (forall i j, greeff_rate n nu B G i j = 0) as Z by (intros; unfold greeff_rate, G; rewrite Rlt_bool_false by lra; reflexivity).
  assert (forall f : nat -> R, (forall j, f j = 0) -> total n f = 0) as T0.
  { intros f Hf. rewrite total_rsum, (rsum_ext n f (fun _ => 0)), rsum_zero; auto. }
  unfold lr, order. rewrite C38_master_equation_small_steps; try assumption.
  - rewrite T0; [ring|]. intros j. rewrite !Z. ring.
  - intros k Hk. specialize (Hm k Hk). lra.
  - intros k Hk. rewrite T0; [|intros j; rewrite Z; ring].
    rewrite Rmult_0_r, Rplus_0_l. apply Hm. apply (phase_order_bound n order); [|lia]. apply C39_sort_lists_all_phases.
Qed.

(** * Non-vacuity *)
Definition ex_mf (i : nat) : R := match i with O => / 2 | 1%nat => 3 / 10 | _ => / 5 end.
Definition ex_G (i : nat) : R := match i with O => 1 | 1%nat => 2 | _ => 0 end.
(** three phases with distinct Gibbs energies, unit fitting constants: the order is 1, 0, 2 and a short enough step
    meets every hypothesis above *)
Example ex_order : forall i, (i < 3)%nat -> @SortGibbs RArith 3 ex_G (fun _ => 0%nat) i = nth i [1; 0; 2]%nat 0%nat.
Proof.
  pose proof (C39_sort_descending 3 ex_G (fun _ => 0%nat)) as H. cbv zeta in H.
  destruct (C39_sort_lists_all_phases RArith 3 ex_G (fun _ => 0%nat)) as [Ho _].
  set (o := @SortGibbs RArith 3 ex_G (fun _ => 0%nat)) in *.
  pose proof (phase_order_bound 3 o Ho 0 ltac:(lia)) as B0. pose proof (phase_order_bound 3 o Ho 1 ltac:(lia)) as B1. pose proof (phase_order_bound 3 o Ho 2 ltac:(lia)) as B2.
  pose proof (phase_order_inj 3 o Ho 0 1 ltac:(lia) ltac:(lia)) as J01. pose proof (phase_order_inj 3 o Ho 0 2 ltac:(lia) ltac:(lia)) as J02.
  pose proof (phase_order_inj 3 o Ho 1 2 ltac:(lia) ltac:(lia)) as J12.
  pose proof (H 0 1 ltac:(lia))%nat as H01. pose proof (H 1 2 ltac:(lia))%nat as H12. clearbody o. clear H Ho.
  intros i Hi. revert H01 H12 J01 J02 J12.
  destruct (o 0%nat) as [|[|[|]]] eqn:E0; try lia; destruct (o 1%nat) as [|[|[|]]] eqn:E1; try lia; destruct (o 2%nat) as [|[|[|]]] eqn:E2; try lia;
  cbn [ex_G]; intros; try (exfalso; lra); try (exfalso; lia);
  destruct i as [|[|[|]]]; cbn [nth]; try lia; assumption.
Qed.
Example ex_hypotheses : lists_all_phases 3 (@SortGibbs RArith 3 ex_G (fun _ => 0%nat)) /\
  (forall i, (i < 3)%nat -> 0 <= ex_mf i) /\ total 3 ex_mf = 1 /\
  (forall j, (j < 3 - 1)%nat -> / 10000000000 <= ex_mf (@SortGibbs RArith 3 ex_G (fun _ => 0%nat) j)).
Proof.
  refine (conj (proj1 (C39_sort_lists_all_phases RArith 3 ex_G _)) (conj _ (conj _ _))).
  - intros [|[|[|]]] Hi; cbn; try lia; lra.
  - cbn. lra.
  - intros j Hj. rewrite ex_order by lia. destruct j as [|[|]]; cbn; try lia; lra.
Qed.
(** the small-step condition is met with dt = 1/1000 (rates are at most 2 e^4 < 200) *)
Example ex_small_step : forall i, (i < 3)%nat ->
  exp (ln (/ 1000)) * total 3 (fun j => ex_mf i * greeff_rate 3 (fun _ => 1) (fun _ => 1) ex_G i j) + / 10000000000 <= ex_mf i.
Proof.
  rewrite exp_ln by lra. pose proof exp_le_3 as E3.
  assert (exp (1 * 1) <= 3) as Q1 by (rewrite Rmult_1_l; exact E3).
  assert (exp (2 * 2) <= 81) as Q4.
  { replace (2 * 2) with (1 + 1 + (1 + 1)) by ring. rewrite !exp_plus. pose proof (exp_pos 1).
    assert (0 < exp 1 * exp 1 <= 9) by nra. nra. }
  pose proof (exp_pos (1 * 1)). pose proof (exp_pos (2 * 2)).
  intros [|[|[|]]] Hi; try lia; unfold greeff_rate; cbn [total ex_mf ex_G]; cbv zeta;
  repeat match goal with |- context [Rlt_bool ?a ?b] => first [rewrite (Rlt_bool_true a b) by lra | rewrite (Rlt_bool_false a b) by lra] end;
  repeat match goal with |- context [(?a - ?b) / 1] => first [replace ((a - b) / 1) with 1 by lra | replace ((a - b) / 1) with 2 by lra] end;
  lra.
Qed.
Print Assumptions C39_sort_lists_all_phases.
Print Assumptions C39_sort_descending_any.
Print Assumptions C39_sort_descending.
Print Assumptions C39_sort_descending_binary64.
Print Assumptions C39_pair_index_bijective.
Print Assumptions C39_rates_are_greeff.
Print Assumptions C39_rate_monotone.
Print Assumptions C39_fromto_decodes_up_to_ten.
Print Assumptions C54_fromto_eleven_phases_refuted.
Print Assumptions C38_fractions_stay_nonnegative.
Print Assumptions C38_phase_balance.
Print Assumptions C38_total_mass_bounds.
Print Assumptions C38_total_mass_exact.
Print Assumptions C38_total_mass_exact_no_traces.
Print Assumptions C48_total_mass_conserved_refuted.
Print Assumptions C38_gibbs_energy_never_rises.
Print Assumptions C38_highest_never_gains_lowest_never_loses.
Print Assumptions C38_master_equation.
Print Assumptions C38_time_step.
Print Assumptions C38_suggested_step_transfers.
Print Assumptions C38_master_equation_small_steps.
Print Assumptions C38_equilibrium_is_fixed.
