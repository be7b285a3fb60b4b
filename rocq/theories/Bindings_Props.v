(** C80, C81: calls from Python, C and Fortran. *)
From Coq Require Import List ZArith Bool Lia.
From Verif Require Import Vector_Model Vector_Spec Vector_Props Bindings_Model Bindings_Spec Bindings_Proofs.
Import ListNotations.
Open Scope Z_scope.

(** ** C80: the caller's element i is the EOS's element i *)
(** Python, numpy arrays of any stride (contiguous, sliced, reversed), with a lambda array of at least two rows *)
Theorem C80_python_query : forall (V : Type) (f : V -> V -> list V -> V * list V) nl a b out l (m0 : mem V),
  let n := np_size a in
  keeps_lambda f -> np_doubles a n -> np_doubles b n -> np_doubles out n -> np2_doubles l n nl -> (2 <= n2_rows l)%nat ->
  layout n [np_at a; np_at b] [np_at out] (np_row l nl) ->
  exists k, py_vec2 f nl a b out (Some l) = Runs k n /\
    forall sched, complete k m0 n sched ->
      elementwise2 f n (np_at a) (np_at b) (np_at out) (np_row l nl) m0 (memo (prun k m0 sched)).
Proof.
  intros V f nl a b out l m0 n Hk Ha Hb Ho Hl Hr HL. unfold py_vec2.
  rewrite (proj1 (proj2 Ha)), (proj1 (proj2 Hb)), (proj1 (proj2 Ho)). cbn [negb andb]. cbv zeta.
  pose proof Hl as (H1 & H2 & H3 & H4 & _). destruct (Nat.ltb_spec 0 (n2_cols l)); [|lia].
  unfold lambda_throws. rewrite H4. destruct (Nat.leb_spec (n2_rows l) 1); [lia|]. destruct (Nat.eqb_spec (n2_cols l) 0); [lia|].
  cbn [negb orb]. eexists. split; [reflexivity|]. intros sched Hc.
  eapply call2; eauto using helper_eq, lambda_eq.
Qed.

(** ... and without one, or with a lambda array without columns: the EOS is given no lambda *)
Theorem C80_python_query_no_lambda : forall (V : Type) (f : V -> V -> list V -> V * list V) nl a b out lams (m0 : mem V),
  let n := np_size a in
  keeps_lambda f -> np_doubles a n -> np_doubles b n -> np_doubles out n ->
  match lams with None => True | Some l => n2_cols l = 0%nat end ->
  layout n [np_at a; np_at b] [np_at out] (fun _ => []) ->
  exists k, py_vec2 f nl a b out lams = Runs k n /\
    forall sched, complete k m0 n sched ->
      elementwise2 f n (np_at a) (np_at b) (np_at out) (fun _ => []) m0 (memo (prun k m0 sched)).
Proof.
  intros V f nl a b out lams m0 n Hk Ha Hb Ho Hl HL. unfold py_vec2.
  rewrite (proj1 (proj2 Ha)), (proj1 (proj2 Hb)), (proj1 (proj2 Ho)). cbn [negb andb]. cbv zeta.
  exists (vec_2in_1out f (helper_at a) (helper_at b) (helper_at out) (fun _ => [])). split.
  - destruct lams as [l|]; [rewrite Hl|]; reflexivity.
  - intros sched Hc. eapply call2; eauto using helper_eq.
Qed.

(** Python FillEos on arrays *)
Theorem C80_python_fill : forall (V : Type) (f : list V -> list V -> list (option V) * list V) nl rhos temps sies press cvs bmods l (m0 : mem V),
  let n := np_size rhos in
  let arrs := [rhos; temps; sies; press; cvs; bmods] in
  (forall x lm, length (fst (f x lm)) = length x /\ length (snd (f x lm)) = length lm) ->
  (forall a, In a arrs -> np_doubles a n) -> np2_doubles l n nl -> (2 <= n2_rows l)%nat ->
  layout n (map np_at arrs) (map np_at arrs) (np_row l nl) ->
  (forall i, (i < n)%nat -> NoDup (map (fun a => np_at a i) arrs)) ->
  exists k, py_fill f nl rhos temps sies press cvs bmods (Some l) = Runs k n /\
    forall sched, complete k m0 n sched ->
      let m := memo (prun k m0 sched) in
      (forall i, (i < n)%nat ->
         let old := map (fun a => m0 (np_at a i)) arrs in
         let r := f old (map m0 (np_row l nl i)) in
         map (fun a => m (np_at a i)) arrs = map (fun p => apply_out (fst p) (snd p)) (combine old (fst r)) /\
         map m (np_row l nl i) = snd r) /\
      (forall x, (forall i, (i < n)%nat -> ~ In x (map (fun a => np_at a i) arrs) /\ ~ In x (np_row l nl i)) -> m x = m0 x).
Proof.
  intros V f nl rhos temps sies press cvs bmods l m0 n arrs Hk Ha Hl Hr HL HN. unfold py_fill.
  assert (RW : forall a, In a arrs -> np_rw a = true) by (intros a H; apply (Ha a H)).
  rewrite !RW by (unfold arrs; cbn; tauto). cbn [negb andb]. cbv zeta.
  pose proof Hl as (H1 & H2 & H3 & H4 & _). destruct (Nat.ltb_spec 0 (n2_cols l)); [|lia].
  unfold lambda_throws. rewrite H4. destruct (Nat.leb_spec (n2_rows l) 1); [lia|]. destruct (Nat.eqb_spec (n2_cols l) 0); [lia|].
  cbn [negb orb]. eexists. split; [reflexivity|]. intros sched Hc.
  exact (fill_call f n arrs (np_row l nl) (lambda_cells l nl) m0 sched Hk Ha (fun i Hi => lambda_eq l n nl i Hl Hi) HL HN Hc).
Qed.

(** Python FillEos with keywords and an explicit mask: the C++ function gets that mask and exactly the given values *)
Theorem C80_python_fill_keywords : forall (V : Type) (fill : (qty -> V) -> N -> qty -> V) (nan : V) given mask,
  exists s, (forall q, s q = match given q with Some v => v | None => nan end) /\
    py_fill_kw fill nan given (Some mask) = fill s mask.
Proof.
  intros. exists (snd (py_scan given (0%N, fun _ => nan))). split.
  - intros q. unfold py_scan, params. cbn [fold_left fst snd].
    destruct (given Bmod) eqn:E1, (given Cv) eqn:E2, (given Press) eqn:E3, (given Rho) eqn:E4, (given Sie) eqn:E5, (given Temp) eqn:E6;
      destruct q; cbn; rewrite ?E1, ?E2, ?E3, ?E4, ?E5, ?E6; reflexivity.
  - unfold py_fill_kw, py_fill_args. destruct (py_scan given (0%N, fun _ => nan)). reflexivity.
Qed.

(** C: material [m] counted from 0, contiguous arrays, lambda entry k of cell i at lambda_data[stride*i + k] *)
Theorem C80_c_query : forall (V : Type) eos (e : @ceos V) m p q r n s d (m0 : mem V),
  0 <= m -> nth_error eos (Z.to_nat m) = Some e -> keeps_lambda (c_fun e) ->
  0 < p -> p + 8 * Z.of_nat n <= 2 ^ 64 -> 0 < q -> q + 8 * Z.of_nat n <= 2 ^ 64 -> 0 < r -> r + 8 * Z.of_nat n <= 2 ^ 64 ->
  apart p n r n -> apart q n r n -> (c_nl e <= s)%nat -> 0 < d -> d + 8 * Z.of_nat (s * n) <= 2 ^ 64 ->
  Z.of_nat (s * n) <= 2 ^ 31 -> apart p n d (s * n) -> apart q n d (s * n) -> apart r n d (s * n) ->
  exists k, get_sg eos m p q r n (Z.of_nat s) d = Some (k, n) /\
    forall sched, complete k m0 n sched ->
      elementwise2 (c_fun e) n (fun i => p + 8 * Z.of_nat i) (fun i => q + 8 * Z.of_nat i) (fun i => r + 8 * Z.of_nat i)
        (fun i => map (fun k => d + 8 * (Z.of_nat s * Z.of_nat i + Z.of_nat k)) (seq 0 (c_nl e))) m0 (memo (prun k m0 sched)).
Proof.
  intros. eapply c_query; eauto. right. exists s. repeat (split; auto).
Qed.
(** stride -1 or a null pointer: no lambda *)
Theorem C80_c_query_no_lambda : forall (V : Type) eos (e : @ceos V) m p q r n s d (m0 : mem V),
  0 <= m -> nth_error eos (Z.to_nat m) = Some e -> keeps_lambda (c_fun e) ->
  0 < p -> p + 8 * Z.of_nat n <= 2 ^ 64 -> 0 < q -> q + 8 * Z.of_nat n <= 2 ^ 64 -> 0 < r -> r + 8 * Z.of_nat n <= 2 ^ 64 ->
  apart p n r n -> apart q n r n -> s = -1 \/ d = 0 ->
  exists k, get_sg eos m p q r n s d = Some (k, n) /\
    forall sched, complete k m0 n sched ->
      elementwise2 (c_fun e) n (fun i => p + 8 * Z.of_nat i) (fun i => q + 8 * Z.of_nat i) (fun i => r + 8 * Z.of_nat i)
        (fun _ => []) m0 (memo (prun k m0 sched)).
Proof. intros. eapply c_query; eauto. Qed.

(** Fortran: material m counted from 1; element (i,j,k) of the result from element (i,j,k) of the arguments with
    lambda(:,i,j,k); all cells of the grid, nothing else *)
Theorem C80_fortran_query : forall (V : Type) eos (e : @ceos V) m rhos sies outs l n1 n2 n3 s (m0 : mem V),
  let n := cells3 n1 n2 n3 in
  1 <= m -> nth_error eos (Z.to_nat (m - 1)) = Some e -> keeps_lambda (c_fun e) ->
  contiguous3 n1 n2 n3 rhos -> contiguous3 n1 n2 n3 sies -> contiguous3 n1 n2 n3 outs -> contiguous4 s n1 n2 n3 l ->
  (c_nl e <= s)%nat -> Z.of_nat (s * n) <= 2 ^ 31 ->
  apart (f_base rhos) n (f_base outs) n -> apart (f_base sies) n (f_base outs) n ->
  apart (f_base rhos) n (f4_base l) (s * n) -> apart (f_base sies) n (f4_base l) (s * n) -> apart (f_base outs) n (f4_base l) (s * n) ->
  exists k, get_sg_f eos m rhos sies outs n (Some (Z.of_nat s)) (Some l) = Some (k, n) /\
    forall sched, complete k m0 n sched ->
      elementwise_f (c_fun e) n1 n2 n3 (fa_at rhos) (fa_at sies) (fa_at outs) (lambda_f l (c_nl e)) m0 (memo (prun k m0 sched)).
Proof.
  intros V eos e m rhos sies outs l n1 n2 n3 s m0 n Hm He Hk C1 C2 C3 C4 Hs Hf A1 A2 A3 A4 A5. unfold get_sg_f.
  pose proof C1 as (_ & _ & _ & _ & _ & _ & B1 & _ & B2). pose proof C2 as (_ & _ & _ & _ & _ & _ & B3 & _ & B4).
  pose proof C3 as (_ & _ & _ & _ & _ & _ & B5 & _ & B6). pose proof C4 as (_ & _ & _ & _ & _ & B7 & _ & B8).
  destruct (C80_c_query V eos e (m - 1) (f_base rhos) (f_base sies) (f_base outs) n s (f4_base l) m0) as (k & E & H); auto; try lia.
  exists k. split; [exact E|]. intros sched Hc. eapply f_transfer; eauto.
  intros i j q Hv. cbv beta. eapply lambda_flat; eauto.
Qed.
(** ... and when either optional argument is absent *)
Theorem C80_fortran_query_no_lambda : forall (V : Type) eos (e : @ceos V) m rhos sies outs n1 n2 n3 stride lam (m0 : mem V),
  let n := cells3 n1 n2 n3 in
  1 <= m -> nth_error eos (Z.to_nat (m - 1)) = Some e -> keeps_lambda (c_fun e) ->
  contiguous3 n1 n2 n3 rhos -> contiguous3 n1 n2 n3 sies -> contiguous3 n1 n2 n3 outs ->
  apart (f_base rhos) n (f_base outs) n -> apart (f_base sies) n (f_base outs) n ->
  stride = None \/ lam = None ->
  exists k, get_sg_f eos m rhos sies outs n stride lam = Some (k, n) /\
    forall sched, complete k m0 n sched ->
      elementwise_f (c_fun e) n1 n2 n3 (fa_at rhos) (fa_at sies) (fa_at outs) (fun _ _ _ => []) m0 (memo (prun k m0 sched)).
Proof.
  intros V eos e m rhos sies outs n1 n2 n3 stride lam m0 n Hm He Hk C1 C2 C3 A1 A2 HN.
  pose proof C1 as (_ & _ & _ & _ & _ & _ & B1 & _ & B2). pose proof C2 as (_ & _ & _ & _ & _ & _ & B3 & _ & B4).
  pose proof C3 as (_ & _ & _ & _ & _ & _ & B5 & _ & B6).
  destruct (C80_c_query_no_lambda V eos e (m - 1) (f_base rhos) (f_base sies) (f_base outs) n (-1) 0 m0) as (k & E & H); auto; try lia.
  exists k. split.
  - unfold get_sg_f. destruct HN as [-> | ->]; [|destruct stride]; exact E.
  - intros sched Hc. eapply f_transfer; eauto. intros; reflexivity.
Qed.

(** the minimum energy at each cell's density *)
Theorem C80_fortran_minimum_energy : forall (V : Type) eos (e : @ceos V) (sel : @ceos V -> V -> list V -> V * list V) m rhos outs n1 n2 n3 (m0 : mem V),
  let n := cells3 n1 n2 n3 in
  1 <= m -> nth_error eos (Z.to_nat (m - 1)) = Some e -> (forall x l, length (snd (sel e x l)) = length l) ->
  contiguous3 n1 n2 n3 rhos -> contiguous3 n1 n2 n3 outs -> apart (f_base rhos) n (f_base outs) n ->
  exists k, get_sg_min_f eos sel m rhos outs n = Some (k, n) /\
    forall sched, complete k m0 n sched ->
      let mm := memo (prun k m0 sched) in
      (forall i j k, valid3 n1 n2 n3 i j k -> mm (fa_at outs i j k) = fst (sel e (m0 (fa_at rhos i j k)) [])) /\
      (forall a, (forall i j k, valid3 n1 n2 n3 i j k -> a <> fa_at outs i j k) -> mm a = m0 a).
Proof.
  intros V eos e sel m rhos outs n1 n2 n3 m0 n Hm He Hk C1 C3 A1. unfold get_sg_min_f, get_sg_min.
  pose proof C1 as (_ & _ & _ & _ & _ & _ & B1 & _ & B2). pose proof C3 as (_ & _ & _ & _ & _ & _ & B5 & _ & B6).
  destruct (Z.ltb_spec (m - 1) 0); [lia|]. rewrite He. eexists. split; [reflexivity|]. intros sched Hc.
  fold (cells3 n1 n2 n3) in B2, B6. fold n in B2, B6.
  assert (E1 : forall i, (i < n)%nat -> c_at (f_base rhos) i = f_base rhos + 8 * Z.of_nat i) by (intros; eapply c_at_eq; eauto; lia).
  assert (E3 : forall i, (i < n)%nat -> c_at (f_base outs) i = f_base outs + 8 * Z.of_nat i) by (intros; eapply c_at_eq; eauto; lia).
  assert (L : layout n [c_at (f_base rhos)] [c_at (f_base outs)] (fun _ => [])).
  { unfold apart in A1. refine (conj _ (conj _ (conj _ (conj _ (conj _ _))))); try (intros; auto using NoDup_nil; fail).
    - intros o o' i j [<-|[]] [<-|[]] Hi Hj Hij. rewrite !E3 by auto. lia.
    - intros o a i j [<-|[]] [<-|[]] Hi Hj Hij. rewrite E3, E1 by auto. lia. }
  destruct (C13_one_input_call V (sel e) _ _ _ n m0 sched Hk L Hc) as [A B]. split.
  - intros i j k Hv. rewrite (fa_flat _ _ _ _ _ _ _ C1 Hv), (fa_flat _ _ _ _ _ _ _ C3 Hv).
    pose proof (flat_lt _ _ _ _ _ _ Hv) as Hf. destruct (A _ Hf) as [H0 _]. rewrite E1, E3 in H0 by auto. exact H0.
  - intros a Ha. apply B. intros t Ht. split; [|intros []]. rewrite E3 by auto.
    destruct (flat_onto n1 n2 n3 t Ht) as (i & j & k & Hv & <-). rewrite <- (fa_flat _ _ _ _ _ _ _ C3 Hv). auto.
Qed.

(** material slots: after init_sg_X_f(m, ...) a query on material m' uses the new EOS exactly when m' = m; indices that
    are not 1..nmat are outside the array *)
Theorem C80_material_slots : forall (V : Type) (eos : list (@ceos V)) m e,
  (forall eos', init_sg_f eos m e = Some eos' ->
     length eos' = length eos /\ forall m', 1 <= m' -> nth_error eos' (Z.to_nat (m' - 1)) =
        if m' =? m then Some e else nth_error eos (Z.to_nat (m' - 1))) /\
  (init_sg_f eos m e = None <-> ~ (1 <= m <= Z.of_nat (length eos))).
Proof.
  intros. unfold init_sg_f, init_sg. split.
  - intros eos' H. destruct (Z.ltb_spec (m - 1) 0); [discriminate|]. cbn [orb] in H.
    destruct (Z.leb_spec (Z.of_nat (length eos)) (m - 1)); [discriminate|]. injection H as <-.
    set (j := Z.to_nat (m - 1)). assert (Hj : (j < length eos)%nat) by (unfold j; lia).
    assert (FL : length (firstn j eos) = j) by (rewrite firstn_length; lia).
    change (match eos with [] => [] | _ :: l => skipn j l end) with (skipn (S j) eos).
    split.
    + rewrite app_length, FL. cbn [length]. rewrite skipn_length. lia.
    + intros m' Hm'. destruct (Z.eqb_spec m' m) as [->|Hne].
      * fold j. rewrite nth_error_app2 by lia. rewrite FL, Nat.sub_diag. reflexivity.
      * set (i := Z.to_nat (m' - 1)). assert (Hij : i <> j) by (unfold i, j; lia).
        rewrite <- (firstn_skipn j eos) at 3.
        destruct (le_lt_dec j i).
        -- rewrite !nth_error_app2 by lia. rewrite FL. replace (i - j)%nat with (S (i - j - 1)) by lia. cbn [nth_error].
           assert (SK : skipn j eos = match skipn j eos with x :: _ => x :: skipn (S j) eos | [] => [] end).
           { clear -Hj. revert eos Hj. induction j; intros [|x r] Hj; cbn in *; try lia; auto. apply IHj. lia. }
           destruct (skipn j eos) as [|x r] eqn:E.
           { exfalso. assert (Z0 : length (skipn j eos) = 0%nat) by (rewrite E; reflexivity). rewrite skipn_length in Z0. lia. }
           cbn [nth_error]. injection SK as ->. reflexivity.
        -- rewrite !nth_error_app1 by lia. reflexivity.
  - destruct (Z.ltb_spec (m - 1) 0); cbn [orb].
    + split; [intros _; lia|auto].
    + destruct (Z.leb_spec (Z.of_nat (length eos)) (m - 1)); split; intros; auto; try lia; discriminate.
Qed.

(** the host owns Kokkos: after any history of creating and destroying EOS arrays through the C interface, none of
    which claims Kokkos, no call has failed, Kokkos is still up and no array is left *)
Theorem C80_host_keeps_kokkos : forall l, balanced 0 l -> host_owns l -> erun (Some (Down, O)) (HostInit :: l) = Some (Up, O).
Proof. intros l Hb Ho. apply (host_run l 0 Hb Ho). Qed.
(** the library owns Kokkos: the first array brings it up and the last, told so, takes it down *)
Theorem C80_library_owns_kokkos : forall l own, balanced 1 (l ++ [CFinal 0]) -> host_owns l -> own <> 0 ->
  erun (Some (Down, O)) (CInit :: l ++ [CFinal own]) = Some (Gone, O).
Proof.
  intros l own Hb Ho Hw. unfold erun. cbn [fold_left]. rewrite fold_left_app.
  assert (G : forall l n, balanced n (l ++ [CFinal 0]) -> host_owns l -> fold_left estep l (Some (Up, n)) = Some (Up, 1%nat)).
  { clear. induction l as [|e l IH]; intros n Hb Ho; cbn in Hb.
    - destruct n; [destruct Hb|]. cbn in Hb. subst. reflexivity.
    - assert (Ho' : host_owns l) by (intros x Hx; apply Ho; right; auto).
      destruct (Ho e (or_introl eq_refl)) as [-> | ->]; cbn in Hb |- *.
      + apply IH; auto.
      + destruct n; [destruct Hb|]. apply IH; auto. }
  change (estep (Some (Down, O)) CInit) with (Some (Up, 1%nat)). rewrite (G l 1%nat Hb Ho). cbn.
  destruct (Z.eqb_spec own 0); [contradiction|]. reflexivity.
Qed.

(** ** C81: what callers would expect and does not hold *)
(** a lambda array for a single element raises, although row 0 is there *)
Theorem C81_python_one_row_refuted : forall (V : Type) (f : V -> V -> list V -> V * list V) nl a b out l,
  n2_rows l = 1%nat -> (0 < n2_cols l)%nat -> py_vec2 f nl a b out (Some l) = Throws.
Proof.
  intros V f nl a b out l H H0. unfold py_vec2. destruct (negb _); [reflexivity|]. cbv zeta.
  destruct (Nat.ltb_spec 0 (n2_cols l)); [|lia]. unfold lambda_throws. rewrite H. cbn [Nat.leb]. rewrite orb_true_r. reflexivity.
Qed.
(** an input array that may not be written (np.broadcast_to, a read-only view) raises, although it is only read *)
Theorem C81_python_readonly_refuted : forall (V : Type) (f : V -> V -> list V -> V * list V) nl a b out lams,
  np_rw a = false \/ np_rw b = false -> py_vec2 f nl a b out lams = Throws.
Proof. intros V f nl a b out lams H. unfold py_vec2. destruct H as [-> | ->]; [|rewrite andb_false_r]; reflexivity. Qed.
(** a lambda array in column-major order (np.asfortranarray): the entries used for element 0 are not those of its row *)
Theorem C81_python_lambda_columns_refuted :
  let l := mkNP2 4096 8 16 2 2 true in    (* 2 x 2 doubles, column-major *)
  lambda_throws l = false /\ lambda_cells l 2 0 = [np2_at l 0 0; np2_at l 1 0] /\ np_row l 2 0 = [np2_at l 0 0; np2_at l 0 1].
Proof. cbn. repeat split; reflexivity. Qed.
(** a field of a structured array with 12-byte records: element 1 is taken from 8 bytes, not 12, after element 0 *)
Theorem C81_python_record_field_refuted : forall b n, 0 <= b -> b + 24 < 2 ^ 64 ->
  let a := mkNP b 12 n true in helper_at a 1 = b + 8 /\ np_at a 1 = b + 12.
Proof.
  intros b n H1 H2 a. unfold helper_at, helper_stride, np_at, a. cbn [np_base np_step].
  replace (b + 12 - b) with 12 by lia. change (wrap64 (12 / 8)) with 1. change (wrap64 (Z.of_nat 1 * 1)) with 1.
  unfold wrap64. rewrite Z.mod_small by lia. lia.
Qed.
(** the calls that take scratch space use raw pointers: for an array with more than one element that is not contiguous,
    element 1 is wrong *)
Theorem C81_python_scratch_stride_refuted : forall a, np_doubles a 2 -> addressable (np_base a + 8) -> np_step a <> 8 ->
  raw_at a 1 <> np_at a 1 /\ helper_at a 1 = np_at a 1.
Proof.
  intros a H Hb Hs. split; [|apply (helper_eq a 2); auto]. unfold raw_at, np_at. rewrite wrap_id by exact Hb. lia.
Qed.
(** FillEos with keywords and no mask: the flags handed to C++ mark exactly the quantities the caller gave as outputs, so
    every quantity C++ will read is NaN, and for a FillEos that only reads its inputs the answer does not depend on the
    values given at all *)
Theorem C81_python_fill_default_mask_refuted : forall (V : Type) (nan : V) given,
  (forall q, N.testbit (fst (py_fill_args nan given None)) (published_bit q) = match given q with Some _ => true | None => false end) /\
  (forall q, N.testbit (fst (py_fill_args nan given None)) (published_bit q) = false -> snd (py_fill_args nan given None) q = nan) /\
  (forall (fill : (qty -> V) -> N -> qty -> V) given',
     (forall o s s', (forall q, N.testbit o (published_bit q) = false -> s q = s' q) -> forall q, fill s o q = fill s' o q) ->
     (forall q, given q = None <-> given' q = None) ->
     forall q, py_fill_kw fill nan given None q = py_fill_kw fill nan given' None q).
Proof.
  intros V nan given. change published_bit with bit_of.
  assert (M : forall g : qty -> option V, (forall q, N.testbit (fst (py_fill_args nan g None)) (bit_of q) = match g q with Some _ => true | None => false end) /\
     forall q, snd (py_fill_args nan g None) q = match g q with Some v => v | None => nan end).
  { intros g. unfold py_fill_args, py_scan, params. cbn [fold_left fst snd].
    destruct (g Bmod) eqn:E1, (g Cv) eqn:E2, (g Press) eqn:E3, (g Rho) eqn:E4, (g Sie) eqn:E5, (g Temp) eqn:E6;
      split; intros q; destruct q; cbn; rewrite ?E1, ?E2, ?E3, ?E4, ?E5, ?E6; reflexivity. }
  split; [apply M|]. split.
  - intros q H. rewrite (proj1 (M given)) in H. rewrite (proj2 (M given)). destruct (given q); [discriminate|reflexivity].
  - intros fill given' Hf Hg q. unfold py_fill_kw.
    assert (O : fst (py_fill_args nan given None) = fst (py_fill_args nan given' None)).
    { unfold py_fill_args, py_scan, params. cbn [fold_left fst snd].
      destruct (given Bmod) eqn:E1, (given' Bmod) eqn:F1; try (exfalso; destruct (Hg Bmod); intuition congruence);
      destruct (given Cv) eqn:E2, (given' Cv) eqn:F2; try (exfalso; destruct (Hg Cv); intuition congruence);
      destruct (given Press) eqn:E3, (given' Press) eqn:F3; try (exfalso; destruct (Hg Press); intuition congruence);
      destruct (given Rho) eqn:E4, (given' Rho) eqn:F4; try (exfalso; destruct (Hg Rho); intuition congruence);
      destruct (given Sie) eqn:E5, (given' Sie) eqn:F5; try (exfalso; destruct (Hg Sie); intuition congruence);
      destruct (given Temp) eqn:E6, (given' Temp) eqn:F6; try (exfalso; destruct (Hg Temp); intuition congruence);
      reflexivity. }
    destruct (M given) as [A B], (M given') as [A' B'].
    destruct (py_fill_args nan given None) as [o s], (py_fill_args nan given' None) as [o' s']. cbn [fst snd] in *. subst o'.
    apply Hf. intros p Hp. rewrite B, B'. rewrite A in Hp. rewrite A' in Hp || idtac.
    destruct (given p) eqn:E; [discriminate|]. rewrite (proj1 (Hg p) E). reflexivity.
Qed.
(** Fortran: the assumed-shape dummy accepts a strided section, but element (2,1,1) is then taken from the wrong address *)
Theorem C81_fortran_section_refuted : forall (V : Type) eos (e : @ceos V) a out,
  f_n1 a = 2%nat -> f_s1 a = 16 -> 0 < f_base a -> f_base a + 16 < 2 ^ 64 -> nth_error eos 0 = Some e ->
  exists k, get_sg_f eos 1 a a out 2 None None = Some (k, 2%nat) /\
    RA k 1 = [f_base a + 8; f_base a + 8] /\ fa_at a 2 1 1 = f_base a + 16.
Proof.
  intros V eos e a out H1 H2 H3 H4 He. unfold get_sg_f, get_sg.
  change (1 - 1) with 0. cbn [Z.ltb Z.compare Z.to_nat]. rewrite He. eexists. split; [reflexivity|]. split.
  - cbn [RA vec_2in_1out]. unfold c_at. change (8 * Z.of_nat 1) with 8. rewrite !wrap_id by (unfold addressable; lia). reflexivity.
  - unfold fa_at. rewrite H2. lia.
Qed.
(** the index stride*i is a 32-bit int: cell 2^30 of an array with two lambda entries per cell gets an address 16 GiB
    *before* the array instead of 16 GiB after its start *)
Theorem C81_lambda_index_overflow_refuted : forall d, 2 ^ 34 <= d < 2 ^ 63 ->
  lambda2d 2 d (Z.to_nat (2 ^ 30)) = d - 2 ^ 34 /\ d + 8 * (2 * 2 ^ 30) = d + 2 ^ 34.
Proof.
  intros d H. unfold lambda2d. rewrite Z2Nat.id by lia. change (wrap32 (2 * 2 ^ 30)) with (- 2 ^ 31).
  rewrite wrap_id by (unfold addressable; lia). split; lia.
Qed.
(** init_sg_eospac_f without the optional split hands an undefined value to C; the Spiner wrappers hand over 0 *)
Theorem C81_fortran_eospac_split_refuted : eospac_split_f None = Undefined /\ spiner_split_f None = Is 0 /\
  forall v, eospac_split_f (Some v) = spiner_split_f (Some v).
Proof. repeat split. Qed.
(** finalize_sg_eos_f always claims Kokkos: a Fortran program cannot keep the Kokkos it initialised, cannot destroy one of
    two arrays and use the other, and cannot create an array after it destroyed one *)
Theorem C81_fortran_finalize_refuted :
  erun (Some (Down, O)) [HostInit; CInit; FFinal; HostFinal] = None /\
  erun (Some (Down, O)) [CInit; CInit; FFinal; FFinal] = None /\
  erun (Some (Down, O)) [CInit; FFinal; CInit] = None.
Proof. repeat split. Qed.

(** ** the hypotheses are met *)
Definition demo_eos (x y : Z) (l : list Z) : Z * list Z := (x + y + fold_right Z.add 0 l, map (Z.add 1) l).
(** three elements: a reversed, b every second element of a larger array, out contiguous, two lambda entries per row *)
Example C80_python_nonvacuous :
  let a := mkNP 1016 (-8) 3 true in let b := mkNP 2000 16 3 true in let out := mkNP 3000 8 3 true in
  let l := mkNP2 4000 16 8 3 2 true in
  keeps_lambda demo_eos /\ np_doubles a 3 /\ np_doubles b 3 /\ np_doubles out 3 /\ np2_doubles l 3 2 /\
  layout 3 [np_at a; np_at b] [np_at out] (np_row l 2) /\
  helper_at a 2 = 1000 /\ lambda_cells l 2 2 = [4032; 4040].
Proof.
  cbv zeta. unfold np_doubles, np2_doubles, addressable, np_at, np2_at, keeps_lambda, demo_eos. cbn [np_base np_step np_size np_rw n2_base n2_row n2_col n2_rows n2_cols n2_rw].
  assert (D : forall c x, x = c * 8 -> (8 | x)) by (intros c x ->; exists c; reflexivity).
  refine (conj _ (conj _ (conj _ (conj _ (conj _ (conj _ (conj _ _))))))).
  - intros; cbn. apply map_length.
  - repeat split; try lia; [apply (D (-1)); lia|apply (D 127); lia].
  - repeat split; try lia; [apply (D 2); lia|apply (D 250); lia].
  - repeat split; try lia; [apply (D 1); lia|apply (D 375); lia].
  - repeat split; try lia; [apply (D 2); lia|apply (D 500); lia].
  - set (ra := fun i => 1016 + Z.of_nat i * -8). set (rb := fun i => 2000 + Z.of_nat i * 16). set (ro := fun i => 3000 + Z.of_nat i * 8).
    assert (L : forall i x, In x (np_row (mkNP2 4000 16 8 3 2 true) 2 i) -> x = 4000 + Z.of_nat i * 16 \/ x = 4008 + Z.of_nat i * 16).
    { intros i x [H|[H|[]]]; unfold np2_at in H; cbn [n2_base n2_row n2_col] in H; lia. }
    assert (I : forall f, In f [ra; rb] -> forall i, f i = 1016 - 8 * Z.of_nat i \/ f i = 2000 + 16 * Z.of_nat i).
    { intros f [<-|[<-|[]]] i; unfold ra, rb; cbv beta; [left|right]; lia. }
    assert (O : forall f, In f [ro] -> forall i, f i = 3000 + 8 * Z.of_nat i) by (intros f [<-|[]] i; unfold ro; cbv beta; lia).
    clearbody ra rb ro. refine (conj _ (conj _ (conj _ (conj _ (conj _ _))))).
    + intros o o' i j H H' Hi Hj Hij. rewrite (O _ H), (O _ H'). lia.
    + intros o f i j H H' Hi Hj Hij. rewrite (O _ H). destruct (I _ H' j) as [-> | ->]; lia.
    + intros o i j H Hi Hj HI. apply L in HI. rewrite (O _ H) in HI. lia.
    + intros i j x Hi Hj Hij Hx Hx'. apply L in Hx, Hx'. lia.
    + intros f i j H Hi Hj Hij HI. apply L in HI. destruct (I _ H j) as [E|E]; rewrite E in HI; lia.
    + intros i Hi. unfold np_row. apply FinFun.Injective_map_NoDup; [|apply seq_NoDup]. intros k k'. unfold np2_at. cbn [n2_base n2_row n2_col]. lia.
  - reflexivity.
  - reflexivity.
Qed.
(** a 2 x 2 x 1 grid with two lambda entries per cell *)
Example C80_fortran_nonvacuous :
  let arr p := mkFA p 2 2 1 8 16 32 in
  contiguous3 2 2 1 (arr 1024) /\ contiguous3 2 2 1 (arr 2048) /\ contiguous3 2 2 1 (arr 3072) /\
  contiguous4 2 2 2 1 (mkFA4 4096 2 8 16 32 64) /\
  apart 1024 4 3072 4 /\ apart 3072 4 4096 8 /\ fa_at (arr 1024) 1 2 1 = 1040 /\
  (exists k, get_sg_f [mkCE demo_eos 2] 1 (arr 1024) (arr 2048) (arr 3072) 4 (Some 2) (Some (mkFA4 4096 2 8 16 32 64)) = Some (k, 4%nat) /\
     memo (prun k (fun x => x) (flat_map (fun i => repeat i 7) [0; 1; 2; 3])%nat) 3088 = 1040 + 2064 + 4128 + 4136).
Proof.
  cbv zeta. unfold contiguous3, contiguous4, apart. cbn [f_base f_n1 f_n2 f_n3 f_s1 f_s2 f_s3 f4_base f4_n0 f4_s0 f4_s1 f4_s2 f4_s3].
  assert (D : forall c x, x = c * 8 -> (8 | x)) by (intros c x ->; exists c; reflexivity).
  repeat split; try lia; try reflexivity; try (apply (D 128); lia); try (apply (D 256); lia); try (apply (D 384); lia); try (apply (D 512); lia).
  eexists. split; [reflexivity|]. vm_compute. reflexivity.
Qed.
Example C80_lifecycle_nonvacuous : let l := [CInit; CInit; CFinal 0; CInit; CFinal 0; CFinal 0] in balanced 0 l /\ host_owns l.
Proof. split; [reflexivity|]. intros e H. cbn in H. intuition (subst; auto). Qed.
Example C81_default_mask_nonvacuous :
  let fill (s : qty -> option Z) o q := if N.testbit o (bit_of q) then (if N.testbit o 0%N then s Press else s Rho) else s q in
  py_fill_kw fill None (fun q => match q with Rho => Some (Some 5) | Sie => Some (Some 7) | _ => None end) None Rho = None /\
  py_fill_kw fill None (fun q => match q with Rho => Some (Some 5) | Sie => Some (Some 7) | _ => None end) (Some 12%N) Press = Some 5.
Proof. split; reflexivity. Qed.
Print Assumptions C80_python_query.
Print Assumptions C80_python_query_no_lambda.
Print Assumptions C80_python_fill.
Print Assumptions C80_python_fill_keywords.
Print Assumptions C80_c_query.
Print Assumptions C80_c_query_no_lambda.
Print Assumptions C80_fortran_query.
Print Assumptions C80_fortran_query_no_lambda.
Print Assumptions C80_fortran_minimum_energy.
Print Assumptions C80_material_slots.
Print Assumptions C80_host_keeps_kokkos.
Print Assumptions C80_library_owns_kokkos.
Print Assumptions C81_python_one_row_refuted.
Print Assumptions C81_python_readonly_refuted.
Print Assumptions C81_python_lambda_columns_refuted.
Print Assumptions C81_python_record_field_refuted.
Print Assumptions C81_python_scratch_stride_refuted.
Print Assumptions C81_python_fill_default_mask_refuted.
Print Assumptions C81_fortran_section_refuted.
Print Assumptions C81_lambda_index_overflow_refuted.
Print Assumptions C81_fortran_eospac_split_refuted.
Print Assumptions C81_fortran_finalize_refuted.
