(** C92: scratch sizes by the name of a method. *)
From Coq Require Import ZArith List Bool Ascii String Lia.
From Coq Require Reals.
From Verif Require Vector_Model Eospac_Model.
From Verif Require Import ScratchName_Model.
Import ListNotations.
Open Scope string_scope.
Open Scope Z_scope.

(** ** Specification *)
Definition ends_in (s suf : string) : Prop := exists p, s = p ++ suf.
Definition begins_with (s pre : string) : Prop := exists r, s = pre ++ r.
Definition occurs (s k : string) : Prop := exists a b, s = a ++ k ++ b.
(** the methods that take scratch, by the names in the headers *)
Definition name (q : Vector_Model.meth) : string :=
  match q with
  | Vector_Model.TofE => "TemperatureFromDensityInternalEnergy" | Vector_Model.PofT => "PressureFromDensityTemperature"
  | Vector_Model.PofE => "PressureFromDensityInternalEnergy" | Vector_Model.MinE => "MinInternalEnergyFromDensity"
  | Vector_Model.CvT => "SpecificHeatFromDensityTemperature" | Vector_Model.CvE => "SpecificHeatFromDensityInternalEnergy"
  | Vector_Model.BofT => "BulkModulusFromDensityTemperature" | Vector_Model.BofE => "BulkModulusFromDensityInternalEnergy"
  | Vector_Model.GofT => "GruneisenParamFromDensityTemperature" | Vector_Model.GofE => "GruneisenParamFromDensityInternalEnergy"
  | Vector_Model.EofT => "InternalEnergyFromDensityTemperature" | Vector_Model.SofT => "EntropyFromDensityTemperature"
  | Vector_Model.SofE => "EntropyFromDensityInternalEnergy"
  end.
(** layers that need a buffer of num energies, layers that need one of num pressures, and the class inside *)
Fixpoint energy_layers (e : eos) : Z :=
  match e with Plain | Eospac => 0 | Shifted t | Floored t => 1 + energy_layers t | Ramp t | Scaled t | Units t | Relativistic t | ZSplit t => energy_layers t end.
Fixpoint ramp_layers (e : eos) : Z :=
  match e with Plain | Eospac => 0 | Ramp t => 1 + ramp_layers t | Shifted t | Floored t | Scaled t | Units t | Relativistic t | ZSplit t => ramp_layers t end.
Fixpoint inner (e : eos) : eos :=
  match e with Plain | Eospac => e | Shifted t | Floored t | Ramp t | Scaled t | Units t | Relativistic t | ZSplit t => inner t end.
Definition inner_buffers (e : eos) (method : string) : Z :=
  match inner e with Eospac => match find (fun x => String.eqb method (fst x)) nbuffers with Some x => snd x | None => 0 end | _ => 0 end.
(** nelements is an unsigned int, and the modifiers are nested less than 100 million deep *)
Definition sane (e : eos) (n : Z) : Prop := 0 <= n < 2 ^ 32 /\ energy_layers e + ramp_layers e < 100000000.

(** ** Proofs *)
Lemma prefix_iff : forall k s, prefix k s = true <-> exists r, s = k ++ r.
Proof.
  induction k as [|c k IH]; intros s.
  - cbn. split; [intros _; now exists s|]. intros _. now destruct s.
  - destruct s as [|d s].
    + cbn. split; [discriminate|]. intros (r & E). discriminate.
    + cbn [prefix]. destruct (ascii_dec c d) as [->|N].
      * rewrite IH. split; intros (r & E); exists r; [now rewrite E|]. now injection E.
      * split; [discriminate|]. intros (r & E). injection E as E _. congruence.
Qed.
Lemma rfind_none : forall k s, rfind_nat k s = None <-> ~ occurs s k.
Proof.
  intros k. induction s as [|c s IH]; cbn [rfind_nat].
  - destruct (prefix k "") eqn:P.
    + split; [discriminate|]. intros N. exfalso. apply N. apply prefix_iff in P. destruct P as (r & E). exists "", r. exact E.
    + split; [|reflexivity]. intros _ (a & b & E). destruct a; [|discriminate]. cbn in E. assert (prefix k "" = true) by (apply prefix_iff; now exists b). congruence.
  - destruct (rfind_nat k s) as [n|] eqn:Q.
    + split; [discriminate|]. intros N. exfalso. destruct IH as [_ IH]. assert (H : ~ occurs s k); [|now specialize (IH H)].
      intros (a & b & E). apply N. exists (String c a), b. now rewrite E.
    + destruct IH as [IH _]. specialize (IH eq_refl). destruct (prefix k (String c s)) eqn:P.
      * split; [discriminate|]. intros N. exfalso. apply N. apply prefix_iff in P. destruct P as (r & E). exists "", r. exact E.
      * split; [|reflexivity]. intros _ (a & b & E). destruct a as [|d a].
        -- cbn in E. assert (prefix k (String c s) = true) by (apply prefix_iff; now exists b). congruence.
        -- injection E as _ E. apply IH. now exists a, b.
Qed.
Lemma rfind_some : forall k s n, rfind_nat k s = Some n ->
  (exists a b, s = a ++ k ++ b /\ String.length a = n) /\ forall a b, s = a ++ k ++ b -> (String.length a <= n)%nat.
Proof.
  intros k. induction s as [|c s IH]; intros n; cbn [rfind_nat].
  - destruct (prefix k "") eqn:P; [|discriminate]. intros [= <-]. split.
    + apply prefix_iff in P. destruct P as (r & E). exists "", r. split; [exact E|reflexivity].
    + intros a b E. destruct a; [reflexivity|discriminate].
  - destruct (rfind_nat k s) as [m|] eqn:Q.
    + intros [= <-]. destruct (IH m eq_refl) as [(a & b & E & L) H]. split.
      * exists (String c a), b. rewrite E. split; [reflexivity|]. cbn. now rewrite L.
      * intros a' b' E'. destruct a' as [|d a']; cbn [String.length]; [lia|]. injection E' as _ E'. specialize (H a' b' E'). lia.
    + destruct (prefix k (String c s)) eqn:P; [|discriminate]. intros [= <-]. split.
      * apply prefix_iff in P. destruct P as (r & E). exists "", r. split; [exact E|reflexivity].
      * intros a b E. destruct a as [|d a]; [reflexivity|]. exfalso. injection E as _ E. apply rfind_none in Q. apply Q. now exists a, b.
Qed.
Lemma append_length : forall a b, String.length (a ++ b) = (String.length a + String.length b)%nat.
Proof. induction a as [|c a IH]; intros b; cbn; [reflexivity|]. now rewrite IH. Qed.
Lemma append_nil : forall a, a ++ "" = a. Proof. induction a as [|c a IH]; cbn; [reflexivity|]. now rewrite IH. Qed.
Lemma length_zero : forall a, String.length a = O -> a = "". Proof. now intros []. Qed.
Lemma append_inj : forall a a' k k', a ++ k = a' ++ k' -> String.length a = String.length a' -> a = a' /\ k = k'.
Proof.
  induction a as [|c a IH]; intros [|d a'] k k' E L; try discriminate; [now split|]. cbn in E. injection E as -> E. injection L as L.
  destruct (IH a' k k' E L) as [-> ->]. now split.
Qed.

Lemma suffix_test : forall s, size s < 2 ^ 63 -> size s <> 24 -> (has_suffix s = true <-> ends_in s suffix).
Proof.
  intros s B N. unfold has_suffix, rfind, sizeof_literal, wrap. rewrite Z.eqb_eq.
  change (size suffix) with 25. replace (size s - (25 + 1) + 1) with (size s - 25) by lia.
  assert (P : 0 <= size s) by (unfold size; lia).
  destruct (rfind_nat suffix s) as [n|] eqn:R.
  - destruct (rfind_some _ _ _ R) as [(a & b & E & L) H].
    assert (S : size s = Z.of_nat n + 25 + Z.of_nat (String.length b)).
    { unfold size. rewrite E, !append_length, L. change (String.length suffix) with 25%nat. lia. }
    rewrite Z.mod_small by lia. split.
    + intros Q. assert (b = "") by (apply length_zero; lia). subst b. exists a. now rewrite append_nil in E.
    + intros (p & E'). specialize (H p ""). rewrite append_nil in H. specialize (H E').
      assert (size s = Z.of_nat (String.length p) + 25).
      { unfold size. rewrite E', append_length. change (String.length suffix) with 25%nat. lia. } lia.
  - split.
    + intros Q. exfalso. unfold npos in Q. destruct (Z.lt_decidable (size s) 25) as [C|C].
      * replace (size s - 25) with (size s - 25 + 2 ^ 64 + (-1) * 2 ^ 64) in Q by lia. rewrite Z.mod_add in Q by lia. rewrite Z.mod_small in Q by lia. lia.
      * rewrite Z.mod_small in Q by lia. lia.
    + intros (p & E). exfalso. apply rfind_none in R. apply R. exists p, "". now rewrite append_nil.
Qed.

Lemma prefix_test : forall s, has_prefix s = true <-> begins_with s ramp_prefix /\ forall a b, s = a ++ ramp_prefix ++ b -> a = "".
Proof.
  intros s. unfold has_prefix, rfind. destruct (rfind_nat ramp_prefix s) as [n|] eqn:R.
  - destruct (rfind_some _ _ _ R) as [(a & b & E & L) H]. rewrite Z.eqb_eq. split.
    + intros Q. assert (n = O) by lia. subst n. assert (a = "") by (apply length_zero; lia). subst a. split; [now exists b|].
      intros a' b' E'. apply length_zero. specialize (H a' b' E'). lia.
    + intros [_ H']. rewrite (H' a b E) in L. cbn in L. lia.
  - split; [discriminate|]. intros [(r & E) _]. exfalso. apply rfind_none in R. apply R. exists "", r. exact E.
Qed.

Lemma layers_nonneg : forall e, 0 <= energy_layers e /\ 0 <= ramp_layers e.
Proof. induction e; cbn [energy_layers ramp_layers]; lia. Qed.

Lemma lookup_find : forall k m, lookup k m = match find (fun x => String.eqb k (fst x)) m with Some x => Some (snd x) | None => None end.
Proof. intros k. induction m as [|[k' v] m IH]; cbn; [reflexivity|]. destruct (String.eqb k k'); [reflexivity|exact IH]. Qed.

Lemma inner_bounds : forall e s, 0 <= inner_buffers e s <= 6.
Proof.
  intros e s. unfold inner_buffers. destruct (inner e); try lia.
  destruct (find _ nbuffers) as [x|] eqn:F; [|lia]. apply find_some in F. destruct F as [F _]. cbn in F.
  repeat (destruct F as [<-|F]; [cbn; lia|]). contradiction.
Qed.

Lemma sizes : forall e s n, sane e n ->
  scratch_size e s n = 8 * n * (inner_buffers e s + (if has_suffix s then energy_layers e else 0) + (if has_prefix s then ramp_layers e else 0)).
Proof.
  assert (W : forall e (s : string) n, sane e n -> forall k, 0 <= k <= 100000010 -> wrap (8 * n * k) = 8 * n * k).
  { intros e s n [N _] k K. unfold wrap. rewrite Z.mod_small; [reflexivity|]. nia. }
  assert (Wn : forall e n, sane e n -> wrap (sizeof_Real * n) = 8 * n).
  { intros e n S. replace (sizeof_Real * n) with (8 * n * 1) by (unfold sizeof_Real; lia). rewrite (W e "" n S) by lia. lia. }
  intros e s n. induction e as [| |e IH|e IH|e IH|e IH|e IH|e IH|e IH]; intros S; cbn [scratch_size energy_layers ramp_layers inner_buffers inner].
  - unfold inner_buffers. cbn [inner]. destruct (has_suffix s), (has_prefix s); lia.
  - unfold inner_buffers. cbn [inner]. rewrite lookup_find. destruct (find _ nbuffers) as [x|] eqn:F.
    + assert (B : 0 <= snd x <= 6).
      { apply find_some in F. destruct F as [F _]. cbn in F. repeat (destruct F as [<-|F]; [cbn; lia|]). contradiction. }
      assert (Q : wrap (sizeof_Real * snd x) = 8 * snd x) by (unfold wrap, sizeof_Real; rewrite Z.mod_small; lia).
      rewrite Q. replace (8 * snd x * n) with (8 * n * snd x) by lia. rewrite (W Eospac "" n S) by lia. destruct (has_suffix s), (has_prefix s); lia.
    + destruct (has_suffix s), (has_prefix s); lia.
  - assert (S' : sane e n) by (destruct S as [? S]; cbn [energy_layers ramp_layers] in S; split; [auto|]; lia). specialize (IH S').
    rewrite IH. pose proof (inner_bounds e s). pose proof (layers_nonneg e). destruct S' as [N D].
    change (inner_buffers (Shifted e) s) with (inner_buffers e s).
    destruct (has_suffix s) eqn:Hs; [|reflexivity]. rewrite (Wn e n) by (split; auto).
    match goal with |- wrap (8 * n * ?a + 8 * n) = 8 * n * ?b => replace (8 * n * a + 8 * n) with (8 * n * b) by lia; apply (W e "" n); [split; auto|] end.
    destruct (has_prefix s); lia.
  - assert (S' : sane e n) by (destruct S as [? S]; cbn [energy_layers ramp_layers] in S; split; [auto|]; lia). specialize (IH S').
    rewrite IH. pose proof (inner_bounds e s). pose proof (layers_nonneg e). destruct S' as [N D].
    change (inner_buffers (Floored e) s) with (inner_buffers e s).
    destruct (has_suffix s) eqn:Hs; [|reflexivity]. rewrite (Wn e n) by (split; auto).
    match goal with |- wrap (8 * n * ?a + 8 * n) = 8 * n * ?b => replace (8 * n * a + 8 * n) with (8 * n * b) by lia; apply (W e "" n); [split; auto|] end.
    destruct (has_prefix s); lia.
  - assert (S' : sane e n) by (destruct S as [? S]; cbn [energy_layers ramp_layers] in S; split; [auto|]; lia). specialize (IH S').
    rewrite IH. pose proof (inner_bounds e s). pose proof (layers_nonneg e). destruct S' as [N D].
    change (inner_buffers (Ramp e) s) with (inner_buffers e s).
    destruct (has_prefix s) eqn:Hs; [|reflexivity]. rewrite (Wn e n) by (split; auto).
    match goal with |- wrap (8 * n * ?a + 8 * n) = 8 * n * ?b => replace (8 * n * a + 8 * n) with (8 * n * b) by lia; apply (W e "" n); [split; auto|] end.
    destruct (has_suffix s); lia.
  - now apply IH.
  - now apply IH.
  - now apply IH.
  - now apply IH.
Qed.

(** ** Theorems *)
(** For every stack of modifiers, every number of elements and every name: the size in bytes is 8 num times the buffers of the class inside,
    plus one per shifted or floored layer exactly if the name ends in FromDensityInternalEnergy, plus one per ramp layer exactly if the name
    begins with BulkModulusFrom (and does not repeat it). No size is lost to overflow. *)
Theorem C92_scratch_size : forall e method n, sane e n -> size method < 2 ^ 63 -> size method <> 24 -> exists s r : bool,
  scratch_size e method n = 8 * n * (inner_buffers e method + (if s then energy_layers e else 0) + (if r then ramp_layers e else 0)) /\
  (s = true <-> ends_in method suffix) /\
  (r = true <-> begins_with method ramp_prefix /\ forall a b, method = a ++ ramp_prefix ++ b -> a = "").
Proof.
  intros e method n S B N. exists (has_suffix method), (has_prefix method). split; [now apply sizes|]. split; [now apply suffix_test|apply prefix_test].
Qed.

(** For the queries there are: which layers count. *)
Theorem C92_queries : forall e q n, sane e n -> scratch_size e (name q) n = 8 * n *
  (match inner e with Eospac => Z.of_nat (Eospac_Model.nbuffers q) | _ => 0 end +
   match q with
   | Vector_Model.TofE | Vector_Model.PofE | Vector_Model.CvE | Vector_Model.GofE | Vector_Model.SofE => energy_layers e
   | Vector_Model.BofE => energy_layers e + ramp_layers e
   | Vector_Model.BofT => ramp_layers e
   | _ => 0
   end).
Proof.
  intros e q n S. rewrite sizes by auto. unfold inner_buffers.
  assert (F : forall q, match find (fun x => String.eqb (name q) (fst x)) nbuffers with Some x => snd x | None => 0 end = Z.of_nat (Eospac_Model.nbuffers q))
    by (intros []; vm_compute; reflexivity).
  assert (H : forall q, has_suffix (name q) = match q with
    | Vector_Model.TofE | Vector_Model.PofE | Vector_Model.CvE | Vector_Model.GofE | Vector_Model.SofE | Vector_Model.BofE => true | _ => false end)
    by (intros []; vm_compute; reflexivity).
  assert (P : forall q, has_prefix (name q) = match q with Vector_Model.BofT | Vector_Model.BofE => true | _ => false end)
    by (intros []; vm_compute; reflexivity).
  rewrite F, H, P. destruct (inner e), q; lia.
Qed.

(** max_scratch_size is enough for every method whatever its name, and some method needs it. *)
Theorem C92_maximum : forall e n, sane e n -> (forall method, scratch_size e method n <= max_scratch_size e n) /\
  exists q, max_scratch_size e n = scratch_size e (name q) n.
Proof.
  assert (U : forall e s n, sane e n -> scratch_size e s n <= scratch_size e (name Vector_Model.BofE) n).
  { intros e s n S. rewrite !sizes by auto. destruct S as [N _]. pose proof (layers_nonneg e).
    change (has_suffix (name Vector_Model.BofE)) with true. change (has_prefix (name Vector_Model.BofE)) with true.
    assert (inner_buffers e s <= inner_buffers e (name Vector_Model.BofE)).
    { unfold inner_buffers. destruct (inner e); try lia. pose proof (inner_bounds Eospac s) as H0. unfold inner_buffers in H0. cbn [inner] in H0.
      replace (find (fun x => (name Vector_Model.BofE =? fst x)%string) nbuffers) with (Some ("BulkModulusFromDensityInternalEnergy", 6)) by (vm_compute; reflexivity).
      cbn [snd]. lia. }
    destruct (has_suffix s), (has_prefix s); nia. }
  assert (E : forall e n, sane e n -> max_scratch_size e n = scratch_size e (name Vector_Model.BofE) n).
  { intros e n. induction e as [| |e IH|e IH|e IH|e IH|e IH|e IH|e IH]; intros S; try reflexivity; try (now apply IH).
    - assert (S' : sane e n) by (destruct S as [? S]; cbn [energy_layers ramp_layers] in S; split; [auto|]; lia).
      assert (M : scratch_size e (name Vector_Model.BofE) n <= scratch_size (Shifted e) (name Vector_Model.BofE) n).
      { rewrite !sizes by auto. destruct S as [? _]. change (has_suffix (name Vector_Model.BofE)) with true. change (has_prefix (name Vector_Model.BofE)) with true.
        change (inner_buffers (Shifted e)) with (inner_buffers e). cbn [energy_layers ramp_layers]. nia. }
      change (max_scratch_size (Shifted e) n) with
        (Z.max (Z.max (Z.max (Z.max (Z.max (max_scratch_size e n) (scratch_size (Shifted e) (name Vector_Model.TofE) n)) (scratch_size (Shifted e) (name Vector_Model.PofE) n))
           (scratch_size (Shifted e) (name Vector_Model.CvE) n)) (scratch_size (Shifted e) (name Vector_Model.BofE) n)) (scratch_size (Shifted e) (name Vector_Model.GofE) n)).
      rewrite IH by auto. pose proof (fun q => U (Shifted e) (name q) n S) as V.
      pose proof (V Vector_Model.TofE). pose proof (V Vector_Model.PofE). pose proof (V Vector_Model.CvE). pose proof (V Vector_Model.GofE). lia.
    - assert (S' : sane e n) by (destruct S as [? S]; cbn [energy_layers ramp_layers] in S; split; [auto|]; lia).
      assert (M : scratch_size e (name Vector_Model.BofE) n <= scratch_size (Floored e) (name Vector_Model.BofE) n).
      { rewrite !sizes by auto. destruct S as [? _]. change (has_suffix (name Vector_Model.BofE)) with true. change (has_prefix (name Vector_Model.BofE)) with true.
        change (inner_buffers (Floored e)) with (inner_buffers e). cbn [energy_layers ramp_layers]. nia. }
      change (max_scratch_size (Floored e) n) with
        (Z.max (Z.max (Z.max (Z.max (Z.max (max_scratch_size e n) (scratch_size (Floored e) (name Vector_Model.TofE) n)) (scratch_size (Floored e) (name Vector_Model.PofE) n))
           (scratch_size (Floored e) (name Vector_Model.CvE) n)) (scratch_size (Floored e) (name Vector_Model.BofE) n)) (scratch_size (Floored e) (name Vector_Model.GofE) n)).
      rewrite IH by auto. pose proof (fun q => U (Floored e) (name q) n S) as V.
      pose proof (V Vector_Model.TofE). pose proof (V Vector_Model.PofE). pose proof (V Vector_Model.CvE). pose proof (V Vector_Model.GofE). lia.
    - assert (S' : sane e n) by (destruct S as [? S]; cbn [energy_layers ramp_layers] in S; split; [auto|]; lia).
      assert (M : scratch_size e (name Vector_Model.BofE) n <= scratch_size (Ramp e) (name Vector_Model.BofE) n).
      { rewrite !sizes by auto. destruct S as [? _]. change (has_suffix (name Vector_Model.BofE)) with true. change (has_prefix (name Vector_Model.BofE)) with true.
        change (inner_buffers (Ramp e)) with (inner_buffers e). cbn [energy_layers ramp_layers]. nia. }
      change (max_scratch_size (Ramp e) n) with
        (Z.max (Z.max (max_scratch_size e n) (scratch_size (Ramp e) (name Vector_Model.BofE) n)) (scratch_size (Ramp e) (name Vector_Model.BofT) n)).
      rewrite IH by auto. pose proof (U (Ramp e) (name Vector_Model.BofT) n S). lia. }
  intros e n S. split; [intros method; rewrite E by auto; now apply U|]. exists Vector_Model.BofE. now apply E.
Qed.

(** The sizes are those of the vector calls modelled for C14, C57, C78 and C79. *)
Fixpoint shape {L} (e : @Vector_Model.eos L) : eos :=
  match e with
  | Vector_Model.Base _ | Vector_Model.BaseT _ => Plain
  | Vector_Model.Shifted _ t => Shifted (shape t)
  | Vector_Model.Floored t => Floored (shape t)
  | Vector_Model.Ramp _ _ t => Ramp (shape t)
  | Vector_Model.Scaled _ t => Scaled (shape t)
  | Vector_Model.Units _ t => Units (shape t)
  end.
Theorem C92_vector_calls : forall L (e : @Vector_Model.eos L) q n, sane (shape e) (Z.of_nat n) ->
  scratch_size (shape e) (name q) (Z.of_nat n) = sizeof_Real * Z.of_nat (Vector_Model.scratch_size e q n).
Proof.
  intros L e q n S. rewrite C92_queries by auto. unfold sizeof_Real.
  assert (I : inner (shape e) = Plain) by (clear; induction e; auto). rewrite I. rewrite <- Z.mul_assoc. f_equal. clear I.
  induction e as [s|s|sh e IH|e IH|pr dp e IH|sc e IH|u e IH]; cbn [shape energy_layers ramp_layers Vector_Model.scratch_size] in *;
    try (destruct q; lia);
    assert (S' : sane (shape e) (Z.of_nat n)) by (destruct S as [? S]; cbn [energy_layers ramp_layers shape] in S; split; [auto|]; lia); specialize (IH S');
    rewrite ?Nat2Z.inj_add, <- ?IH; destruct q; cbn [Vector_Model.fromE]; lia.
Qed.
Theorem C92_eospac_calls : forall q n, Z.of_nat n < 2 ^ 32 ->
  scratch_size Eospac (name q) (Z.of_nat n) = sizeof_Real * Z.of_nat (Eospac_Model.scratch_size (Some q) n) /\
  scratch_size Eospac "FillEos" (Z.of_nat n) = sizeof_Real * Z.of_nat (Eospac_Model.scratch_size None n) /\
  max_scratch_size Eospac (Z.of_nat n) = sizeof_Real * Z.of_nat (Eospac_Model.max_scratch_size n) /\
  scratch_size (Shifted Eospac) (name q) (Z.of_nat n) = sizeof_Real * Z.of_nat (Eospac_Model.modifier_scratch_size q n) /\
  scratch_size (Floored Eospac) (name q) (Z.of_nat n) = sizeof_Real * Z.of_nat (Eospac_Model.modifier_scratch_size q n).
Proof.
  intros q n B. assert (S : forall e, energy_layers e + ramp_layers e <= 1 -> sane e (Z.of_nat n)) by (intros e H; split; lia).
  rewrite !C92_queries by (apply S; cbn; lia). rewrite (sizes Eospac "FillEos") by (apply S; cbn; lia).
  split; [|split; [|split; [|split]]].
  - unfold Eospac_Model.scratch_size, sizeof_Real. destruct q; cbn [inner energy_layers ramp_layers Eospac_Model.nbuffers]; lia.
  - unfold Eospac_Model.scratch_size, Eospac_Model.fill_nbuffers, sizeof_Real, inner_buffers. cbn [inner energy_layers ramp_layers].
    replace (find _ nbuffers) with (Some ("FillEos", 4)) by (vm_compute; reflexivity). cbn [snd]. destruct (has_suffix _), (has_prefix _); lia.
  - unfold Eospac_Model.max_scratch_size. change (fold_right Nat.max 0%nat _) with 6%nat.
    change (max_scratch_size Eospac (Z.of_nat n)) with (scratch_size Eospac (name Vector_Model.BofE) (Z.of_nat n)).
    rewrite C92_queries by (apply S; cbn; lia). cbn [inner energy_layers ramp_layers Eospac_Model.nbuffers]. unfold sizeof_Real. lia.
  - unfold Eospac_Model.modifier_scratch_size, Eospac_Model.scratch_size, sizeof_Real.
    destruct q; cbn [inner energy_layers ramp_layers Eospac_Model.nbuffers Vector_Model.fromE]; lia.
  - unfold Eospac_Model.modifier_scratch_size, Eospac_Model.scratch_size, sizeof_Real.
    destruct q; cbn [inner energy_layers ramp_layers Eospac_Model.nbuffers Vector_Model.fromE]; lia.
Qed.

(** Hypotheses are met, and why names of 24 characters are left out: position and length wrap to the same number. No query has such a name. *)
Example C92_nonvacuous : sane (Ramp (Scaled (Shifted (Floored Eospac)))) 1000 /\ scratch_size (Ramp (Scaled (Shifted (Floored Eospac)))) "BulkModulusFromDensityInternalEnergy" 1000 = 72000 /\
  (forall q, size (name q) <> 24) /\ has_suffix "abcdefghijklmnopqrstuvwx" = true.
Proof. split; [split; [lia|reflexivity]|]. split; [vm_compute; reflexivity|]. split; [intros []; vm_compute; discriminate|vm_compute; reflexivity]. Qed.
Print Assumptions C92_scratch_size.
Print Assumptions C92_queries.
Print Assumptions C92_maximum.
Print Assumptions C92_vector_calls.
Print Assumptions C92_eospac_calls.
