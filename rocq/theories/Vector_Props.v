(** C13 and C14: the vector API *)
From Coq Require Import List ZArith Bool Reals Lia Lra.
From Verif Require Import Vector_Model Vector_Spec Vector_Proofs.
Import ListNotations.

(** ** C13 *)
(** Any complete interleaving of the loop bodies' loads and stores ends in the memory of the sequential loop. *)
Theorem C13_every_schedule_equals_sequential : forall (V : Type) (k : kernel V) (n : nat) (m0 : mem V) (sched : list nat),
  (forall i j, (i < n)%nat -> (j < n)%nat -> i <> j ->
     forall a, In a (WA k i) -> ~ In a (RA k j) /\ ~ In a (WA k j)) ->
  complete k m0 n sched ->
  forall x, memo (prun k m0 sched) x = seq_for k n m0 x.
Proof. exact @par_seq. Qed.

Theorem C13_two_input_call : forall (V : Type) (scalar : V -> V -> list V -> V * list V) in1 in2 out lam n (m0 : mem V) sched,
  (forall x y l, length (snd (scalar x y l)) = length l) ->
  layout n [in1; in2] [out] lam ->
  complete (vec_2in_1out scalar in1 in2 out lam) m0 n sched ->
  let m := memo (prun (vec_2in_1out scalar in1 in2 out lam) m0 sched) in
  (forall i, (i < n)%nat -> m (out i) = fst (scalar (m0 (in1 i)) (m0 (in2 i)) (map m0 (lam i))) /\
                          map m (lam i) = snd (scalar (m0 (in1 i)) (m0 (in2 i)) (map m0 (lam i)))) /\
  (forall a, (forall i, (i < n)%nat -> a <> out i /\ ~ In a (lam i)) -> m a = m0 a).
Proof. exact @vec2_spec. Qed.

Theorem C13_one_input_call : forall (V : Type) (scalar : V -> list V -> V * list V) in1 out lam n (m0 : mem V) sched,
  (forall x l, length (snd (scalar x l)) = length l) ->
  layout n [in1] [out] lam ->
  complete (vec_1in_1out scalar in1 out lam) m0 n sched ->
  let m := memo (prun (vec_1in_1out scalar in1 out lam) m0 sched) in
  (forall i, (i < n)%nat -> m (out i) = fst (scalar (m0 (in1 i)) (map m0 (lam i))) /\
                          map m (lam i) = snd (scalar (m0 (in1 i)) (map m0 (lam i)))) /\
  (forall a, (forall i, (i < n)%nat -> a <> out i /\ ~ In a (lam i)) -> m a = m0 a).
Proof. exact @vec1_spec. Qed.

Theorem C13_FillEos_call : forall (V : Type) (scalar : list V -> list V -> list (option V) * list V)
    (arrs : list (nat -> Z)) lam n (m0 : mem V) sched,
  (forall x l, length (fst (scalar x l)) = length x /\ length (snd (scalar x l)) = length l) ->
  layout n arrs arrs lam -> (forall i, (i < n)%nat -> NoDup (map (fun a => a i) arrs)) ->
  complete (vec_fill scalar (fun i => map (fun a => a i) arrs) lam) m0 n sched ->
  let m := memo (prun (vec_fill scalar (fun i => map (fun a => a i) arrs) lam) m0 sched) in
  (forall i, (i < n)%nat ->
     let old := map (fun a => m0 (a i)) arrs in
     let r := scalar old (map m0 (lam i)) in
     map (fun a => m (a i)) arrs = map (fun p => apply_out (fst p) (snd p)) (combine old (fst r)) /\
     map m (lam i) = snd r) /\
  (forall a, (forall i, (i < n)%nat -> ~ In a (map (fun f => f i) arrs) /\ ~ In a (lam i)) -> m a = m0 a).
Proof. exact @vecfill_spec. Qed.

(** the hypotheses are met: every loop has a complete schedule ... *)
Theorem C13_schedules_exist : forall (V : Type) (k : kernel V) (m : mem V) n, exists sched, complete k m n sched.
Proof. exact @complete_exists. Qed.
(** ... and three-element arrays with two lambda cells per element, output updated in place, form a legal layout;
    an interleaving that is not sequential is a complete schedule of the 2-iteration loop *)
Example C13_layout_instance :
  layout 3 [fun i => Z.of_nat i; fun i => 10 + Z.of_nat i]%Z [fun i => 10 + Z.of_nat i]%Z
    (fun i => [20 + 2 * Z.of_nat i; 21 + 2 * Z.of_nat i]%Z).
Proof.
  assert (HL : forall (i : nat) x, In x [20 + 2 * Z.of_nat i; 21 + 2 * Z.of_nat i]%Z -> (x = 20 + 2 * Z.of_nat i \/ x = 21 + 2 * Z.of_nat i)%Z)
    by (intros i x [H|[H|[]]]; lia).
  assert (HI : forall (a : nat -> Z), In a [fun i => Z.of_nat i; fun i => 10 + Z.of_nat i]%Z -> forall i, (a i = Z.of_nat i \/ a i = 10 + Z.of_nat i)%Z)
    by (intros a [H|[H|[]]] i; subst a; auto).
  assert (HO : forall (a : nat -> Z), In a [fun i => 10 + Z.of_nat i]%Z -> forall i, (a i = 10 + Z.of_nat i)%Z)
    by (intros a [H|[]] i; subst a; auto).
  refine (conj _ (conj _ (conj _ (conj _ (conj _ _))))).
  - intros o o' i j H1 H2 Hi Hj Hij. rewrite (HO _ H1 i), (HO _ H2 j). lia.
  - intros o a i j H1 H2 Hi Hj Hij. rewrite (HO _ H1 i). destruct (HI _ H2 j) as [-> | ->]; lia.
  - intros o i j H1 Hi Hj H. rewrite (HO _ H1 i) in H. apply HL in H. lia.
  - intros i j x Hi Hj Hij H H'. apply HL in H, H'. lia.
  - intros a i j H1 Hi Hj Hij H. apply HL in H. destruct (HI _ H1 j) as [E|E]; rewrite E in H; lia.
  - intros i Hi. constructor; [intros [H|[]]; lia|constructor; [intros []|constructor]].
Qed.
Example C13_interleaved_instance :
  let k := vec_2in_1out (fun x y l => (x + y, map (Z.add x) l)%Z) Z.of_nat (fun i => 10 + Z.of_nat i)%Z (fun i => 20 + Z.of_nat i)%Z
             (fun i => [30 + Z.of_nat i]%Z) in
  complete k (fun a => a) 2 [0;1;1;0;0;1;1;0;1;0]%nat /\
  memo (prun k (fun a => a) [0;1;1;0;0;1;1;0;1;0]%nat) 21%Z = 12%Z.
Proof.
  split; [split|reflexivity].
  - intros i Hi. cbn in Hi. intuition lia.
  - intros i Hi. destruct i as [|[|i]]; [reflexivity|reflexivity|lia].
Qed.

(** ** C14 *)
Open Scope R_scope.
Notation "a +n i" := (a + Z.of_nat i)%Z (at level 45).
(** For every tower of modifiers in [good]: any nesting of Shifted, FlooredEnergy and BilinearRamp, over a class with
    the EosBase loops, or over Scaled/UnitSystem layers directly on a class whose vector calls apply the Transform.
    (FlooredEnergy: the wrapped minimum energy must not depend on lambda, because the scalar method drops lambda.) *)
Theorem C14_modifier_vector_calls : forall (L : Type) (null : L) (e : eos) (q : meth), good null e q ->
  forall in1 in2 out scratch n lam (m : mem R),
  call_ok e q in1 in2 out scratch n ->
  let m' := vector null e q in1 in2 out scratch n lam T0 m in
  (forall i, (i < n)%nat -> m' (out +n i) = scalar null e q (m (in1 +n i)) (m (in2 +n i)) (lam i)) /\
  (forall a, ~ inarr out n a -> ~ inarr scratch (scratch_size e q n) a -> m' a = m a).
Proof. intros L null e q H. exact (good_vec_ok null e q H). Qed.

(** the scratch advertised for the outermost call is enough for every nested call, and is zero for calls that take none *)
Theorem C14_scratch_monotone : forall (L : Type) (e : @eos L) n,
  (scratch_size e PofT n <= scratch_size e BofT n)%nat /\ (scratch_size e PofE n <= scratch_size e BofE n)%nat /\
  scratch_size e MinE n = 0%nat.
Proof. intros L e n. destruct (size_BP e n). split; [assumption|split; [assumption|apply size_Min]]. Qed.

(** an instance: BilinearRamp<FlooredEnergy<ShiftedEOS<class>>>, 3 elements, arrays one after another *)
Example C14_instance : 
  let e := Ramp (fun r => r - 1) (fun _ => 1) (Floored (Shifted 2 (Base (fun q rho x (_ : unit) => match q with MinE => rho | _ => rho * x end)))) in
  good tt e BofE /\ call_ok e BofE 0 3 6 9 3 /\ scratch_size e BofE 3 = 9%nat.
Proof.
  cbv zeta. split; [cbn; repeat split; auto|]. split; [|reflexivity].
  repeat split; intros a [i [Hi ->]] [j [Hj E]]; cbn [scratch_size fromE] in *; lia.
Qed.

(** Refuted: ScaledEOS (also UnitSystem) over any class with the EosBase loops ignores the factors in vector calls. *)
Theorem C57_scaled_vector_refuted :
  exists (e : @eos unit) q in1 in2 out scratch n lam (m : mem R),
    e = Scaled 2 (Base (fun _ rho x _ => rho * x)) /\ q = PofT /\ call_ok e q in1 in2 out scratch n /\ n = 1%nat /\
    vector tt e q in1 in2 out scratch n lam T0 m out <> scalar tt e q (m in1) (m in2) (lam 0%nat).
Proof.
  exists (Scaled 2 (Base (fun _ rho x _ => rho * x))), PofT, 0%Z, 1%Z, 2%Z, 3%Z, 1%nat, (fun _ => tt), (fun _ => 1).
  split; [reflexivity|]. split; [reflexivity|]. split.
  { repeat split; intros a [i [Hi ->]] [j [Hj E]]; cbn [scratch_size fromE] in *; lia. }
  split; [reflexivity|]. cbn. unfold upd. cbn. lra.
Qed.
(** Refuted: the order used by the default variant, Scaled<Shifted<class>>, even when the class applies the Transform:
    the shift is applied before the scaling instead of after. *)
Theorem C57_scaled_shifted_vector_refuted :
  exists (e : @eos unit) q in1 in2 out scratch n lam (m : mem R),
    e = Scaled 2 (Shifted 1 (BaseT (fun _ rho x _ => rho * x))) /\ q = PofE /\ call_ok e q in1 in2 out scratch n /\ n = 1%nat /\
    vector tt e q in1 in2 out scratch n lam T0 m out <> scalar tt e q (m in1) (m in2) (lam 0%nat).
Proof.
  exists (Scaled 2 (Shifted 1 (BaseT (fun _ rho x _ => rho * x)))), PofE, 0%Z, 1%Z, 2%Z, 3%Z, 1%nat, (fun _ => tt), (fun _ => 1).
  split; [reflexivity|]. split; [reflexivity|]. split.
  { repeat split; intros a [i [Hi ->]] [j [Hj E]]; cbn [scratch_size fromE] in *; lia. }
  split; [reflexivity|]. cbn. unfold upd. cbn. lra.
Qed.
(** Refuted: UnitSystem::MinInternalEnergyFromDensity multiplies by the energy unit in the vector call and divides by it
    in the scalar call. *)
Theorem C57_units_minimum_energy_vector_refuted :
  exists (e : @eos unit) q in1 in2 out scratch n lam (m : mem R),
    e = Units (mkU 1 2 1) (BaseT (fun _ rho x _ => rho)) /\ q = MinE /\ call_ok e q in1 in2 out scratch n /\ n = 1%nat /\
    vector tt e q in1 in2 out scratch n lam T0 m out <> scalar tt e q (m in1) (m in2) (lam 0%nat).
Proof.
  exists (Units (mkU 1 2 1) (BaseT (fun _ rho x _ => rho))), MinE, 0%Z, 1%Z, 2%Z, 3%Z, 1%nat, (fun _ => tt), (fun _ => 1).
  split; [reflexivity|]. split; [reflexivity|]. split.
  { repeat split; intros a [i [Hi ->]] [j [Hj E]]; cbn [scratch_size fromE] in *; lia. }
  split; [reflexivity|]. cbn. unfold upd. cbn. lra.
Qed.
(** Refuted: FlooredEnergy's scalar calls evaluate the floor without lambda, its vector calls with lambda. *)
Theorem C57_floor_lambda_refuted :
  exists (e : @eos R) q in1 in2 out scratch n lam (m : mem R),
    e = Floored (Base (fun q rho x l => match q with MinE => l | _ => x end)) /\ q = PofE /\ call_ok e q in1 in2 out scratch n /\ n = 1%nat /\
    vector 0 e q in1 in2 out scratch n lam T0 m out <> scalar 0 e q (m in1) (m in2) (lam 0%nat).
Proof.
  exists (Floored (Base (fun q rho x l => match q with MinE => l | _ => x end))), PofE, 0%Z, 1%Z, 2%Z, 3%Z, 1%nat, (fun _ => 5), (fun _ => 1).
  split; [reflexivity|]. split; [reflexivity|]. split.
  { repeat split; intros a [i [Hi ->]] [j [Hj E]]; cbn [scratch_size fromE] in *; lia. }
  split; [reflexivity|]. cbn. unfold upd. cbn. rewrite (Rmax_right 1 5), (Rmax_left 1 0) by lra. lra.
Qed.

Print Assumptions C13_every_schedule_equals_sequential.
Print Assumptions C13_two_input_call.
Print Assumptions C13_one_input_call.
Print Assumptions C13_FillEos_call.
Print Assumptions C13_schedules_exist.
Print Assumptions C14_modifier_vector_calls.
Print Assumptions C14_scratch_monotone.
Print Assumptions C57_scaled_vector_refuted.
Print Assumptions C57_scaled_shifted_vector_refuted.
Print Assumptions C57_units_minimum_energy_vector_refuted.
Print Assumptions C57_floor_lambda_refuted.
