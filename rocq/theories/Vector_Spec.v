(** Specification vocabulary for the vector API (C13, C14); small and independent of the proofs. *)
From Coq Require Import List ZArith Bool Reals.
From Verif Require Import Vector_Model.
Import ListNotations.
Open Scope Z_scope.

(** storage of a vector call: outputs of different elements distinct, element j's inputs are not element i's
    outputs (an element may be updated in place), per-element lambda storage private *)
Definition layout (n : nat) (ins : list (nat -> Z)) (outs : list (nat -> Z)) (lam : nat -> list Z) : Prop :=
  (forall o o' i j, In o outs -> In o' outs -> (i < n)%nat -> (j < n)%nat -> i <> j -> o i <> o' j) /\
  (forall o a i j, In o outs -> In a ins -> (i < n)%nat -> (j < n)%nat -> i <> j -> o i <> a j) /\
  (forall o i j, In o outs -> (i < n)%nat -> (j < n)%nat -> ~ In (o i) (lam j)) /\
  (forall i j x, (i < n)%nat -> (j < n)%nat -> i <> j -> In x (lam i) -> ~ In x (lam j)) /\
  (forall a i j, In a ins -> (i < n)%nat -> (j < n)%nat -> i <> j -> ~ In (a j) (lam i)) /\
  (forall i, (i < n)%nat -> NoDup (lam i)).

(** FillEos: outputs None are left alone *)
Definition apply_out {V} (old : V) (o : option V) : V := match o with Some v => v | None => old end.

Open Scope R_scope.
Section Mods.
Context {L : Type} (null : L).
Notation M := (mem R).
Notation eos := (@eos L).
Notation "a +n i" := (a + Z.of_nat i)%Z (at level 45).

(** a is in the array of n cells starting at b *)
Definition inarr (b : Z) (n : nat) (a : Z) : Prop := exists j, (j < n)%nat /\ a = b +n j.
Definition disj (b : Z) (n : nat) (c : Z) (k : nat) : Prop := forall a, inarr b n a -> ~ inarr c k a.

Definition call_ok (e : eos) (q : meth) (in1 in2 out scratch : Z) (n : nat) : Prop :=
  disj in1 n out n /\ disj in2 n out n /\
  disj in1 n scratch (scratch_size e q n) /\ disj in2 n scratch (scratch_size e q n) /\
  disj out n scratch (scratch_size e q n).

Definition vec_ok (e : eos) (q : meth) : Prop := forall in1 in2 out scratch n lam (m : M),
  call_ok e q in1 in2 out scratch n ->
  let m' := vector null e q in1 in2 out scratch n lam T0 m in
  (forall i, (i < n)%nat -> m' (out +n i) = scalar null e q (m (in1 +n i)) (m (in2 +n i)) (lam i)) /\
  (forall a, ~ inarr out n a -> ~ inarr scratch (scratch_size e q n) a -> m' a = m a).

(** Transform chains: Scaled and Units over a class whose raw-pointer overloads apply the Transform *)
Fixpoint tchain (e : eos) : Prop :=
  match e with BaseT _ => True | Scaled _ t | Units _ t => tchain t | _ => False end.
Fixpoint has_units (e : eos) : Prop :=
  match e with Base _ | BaseT _ => False | Units _ _ => True
  | Shifted _ t | Floored t | Ramp _ _ t | Scaled _ t => has_units t end.

(** trees for which the vector overloads are right *)
Fixpoint good (e : eos) (q : meth) : Prop :=
  match e with
  | Base _ | BaseT _ => True
  | Shifted _ t => good t q
  | Ramp _ _ t => good t q /\ match q with BofT => good t PofT | BofE => good t PofE | _ => True end
  | Floored t => good t q /\ (fromE q = true -> forall rho x lam, scalar null t MinE rho x lam = scalar null t MinE rho x null)
  | Scaled _ t | Units _ t => tchain e /\ (has_units e -> q <> MinE)
  end.

End Mods.
