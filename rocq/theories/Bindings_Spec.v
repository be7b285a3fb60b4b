(** What "element i" means to the caller, independently of how the bindings compute addresses. *)
From Coq Require Import List ZArith Bool.
From Verif Require Import Vector_Model Vector_Spec Bindings_Model.
Import ListNotations.
Open Scope Z_scope.

(** numpy: element i of a one-dimensional array, element (i,k) of a two-dimensional array *)
Definition np_at (a : nparray) (i : nat) : Z := np_base a + Z.of_nat i * np_step a.
Definition np2_at (l : nparray2) (i k : nat) : Z := n2_base l + Z.of_nat i * n2_row l + Z.of_nat k * n2_col l.
Definition np_row (l : nparray2) (nl i : nat) : list Z := map (np2_at l i) (seq 0 nl).
Definition addressable (x : Z) : Prop := 0 <= x < 2 ^ 64.
(** an ordinary, aligned array of doubles (so that different addresses do not share bytes): any stride, also negative or zero, that is a whole number of doubles *)
Definition np_doubles (a : nparray) (n : nat) : Prop :=
  (n <= np_size a)%nat /\ np_rw a = true /\ (8 | np_step a) /\ (8 | np_base a) /\ forall i, (i < n)%nat -> addressable (np_at a i).
(** a lambda array whose rows are contiguous *)
Definition np2_doubles (l : nparray2) (n nl : nat) : Prop :=
  (n <= n2_rows l)%nat /\ (0 < n2_cols l)%nat /\ (nl <= n2_cols l)%nat /\ n2_rw l = true /\ (8 | n2_row l) /\ (8 | n2_base l) /\ n2_col l = 8 /\
  forall i k, (i < n)%nat -> (k < n2_cols l)%nat -> addressable (np2_at l i k).

(** the elementwise result of a two-argument query *)
Definition elementwise2 {V} (f : V -> V -> list V -> V * list V) (n : nat) (x y out : nat -> Z) (lam : nat -> list Z) (m0 m : mem V) : Prop :=
  (forall i, (i < n)%nat -> m (out i) = fst (f (m0 (x i)) (m0 (y i)) (map m0 (lam i))) /\
                            map m (lam i) = snd (f (m0 (x i)) (m0 (y i)) (map m0 (lam i)))) /\
  (forall a, (forall i, (i < n)%nat -> a <> out i /\ ~ In a (lam i)) -> m a = m0 a).

(** a scalar call leaves the number of lambda entries alone *)
Definition keeps_lambda {V} (f : V -> V -> list V -> V * list V) : Prop := forall x y l, length (snd (f x y l)) = length l.

(** Fortran: element (i,j,k), indices from 1; lambda(l,i,j,k) *)
Definition fa_at (a : farray) (i j k : nat) : Z :=
  f_base a + (Z.of_nat i - 1) * f_s1 a + (Z.of_nat j - 1) * f_s2 a + (Z.of_nat k - 1) * f_s3 a.
Definition fa4_at (a : farray4) (l i j k : nat) : Z :=
  f4_base a + (Z.of_nat l - 1) * f4_s0 a + (Z.of_nat i - 1) * f4_s1 a + (Z.of_nat j - 1) * f4_s2 a + (Z.of_nat k - 1) * f4_s3 a.
Definition valid3 (n1 n2 n3 i j k : nat) : Prop := (1 <= i <= n1 /\ 1 <= j <= n2 /\ 1 <= k <= n3)%nat.
(** contiguous, column-major, of shape n1 x n2 x n3 *)
Definition contiguous3 (n1 n2 n3 : nat) (a : farray) : Prop :=
  f_n1 a = n1 /\ f_n2 a = n2 /\ f_n3 a = n3 /\ f_s1 a = 8 /\ f_s2 a = 8 * Z.of_nat n1 /\ f_s3 a = 8 * Z.of_nat n1 * Z.of_nat n2 /\
  0 < f_base a /\ (8 | f_base a) /\ f_base a + 8 * Z.of_nat (n1 * n2 * n3) <= 2 ^ 64.
Definition contiguous4 (n0 n1 n2 n3 : nat) (a : farray4) : Prop :=
  f4_n0 a = n0 /\ f4_s0 a = 8 /\ f4_s1 a = 8 * Z.of_nat n0 /\ f4_s2 a = 8 * Z.of_nat n0 * Z.of_nat n1 /\
  f4_s3 a = 8 * Z.of_nat n0 * Z.of_nat n1 * Z.of_nat n2 /\
  0 < f4_base a /\ (8 | f4_base a) /\ f4_base a + 8 * Z.of_nat (n0 * (n1 * n2 * n3)) <= 2 ^ 64.
(** byte ranges [p, p+8n) and [q, q+8m) have nothing in common *)
Definition apart (p : Z) (n : nat) (q : Z) (m : nat) : Prop := p + 8 * Z.of_nat n <= q \/ q + 8 * Z.of_nat m <= p.

(** the elementwise result over a Fortran grid; [lam i j k] lists the addresses of lambda(1..nl,i,j,k) *)
Definition elementwise_f {V} (f : V -> V -> list V -> V * list V) (n1 n2 n3 : nat) (x y out : nat -> nat -> nat -> Z)
    (lam : nat -> nat -> nat -> list Z) (m0 m : mem V) : Prop :=
  (forall i j k, valid3 n1 n2 n3 i j k ->
     m (out i j k) = fst (f (m0 (x i j k)) (m0 (y i j k)) (map m0 (lam i j k))) /\
     map m (lam i j k) = snd (f (m0 (x i j k)) (m0 (y i j k)) (map m0 (lam i j k)))) /\
  (forall a, (forall i j k, valid3 n1 n2 n3 i j k -> a <> out i j k /\ ~ In a (lam i j k)) -> m a = m0 a).
Definition lambda_f (l : farray4) (nl i j k : nat) : list Z := map (fun q => fa4_at l q i j k) (seq 1 nl).
Definition cells3 (n1 n2 n3 : nat) : nat := (n1 * n2 * n3)%nat.

(** the flag bits as published, constants.hpp:24-29: density 1, energy 2, pressure 4, temperature 8, heat capacity 16, modulus 32 *)
Definition published_bit (q : qty) : N :=
  match q with Rho => 0 | Sie => 1 | Press => 2 | Temp => 3 | Cv => 4 | Bmod => 5 end%N.

(** ** Life cycle: the host program brackets its use of the library *)
(** every array created is destroyed, never more than were created *)
Fixpoint balanced (n : nat) (l : list event) : Prop :=
  match l with
  | [] => n = O
  | CInit :: r => balanced (S n) r
  | (CFinal _ | FFinal) :: r => match n with O => False | S m => balanced m r end
  | _ => False
  end.
Definition host_owns (l : list event) : Prop := forall e, In e l -> e = CInit \/ e = CFinal 0.
