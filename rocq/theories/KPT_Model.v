(** Kinetic phase transitions: closure/kinetic_phasetransition_utils.hpp, kinetic_phasetransition_models.hpp and
    kinetic_phasetransition_methods.hpp.

    Arrays passed by pointer are functions [nat -> _]; a write is an update of the function. [int] indices are naturals
    where the code only counts up from 0, and integers where the code subtracts.
    Simplifications: [SortGibbs] is generic in the arithmetic; the other three functions are over the exact reals. A
    log-rate may be minus infinity (the code takes [log] of a vanishing Gibbs difference or mass fraction, and C's
    [log(0)] is [-inf]); it is modelled by [option R] with [None] for minus infinity. Overflow, underflow and NaN (log of
    a negative number) are not modelled. *)
From Coq Require Import ZArith Reals Bool List Lia.
From Flocq Require Import Core.Raux.
From Verif Require Import Arith.
Import ListNotations.

(** array write *)
Definition aupd {V : Type} (a : nat -> V) (i : nat) (x : V) : nat -> V := fun k => if (k =? i)%nat then x else a k.

(** the loop [for (int k = n - 1; k > j; k--)]: n-1, n-2, ..., j+1 (three times in the code: utils.hpp:49,
    models.hpp:48 and 83, methods.hpp:61) *)
Definition down (n j : nat) : list nat := rev (seq (S j) (n - 1 - j)).

(** utils.hpp:51-55 : compare and swap *)
Definition sg_swap {A : Arith} (gibbs : nat -> num A) (j : nat) (o : nat -> nat) (k : nat) : nat -> nat :=
  if ltb (gibbs (o j)) (gibbs (o k)) then aupd (aupd o j (o k)) k (o j) else o.

(** utils.hpp:49-56 *)
Definition sg_row {A : Arith} (n : nat) (gibbs : nat -> num A) (o : nat -> nat) (j : nat) : nat -> nat :=
  fold_left (sg_swap gibbs j) (down n j) o.

(** utils.hpp:40-59 SortGibbs, with the initialisation loop 44-46 *)
Definition SortGibbs {A : Arith} (n : nat) (gibbs : nat -> num A) (o0 : nat -> nat) : nat -> nat :=
  let o := fold_left (fun o j => aupd o j j) (seq 0 n) o0 in
  fold_left (sg_row n gibbs) (seq 0 (n - 1)) o.

Local Open Scope R_scope.

(** utils.hpp:38 KPT_MIN_MASS_FRACTION *)
Definition MIN_MF : R := / 10000000000.

(** C's log, exp, + and unary - on log-rates; [None] is minus infinity. [xneg_min x l] is [std::min(x, -l)]. *)
Definition xlog (x : R) : option R := if Req_bool x 0 then None else Some (ln x).
Definition xadd (a b : option R) : option R :=
  match a, b with Some x, Some y => Some (x + y) | _, _ => None end.
Definition xexp (a : option R) : R := match a with Some x => exp x | None => 0 end.
Definition xneg_min (x : R) (l : option R) : R := match l with Some y => Rmin x (- y) | None => x end.

(** models.hpp:51-66 : one pair; the state is (jk, logRjk, fromto) *)
Definition lr_step (n : nat) (w b gibbs : nat -> R) (go : nat -> nat) (j : nat)
    (s : nat * (nat -> option R) * (nat -> nat)) (k : nat) : nat * (nat -> option R) * (nat -> nat) :=
  let '(jk, lr, ft) := s in
  let hgj := gibbs (go j) in
  let hgk := gibbs (go k) in
  let dgdb := (hgj - hgk) / b (go j * n + go k)%nat in
  let lr' := aupd lr jk (xadd (xlog (w (go j * n + go k)%nat * dgdb)) (Some (dgdb * dgdb))) in
  let ft' := aupd ft jk (go j * 10 + go k)%nat in
  (S jk, lr', ft').

(** models.hpp:39-74 LogRatesCGModel *)
Definition LogRatesCGModel (w b : nat -> R) (n : nat) (gibbs : nat -> R) (go : nat -> nat)
    (lr0 : nat -> option R) (ft0 : nat -> nat) : (nat -> option R) * (nat -> nat) :=
  let '(_, lr, ft) :=
    fold_left (fun s j => fold_left (lr_step n w b gibbs go j) (down n j) s) (seq 0 (n - 1)) (0%nat, lr0, ft0) in
  (lr, ft).

(** models.hpp:87-91 *)
Definition ts_step (mfs : nat -> R) (go : nat -> nat) (lr : nat -> option R) (j : nat)
    (s : R * nat) (_ : nat) : R * nat :=
  let '(lts, jk) := s in
  if Rlt_bool MIN_MF (mfs (go j)) then (xneg_min lts (lr jk), S jk) else (lts, S jk).

(** models.hpp:76-95 LogMaxTimeStep *)
Definition LogMaxTimeStep (n : nat) (mfs : nat -> R) (go : nat -> nat) (lr : nat -> option R) : R :=
  fst (fold_left (fun s j => fold_left (ts_step mfs go lr j) (down n j) s) (seq 0 (n - 1)) (1, 0%nat)).

(** methods.hpp:58,92 the int expression [(k + 1) * (num_phases - 1) - (k - 1) * k / 2]; C division truncates *)
Definition offset (n k : nat) : Z :=
  let k := Z.of_nat k in
  ((k + 1) * (Z.of_nat n - 1) - Z.quot ((k - 1) * k) 2)%Z.

(** methods.hpp:64-79 : one transfer j -> k; the state is (new_massfrac, jk, dmfs) *)
Definition ss_step (logdt : R) (mfs : nat -> R) (go : nat -> nat) (lr : nat -> option R) (j : nat)
    (s : R * nat * (nat -> R)) (_ : nat) : R * nat * (nat -> R) :=
  let '(nm, jk, d) := s in
  if Rlt_bool nm MIN_MF then (nm, S jk, aupd d jk 0)
  else
    let dx := xexp (xadd (xadd (Some logdt) (lr jk)) (xlog (mfs (go j)))) in
    let trial := nm - dx in
    let d' := if Rlt_bool trial MIN_MF then aupd d jk nm else aupd d jk dx in
    (trial, S jk, d').

(** methods.hpp:57-60 / 91-94 : contributions received from the phases above *)
Definition ss_gain (n : nat) (d : nat -> R) (j : nat) (nm : R) (k : nat) : R :=
  nm + d (Z.to_nat (offset n k - Z.of_nat j)).

(** methods.hpp:54-85 : one phase; the state is (jk, dmfs, newmfs) *)
Definition ss_row (logdt : R) (n : nat) (mfs : nat -> R) (go : nat -> nat) (lr : nat -> option R)
    (s : nat * (nat -> R) * (nat -> R)) (j : nat) : nat * (nat -> R) * (nat -> R) :=
  let '(jk, d, nw) := s in
  let nm0 := fold_left (ss_gain n d j) (seq 0 j) (mfs (go j)) in
  let '(nm, jk', d') := fold_left (ss_step logdt mfs go lr j) (down n j) (nm0, jk, d) in
  (jk', d', aupd nw (go j) (if Rlt_bool nm MIN_MF then 0 else nm)).

(** methods.hpp:38-97 SmallStepMFUpdate; the result is (dmfs, newmfs). In lines 93 the index is
    [offset - num_phases + 1]. *)
Definition SmallStepMFUpdate (logdt : R) (n : nat) (mfs : nat -> R) (go : nat -> nat) (lr : nat -> option R)
    (d0 nw0 : nat -> R) : (nat -> R) * (nat -> R) :=
  let '(_, d, nw) := fold_left (ss_row logdt n mfs go lr) (seq 0 (n - 1)) (0%nat, d0, nw0) in
  let nm := fold_left (fun nm k => nm + d (Z.to_nat (offset n k - Z.of_nat n + 1))) (seq 0 (n - 1))
              (mfs (go (n - 1)%nat)) in
  (d, aupd nw (go (n - 1)%nat) nm).
