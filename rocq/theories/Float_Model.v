(** Functions whose double-precision behaviour is studied, written once over any arithmetic: with [RArith] they are the functions of
    Robust_Model and Ideal_Model (Float_Props), with [FArith] they are the code on IEEE doubles, operation by operation in C++'s order. *)
From Coq Require Import ZArith Floats.
From Verif Require Import Arith.

Section Generic.
Context {A : Arith}.
Local Open Scope arith_scope.

(** robust_utils.hpp:56-63: the int (0 <= val) - (val < 0), converted to Real by the multiplication in ratio *)
Definition sgn_g (b : num A) : num A :=
  (if lit 0 <=? b then lit 1 else lit 0) - (if b <? lit 0 then lit 1 else lit 0).
(** robust_utils.hpp:65-68; [small] = SMALL<Real>() *)
Definition ratio_g (small a b : num A) : num A := a / (b + sgn_g b * small).

(** math_utils.hpp:31-50, P >= 0; the fuel P is enough (C02) *)
Fixpoint ipow_g (fuel P : nat) (x : num A) : num A :=
  match P with
  | O => lit 1
  | S O => x
  | _ => match fuel with
         | O => lit 0
         | S n => if Nat.odd P then x * ipow_g n (P - 1) x
                  else ipow_g n (Nat.div2 P) x * ipow_g n (Nat.div2 P) x
         end
  end.
(** P < 0 *)
Definition ipow_neg_g (P : nat) (x : num A) : num A := lit 1 / ipow_g P P x.

(** eos_ideal.hpp:32: a > b ? a : b *)
Definition mymax (a b : num A) : num A := if b <? a then a else b.

(** eos_ideal.hpp, with _gm1 and _Cv as first arguments *)
Section Ideal.
Variables gm1 Cv : num A.
(** 59-64 *) Definition ig_T (sie : num A) : num A := mymax (lit 0) (sie / Cv).
(** 78-82 *) Definition ig_e (temperature : num A) : num A := mymax (lit 0) (Cv * temperature).
(** 84-88 *) Definition ig_P_T (rho temperature : num A) : num A := mymax (lit 0) (gm1 * rho * Cv * temperature).
(** 90-94 *) Definition ig_P_e (rho sie : num A) : num A := mymax (lit 0) (gm1 * rho * sie).
(** 128-132 *) Definition ig_B_T (rho temperature : num A) : num A := mymax (lit 0) ((gm1 + lit 1) * gm1 * rho * Cv * temperature).
(** 134-138 *) Definition ig_B_e (rho sie : num A) : num A := mymax (lit 0) ((gm1 + lit 1) * gm1 * rho * sie).
(** 203-207 *) Definition ig_PT_rho (press temp : num A) : num A := mymax (lit 0) (press / (gm1 * ig_e temp)).
(** 209-214 *) Definition ig_e_rho_P (rho P : num A) : num A := P / (gm1 * rho).
End Ideal.
End Generic.

(** SMALL<double>() = 10 * 2^-1022, robust_utils.hpp:26-29 *)
Definition SMALL_f : float := 0x1.4p-1019%float.
Definition ratio_f (a b : float) : float := @ratio_g FArith SMALL_f a b.

(** mixed_cell_models.hpp:287-305 sum_neumaier: [i] counts up, [fuel] = n - i; [iskip = None] for a negative iskip; the data array and
    op are functions *)
Section Sum.
Context {A : Arith}.
Local Open Scope arith_scope.
Fixpoint neum_g (fuel i offset : nat) (iskip : option nat) (op : num A -> num A) (data : nat -> num A) (sum c : num A) : num A :=
  match fuel with
  | O => sum + c
  | S f =>
    if match iskip with Some k => Nat.eqb i k | None => false end
    then neum_g f (S i) offset iskip op data sum c
    else
      let x := op (data (i + offset)%nat) in
      let t := sum + x in
      let c := if absn x <=? absn sum then c + ((sum - t) + x) else c + ((x - t) + sum) in
      neum_g f (S i) offset iskip op data t c
  end.
Definition sum_neumaier_g (data : nat -> num A) (n offset : nat) (iskip : option nat) (op : num A -> num A) : num A :=
  neum_g n 0 offset iskip op data (lit 0) (lit 0).
(** mixed_cell_models.hpp:401-407 NormalizeVfrac *)
Definition normalize_g (small : num A) (n : nat) (vfrac_total : num A) (vfrac : nat -> num A) : nat -> num A :=
  let vfrac_sum := sum_neumaier_g vfrac n 0 None (fun x => x) in
  fun m => if Nat.ltb m n then vfrac m * ratio_g small vfrac_total vfrac_sum else vfrac m.
End Sum.
