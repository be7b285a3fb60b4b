(** What a caller of get_sg_eos expects of one cell. *)
From Coq Require Import ZArith Reals Bool List Lia.
From Flocq Require Import Core.
From Verif Require Import Arith PTE_Model SgEos_Model.
Import ListNotations.
Local Open Scope R_scope.

Section Spec.
Variable nmat : nat.
Variable eos : nat -> seos.
Variable eos_offsets : nat -> nat.
Variable cutoff : R.
Variable o : opts.

(** the EOS of material m (offsets count from one) *)
Definition eos_of (m : nat) : seos := eos (eos_offsets m - 1)%nat.
(** total of the material masses of the cell, mass fraction, and which materials are above the cutoff *)
Definition total (c : cell) : R := rsum nmat (f_mass c).
Definition fraction (c : cell) (m : nat) : R := f_mass c m / total c.
Definition takes_part (c : cell) (m : nat) : bool := Rlt_bool cutoff (fraction c m).
(** sum over the materials selected by [part] *)
Definition over_parts (part : nat -> bool) (g : nat -> R) : R := rsum nmat (fun m => if part m then g m else 0).

(** volume fraction, density, temperature (K), pressure and specific internal energy of every material *)
Record mstate := mkMS { q_vf : nat -> R; q_rho : nat -> R; q_T : nat -> R; q_P : nat -> R; q_e : nat -> R }.

(** the derived outputs of the cell are the averages of the material states [q], volume-weighted except the specific
    heat, which is mass-weighted and per eV; material outputs are those of [q] *)
Record averaged (part : nat -> bool) (c c' : cell) (q : mstate) : Prop := {
  av_bmod : c_bmod c' = over_parts part (fun m => q_vf q m * bmod_rt (eos_of m) (q_rho q m) (q_T q m));
  av_dpde : c_dpde c' = over_parts part (fun m => q_vf q m * gru_rt (eos_of m) (q_rho q m) (q_T q m));
  av_cv : c_cv c' = over_parts part (fun m => fraction c m * (ev2k * cv_rt (eos_of m) (q_rho q m) (q_T q m)));
  av_pmax : c_pmax c' = Rmax (c_pmax c) (c_press c');
  av_mass : forall m, f_mass c' m = f_mass c m;
  av_vol : forall m, (m < nmat)%nat -> part m = true -> f_vol c' m = q_vf q m * c_vol c';
  av_ie : forall m, (m < nmat)%nat -> part m = true -> f_ie c' m = f_mass c m * q_e q m;
  av_fbmod : forall m, (m < nmat)%nat -> part m = true -> has_bmod o = true -> f_bmod c' m = bmod_rt (eos_of m) (q_rho q m) (q_T q m);
  av_fdpde : forall m, (m < nmat)%nat -> part m = true -> has_dpde o = true -> f_dpde c' m = gru_rt (eos_of m) (q_rho q m) (q_T q m);
  av_fcv : forall m, (m < nmat)%nat -> part m = true -> has_cv o = true -> has_dpde o = true -> f_cv c' m = ev2k * cv_rt (eos_of m) (q_rho q m) (q_T q m);
  av_optional : (has_bmod o = false -> f_bmod c' = f_bmod c) /\ (has_dpde o = false -> f_dpde c' = f_dpde c)
}.
(** materials below the cutoff: given no state of their own *)
Definition others_untouched (part : nat -> bool) (c c' : cell) : Prop := forall m, (m < nmat)%nat -> part m = false ->
  f_bmod c' m = f_bmod c m /\ f_dpde c' m = f_dpde c m /\ f_cv c' m = f_cv c m.
End Spec.
