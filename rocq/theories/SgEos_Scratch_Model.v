(** Per-thread solver scratch and lambda cache of get_sg_eos: eos/get_sg_eos.cpp and eos/get_sg_eos_rho_e.cpp,
    get_sg_eos_rho_t.cpp, get_sg_eos_rho_p.cpp, get_sg_eos_p_t.cpp. Offsets are in Reals from &solver_scratch(tid, 0).
    [nmat] is the number of materials of the call, [npte] the number participating in the cell (npte <= nmat). *)
From Coq Require Import ZArith List Lia.
From Verif Require Import PTE_Scratch_Model.
Import ListNotations.
Local Open Scope nat_scope.

(** base/constants.hpp:37 *)
Definition MAX_NUM_LAMBDAS : nat := 3.

(** get_sg_eos.cpp:69-75 input_condition (0 and 1 share one case) *)
Inductive smode := RHO_T | RHO_P | P_T | RHO_E.

(** the solver each mode runs when npte > 1: get_sg_eos_rho_t.cpp:69, get_sg_eos_rho_p.cpp:67, get_sg_eos_rho_e.cpp:68;
    p_t runs none *)
Definition solver_of (md : smode) : option solver :=
  match md with RHO_T => Some FixedT | RHO_P => Some FixedP | RHO_E => Some RhoT | P_T => None end.

(** get_sg_eos.cpp:174-175, 191, 204, 220: second extent of solver_scratch *)
Definition allocated (md : smode) (nmat : nat) : nat :=
  match md with
  | RHO_T => required_scratch FixedT nmat + nmat * MAX_NUM_LAMBDAS
  | RHO_P => required_scratch RhoT nmat + nmat * MAX_NUM_LAMBDAS
  | P_T => nmat * MAX_NUM_LAMBDAS
  | RHO_E => required_scratch RhoT nmat + nmat * MAX_NUM_LAMBDAS
  end.

(** start of the CacheAccessor: get_sg_eos_rho_t.cpp:52-54, get_sg_eos_rho_p.cpp:49-54, get_sg_eos_p_t.cpp:49,
    get_sg_eos_rho_e.cpp:50-52 *)
Definition cache_base (md : smode) (npte : nat) : nat :=
  match md with
  | RHO_T => let neq := npte in neq * (neq + 4) + 2 * npte
  | RHO_P | RHO_E => let neq := npte + 1 in neq * (neq + 4) + 2 * npte
  | P_T => 0
  end.

(** materials whose cache is handed to an EOS: the npte participating ones, and cache[0] in the pure-cell branch
    (get_sg_eos_rho_e.cpp:73-81, get_sg_eos_rho_t.cpp:79-90, get_sg_eos_rho_p.cpp:77-97) also when npte = 0; for p_t all nmat (get_sg_eos_p_t.cpp:68-75) *)
Definition cached (md : smode) (nmat npte : nat) : nat :=
  match md with P_T => nmat | _ => Nat.max 1 npte end.

(** mixed_cell_models.hpp:307-313 CacheAccessor::operator[]: material m owns MAX_NUM_LAMBDAS Reals *)
Definition in_cache (md : smode) (nmat npte : nat) (a : nat) : Prop :=
  exists m k, m < cached md nmat npte /\ k < MAX_NUM_LAMBDAS /\ a = cache_base md npte + m * MAX_NUM_LAMBDAS + k.

(** offsets of the arrays the solver of this mode carves out of the scratch, when it runs *)
Definition in_solver_array (md : smode) (npte : nat) (arr : arr) (a : nat) : Prop :=
  exists s o l, solver_of md = Some s /\ 1 < npte /\ In (arr, o, l) (layout s npte) /\ o <= a < o + l.
