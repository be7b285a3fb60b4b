(** Scratch memory of the PTE solvers: closure/mixed_cell_models.hpp.
    Pointers are offsets (in Reals) from the scratch pointer the caller passes in. *)
From Coq Require Import ZArith List Lia.
Import ListNotations.
Local Open Scope nat_scope.

(** the five solver classes *)
Inductive solver := RhoT | PT | FixedT | FixedP | RhoU.

(** number of equations handed to PTESolverBase by the constructors:
    mixed_cell_models.hpp:928-930 (RhoT), 1252-1254 (PT), 1503-1505 (FixedT), 1728-1730 (FixedP), 1979-1981 (RhoU) *)
Definition neq_of (s : solver) (nmat : nat) : nat :=
  match s with RhoT => nmat | PT => 2 | FixedT => nmat | FixedP => nmat + 1 | RhoU => 2 * nmat end.

(** names of the arrays *)
Inductive arr :=
| Jacobian | Dx | SolScratch | Residual | U | RhoBar
| DpDv | DeDv | DpDT | VTemp | DtDv | DpDe | DtDe | UTemp.
Definition arr_eq_dec (a b : arr) : {a = b} + {a <> b}.
Proof. decide equality. Defined.

(** mixed_cell_models.hpp:380-385 (PTESolverBase constructor): calls of AssignIncrement in order *)
Definition base_requests (neq nmat : nat) : list (arr * nat) :=
  [(Jacobian, neq * neq); (Dx, neq); (SolScratch, 2 * neq); (Residual, neq); (U, nmat); (RhoBar, nmat)].

(** mixed_cell_models.hpp:931-934 (RhoT), 1254 (PT: none), 1506-1507 (FixedT), 1731-1733 (FixedP), 1982-1987 (RhoU) *)
Definition extra_requests (s : solver) (nmat : nat) : list (arr * nat) :=
  match s with
  | RhoT => [(DpDv, nmat); (DeDv, nmat); (DpDT, nmat); (VTemp, nmat)]
  | PT => []
  | FixedT => [(DpDv, nmat); (VTemp, nmat)]
  | FixedP => [(DpDv, nmat); (DpDT, nmat); (VTemp, nmat)]
  | RhoU => [(DpDv, nmat); (DtDv, nmat); (DpDe, nmat); (DtDe, nmat); (VTemp, nmat); (UTemp, nmat)]
  end.

(** mixed_cell_models.hpp:765-770 AssignIncrement: return the current pointer, advance it by size *)
Fixpoint assign_increment (scratch : nat) (reqs : list (arr * nat)) : list (arr * nat * nat) :=
  match reqs with
  | [] => []
  | (a, size) :: r => (a, scratch, size) :: assign_increment (scratch + size) r
  end.

(** array name, start offset, length *)
Definition layout (s : solver) (nmat : nat) : list (arr * nat * nat) :=
  assign_increment 0 (base_requests (neq_of s nmat) nmat ++ extra_requests s nmat).

(** size_t value computed by PTESolver*RequiredScratch before the conversion to the return type:
    mixed_cell_models.hpp:873-878 (RhoT), 1198-1203 (PT), 1451-1457 (FixedT), 1674-1680 (FixedP), 1924-1929 (RhoU) *)
Definition required_scratch (s : solver) (nmat : nat) : nat :=
  match s with
  | RhoT => let neq := nmat in neq * neq + 4 * neq + 6 * nmat
  | PT => let neq := 2 in neq * neq + 4 * neq + 2 * nmat
  | FixedT => let neq := nmat in neq * neq + 4 * neq + 2 * nmat + 2 * nmat
  | FixedP => let neq := nmat + 1 in neq * neq + 4 * neq + 2 * nmat + 3 * nmat
  | RhoU => let neq := 2 * nmat in neq * neq + 4 * neq + 8 * nmat
  end.

(** Conversion of a size_t value to the return type [int] of the RequiredScratch members
    (mixed_cell_models.hpp:873, 940, 1198, 1258, 1516, 1740, 1993): reduction modulo 2^32 (32-bit int, the usual
    implementation-defined behaviour). [x] is taken mathematically: it is below 2^64 for nmat < 2^31. *)
Definition to_int (x : Z) : Z := ((x + 2 ^ 31) mod 2 ^ 32 - 2 ^ 31)%Z.
Definition RequiredScratch (s : solver) (nmat : nat) : Z := to_int (Z.of_nat (required_scratch s nmat)).
(** mixed_cell_models.hpp:879-881 (RhoT), 1204-1206 (PT): int * sizeof(Real), so the (possibly negative) int is
    converted to size_t (modulo 2^64) and multiplied modulo 2^64.
    mixed_cell_models.hpp:1458-1460, 1681-1683, 1930-1932 (FixedT, FixedP, RhoU): the free function returns size_t *)
Definition RequiredScratchInBytes (s : solver) (nmat : nat) : Z :=
  match s with
  | RhoT | PT => ((RequiredScratch s nmat * 8) mod 2 ^ 64)%Z
  | _ => ((Z.of_nat (required_scratch s nmat) * 8) mod 2 ^ 64)%Z
  end.

(** Index expressions used on each array (as functions of loop counters), per solver.
    [touches s nmat a i]: some method of the solver reads or writes element [i] of array [a]. *)
Definition MatIndex (neq i j : nat) : nat := i * neq + j. (* mixed_cell_models.hpp:669-672 *)

(** the explicit entries written by PTESolverRhoU::Jacobian, mixed_cell_models.hpp:2090-2114 *)
Inductive rhou_jac_write (nmat : nat) : nat -> Prop :=
| rj_zero i : i < (2 * nmat) * (2 * nmat) -> rhou_jac_write nmat i
| rj_v m : m < nmat -> rhou_jac_write nmat m
| rj_e m : m < nmat -> rhou_jac_write nmat (2 * nmat + nmat + m)
| rj_1 : rhou_jac_write nmat (2 * 2 * nmat)
| rj_2 : rhou_jac_write nmat (nmat * 2 * nmat + nmat - 1)
| rj_3 : rhou_jac_write nmat ((nmat + 1) * 2 * nmat)
| rj_4 : rhou_jac_write nmat ((2 * nmat - 1) * 2 * nmat + nmat - 1)
| rj_5 : rhou_jac_write nmat (2 * 2 * nmat + nmat)
| rj_6 : rhou_jac_write nmat (nmat * 2 * nmat + 2 * nmat - 1)
| rj_7 : rhou_jac_write nmat ((nmat + 1) * 2 * nmat + nmat)
| rj_8 : rhou_jac_write nmat ((2 * nmat - 1) * 2 * nmat + 2 * nmat - 1)
| rj_in1 m : 1 <= m < nmat - 1 -> rhou_jac_write nmat ((1 + m) * 2 * nmat + m)
| rj_in2 m : 1 <= m < nmat - 1 -> rhou_jac_write nmat ((2 + m) * 2 * nmat + m)
| rj_in3 m : 1 <= m < nmat - 1 -> rhou_jac_write nmat ((nmat + m) * 2 * nmat + m)
| rj_in4 m : 1 <= m < nmat - 1 -> rhou_jac_write nmat ((nmat + m + 1) * 2 * nmat + m)
| rj_in5 m : 1 <= m < nmat - 1 -> rhou_jac_write nmat ((1 + m) * 2 * nmat + nmat + m)
| rj_in6 m : 1 <= m < nmat - 1 -> rhou_jac_write nmat ((2 + m) * 2 * nmat + nmat + m)
| rj_in7 m : 1 <= m < nmat - 1 -> rhou_jac_write nmat ((nmat + m) * 2 * nmat + nmat + m)
| rj_in8 m : 1 <= m < nmat - 1 -> rhou_jac_write nmat ((nmat + m + 1) * 2 * nmat + nmat + m).

(** Jacobian() of the other solvers: mixed_cell_models.hpp:1078-1104 (RhoT), 1381-1384 (PT), 1600-1608 (FixedT),
    1840-1848 (FixedP). RhoT: row and col count the materials other than ms, so they run over 1..nmat-1. *)
Inductive jac_write : solver -> nat -> nat -> Prop :=
| jw_rt_zero nmat i : i < nmat * nmat -> jac_write RhoT nmat i
| jw_rt_00 nmat : 1 <= nmat -> jac_write RhoT nmat 0
| jw_rt_row0 nmat col : 1 <= col < nmat -> jac_write RhoT nmat col
| jw_rt_col0 nmat row : 1 <= row < nmat -> jac_write RhoT nmat (MatIndex nmat row 0)
| jw_rt nmat row col : 1 <= row < nmat -> 1 <= col < nmat -> jac_write RhoT nmat (MatIndex nmat row col)
| jw_pt nmat i : i < 4 -> jac_write PT nmat i
| jw_ft_zero nmat i : i < nmat * nmat -> jac_write FixedT nmat i
| jw_ft_row0 nmat m : m < nmat -> jac_write FixedT nmat m
| jw_ft_a nmat m : m < nmat - 1 -> jac_write FixedT nmat (MatIndex nmat (m + 1) m)
| jw_ft_b nmat m : m < nmat - 1 -> jac_write FixedT nmat (MatIndex nmat (m + 1) (m + 1))
| jw_fp_zero nmat i : i < (nmat + 1) * (nmat + 1) -> jac_write FixedP nmat i
| jw_fp_a nmat m : m < nmat -> jac_write FixedP nmat (MatIndex (nmat + 1) m m)
| jw_fp_b nmat m : m < nmat -> jac_write FixedP nmat (MatIndex (nmat + 1) m nmat)
| jw_fp_c nmat m : m < nmat + 1 - 1 -> jac_write FixedP nmat (MatIndex (nmat + 1) (nmat + 1 - 1) m)
| jw_ru nmat i : rhou_jac_write nmat i -> jac_write RhoU nmat i.

(** Elements of residual[] written by Residual(): mixed_cell_models.hpp:1011-1019 (RhoT: 0 and one per material other
    than ms), 1315-1320 (PT), 1554-1560 (FixedT), 1782-1788 (FixedP), 2009-2020 (RhoU) *)
Inductive res_write : solver -> nat -> nat -> Prop :=
| rw_rt0 nmat : 1 <= nmat -> res_write RhoT nmat 0
| rw_rt nmat ires : 1 <= ires < nmat -> res_write RhoT nmat ires
| rw_pt0 nmat : res_write PT nmat 0
| rw_pt1 nmat : res_write PT nmat 1
| rw_ft0 nmat : 1 <= nmat -> res_write FixedT nmat 0
| rw_ft nmat m : m < nmat - 1 -> res_write FixedT nmat (1 + m)
| rw_fp nmat m : m < nmat -> res_write FixedP nmat m
| rw_fpn nmat : res_write FixedP nmat nmat
| rw_ru0 nmat : 1 <= nmat -> res_write RhoU nmat 0
| rw_ru1 nmat : 1 <= nmat -> res_write RhoU nmat 1
| rw_rup nmat m : m < nmat - 1 -> res_write RhoU nmat (2 + m)
| rw_rut nmat m : nmat + 1 <= m < 2 * nmat -> res_write RhoU nmat m.

(** Elements of dx[] read by ScaleDx()/TestUpdate() besides 0..neq-1: mixed_cell_models.hpp:1108-1187 (RhoT, idx runs
    over 1..nmat-1), 1388-1435 (PT: 0,1), 1612-1664 (FixedT: m), 1852-1914 (FixedP: m, nmat), 2118-2179 (RhoU: m, nmat+m) *)
Inductive dx_read : solver -> nat -> nat -> Prop :=
| dr_all s nmat i : i < neq_of s nmat -> dx_read s nmat i
| dr_rt nmat idx : 1 <= idx < nmat -> dx_read RhoT nmat idx
| dr_pt nmat i : i < 2 -> dx_read PT nmat i
| dr_ft nmat m : m < nmat -> dx_read FixedT nmat m
| dr_fp nmat m : m < nmat -> dx_read FixedP nmat m
| dr_fpn nmat : dx_read FixedP nmat nmat
| dr_ru nmat m : m < nmat -> dx_read RhoU nmat m
| dr_run nmat m : m < nmat -> dx_read RhoU nmat (nmat + m).

(** sol_scratch used by solve_Ax_b_wscr: mixed_cell_models.hpp:177-278: x = scr[0..1] for n = 2 (and n >= 2 here),
    reflectors scr[0..n-1], workspace scr[n..2n-1] (Kokkos) or scr[0..n-1] (Eigen). PT always has n = 2. *)
Inductive scr_use : solver -> nat -> nat -> Prop :=
| su_2 s nmat i : neq_of s nmat = 2 -> i < 2 -> scr_use s nmat i
| su_n s nmat i : 3 <= neq_of s nmat -> i < 2 * neq_of s nmat -> scr_use s nmat i.

(** nmat-sized arrays are always indexed by a material counter 0 <= m < nmat *)
Inductive mat_use : arr -> nat -> nat -> Prop :=
| mu a nmat m : In a [U; RhoBar; DpDv; DeDv; DpDT; VTemp; DtDv; DpDe; DtDe; UTemp] -> m < nmat -> mat_use a nmat m.

Inductive touches (s : solver) (nmat : nat) : arr -> nat -> Prop :=
| t_jac i : jac_write s nmat i -> touches s nmat Jacobian i
| t_res i : res_write s nmat i -> touches s nmat Residual i
| t_dx i : dx_read s nmat i -> touches s nmat Dx i
| t_scr i : scr_use s nmat i -> touches s nmat SolScratch i
| t_mat a i : mat_use a nmat i -> (exists o l, In (a, o, l) (layout s nmat)) -> touches s nmat a i.

(** TryIdealPTE reuses the space from jacobian on: mixed_cell_models.hpp:698-703: etemp, ptemp, vtemp, rtemp of nmat
    each, then res of neq *)
Definition hijack_end (s : solver) (nmat : nat) : nat := 4 * nmat + neq_of s nmat.
