(** The Newton / line-search driver [PTESolver]: closure/mixed_cell_models.hpp:2188-2291, over any arithmetic and any
    system (the template parameter). *)
From Coq Require Import ZArith Bool List Lia.
From Verif Require Import Arith.
Local Open Scope arith_scope.

(** mixed_cell_models.hpp:43-77 MixParams: all fields. [pte_reduced_system_exclude_idx] (int64, negative = default) is
    an option. *)
Record MixParams {A : Arith} := mkMixParams {
  verbose : bool;
  iterate_t_guess : bool;
  derivative_eps : num A;
  pte_rel_tolerance_p : num A;
  pte_rel_tolerance_t : num A;
  pte_rel_tolerance_e : num A;
  pte_rel_tolerance_v : num A;
  pte_abs_tolerance_p : num A;
  pte_abs_tolerance_t : num A;
  pte_slow_convergence_thresh : num A;
  pte_rel_tolerance_p_sufficient : num A;
  pte_rel_tolerance_t_sufficient : num A;
  pte_rel_tolerance_e_sufficient : num A;
  pte_rel_tolerance_v_sufficient : num A;
  pte_abs_tolerance_p_sufficient : num A;
  pte_abs_tolerance_t_sufficient : num A;
  pte_max_iter_per_mat : nat;
  line_search_alpha : num A;
  line_search_max_iter : nat;
  line_search_fac : num A;
  vfrac_safety_fac : num A;
  temperature_limit : num A;
  default_tguess : num A;
  min_dtde : num A;
  pte_small_step_tries : nat;
  pte_small_step_thresh : num A;
  pte_max_dpdv : num A;
  pte_reduced_system_exclude_idx : option nat
}.
Arguments MixParams : clear implicits.

(** mixed_cell_models.hpp:43-77, the default values *)
Definition default_params (A : Arith) : MixParams A := {|
  verbose := false; iterate_t_guess := true;
  derivative_eps := ofQ 3 1000000;
  pte_rel_tolerance_p := ofQ 1 1000000; pte_rel_tolerance_t := ofQ 1 10000;
  pte_rel_tolerance_e := ofQ 1 1000000; pte_rel_tolerance_v := ofQ 1 1000000;
  pte_abs_tolerance_p := ofQ 1 1000000; pte_abs_tolerance_t := ofQ 1 10000;
  pte_slow_convergence_thresh := ofQ 99 100;
  pte_rel_tolerance_p_sufficient := ofQ 100 1 * ofQ 1 1000000;
  pte_rel_tolerance_t_sufficient := ofQ 10 1 * ofQ 1 10000;
  pte_rel_tolerance_e_sufficient := ofQ 100 1 * ofQ 1 1000000;
  pte_rel_tolerance_v_sufficient := ofQ 100 1 * ofQ 1 1000000;
  pte_abs_tolerance_p_sufficient := ofQ 100 1 * ofQ 1 1000000;
  pte_abs_tolerance_t_sufficient := ofQ 10 1 * ofQ 1 10000;
  pte_max_iter_per_mat := 128;
  line_search_alpha := ofQ 1 100; line_search_max_iter := 6; line_search_fac := ofQ 1 2;
  vfrac_safety_fac := ofQ 95 100;
  temperature_limit := ofQ 1000000000000000 1; default_tguess := ofQ 300 1;
  min_dtde := ofQ 1 10000000000000000;
  pte_small_step_tries := 2; pte_small_step_thresh := ofQ 1 10000000000000000;
  pte_max_dpdv := ofQ (-1) 100000000;
  pte_reduced_system_exclude_idx := None |}.

(** mixed_cell_models.hpp:79-87 SolverStatus *)
Record SolverStatus {A : Arith} := mkStatus {
  converged : bool;
  slow_convergence_detected : bool;
  max_niter : nat;
  max_line_niter : nat;
  small_step_iters : nat;
  residual : num A
}.
Arguments SolverStatus : clear implicits.

(** The interface the driver uses (mixed_cell_models.hpp:2196-2289: s.Init, s.GetParams, s.Nmat, s.CheckPTE, s.Jacobian,
    s.Solve, s.ScaleDx, s.TestUpdate, s.Fixup, s.Finalize). S is the mutable state: the user's arrays plus the
    solver's own. *)
Record System (A : Arith) (S : Type) := mkSystem {
  sNmat : nat;
  sParams : MixParams A;
  sInit : S -> S * num A;
  sCheckPTE : S -> bool * bool;
  sJacobian : S -> S;
  sSolve : S -> S * bool;
  sScaleDx : S -> S * num A;
  sTestUpdate : num A -> bool -> S -> S * num A;
  sFixup : S -> S;
  sFinalize : S -> S
}.
Arguments sNmat {A S}. Arguments sParams {A S}. Arguments sInit {A S}. Arguments sCheckPTE {A S}.
Arguments sJacobian {A S}. Arguments sSolve {A S}. Arguments sScaleDx {A S}. Arguments sTestUpdate {A S}.
Arguments sFixup {A S}. Arguments sFinalize {A S}.

Section Driver.
Context {A : Arith} {S : Type}.
Variable ratio : num A -> num A -> num A.  (* robust::ratio *)
Variable sys : System A S.
Let p := sParams sys.

(** mixed_cell_models.hpp:2260-2267: the bounded backtracking loop. [fuel] counts the remaining passes of the for loop
    (line_search_max_iter - line_iter). *)
Fixpoint line_loop (fuel line_iter : nat) (s : S) (scale err_old gradfdx err : num A) (mline : nat) : S * num A * nat :=
  match fuel with
  | O => (s, err, mline)
  | Datatypes.S f =>
    let '(s1, e1) := sTestUpdate sys scale false s in
    if e1 <? err_old + line_search_alpha p * scale * gradfdx then (s1, e1, mline)
    else line_loop f (Datatypes.S line_iter) s1 (scale * line_search_fac p) err_old gradfdx e1 (Nat.max line_iter mline)
  end.

(** mixed_cell_models.hpp:2244-2268: the whole line search; [scale0] is the scale returned by ScaleDx *)
Definition line_search (s : S) (scale0 err_old : num A) (mline : nat) : S * num A * nat :=
  let gradfdx := ofQ (-2) 1 * scale0 * err_old in
  let '(s1, err) := sTestUpdate sys (lit 1) true s in
  if err_old + line_search_alpha p * gradfdx <? err then
    let scale := ofQ 1 2 in
    let '(s2, err_mid) := sTestUpdate sys scale false s1 in
    let scale :=
      if (err_mid <? err) && (err_mid <? err_old) then
        ofQ 3 4 + ofQ 1 2 * ratio (err_mid - err) (err - lit 2 * err_mid + err_old)
      else scale in
    line_loop (line_search_max_iter p) 0 s2 scale err_old gradfdx err mline
  else (s1, err, mline).

(** local variables of the driver that live across iterations *)
Record dstate := mkD { dS : S; dErr : num A; dConv : bool; dSlow : bool; dMaxN : nat; dMaxL : nat; dSmall : nat }.

(** mixed_cell_models.hpp:2205-2285: one pass of the Newton loop; the boolean says "break" *)
Definition newton_step (pte_max_iter niter : nat) (d : dstate) : dstate * bool :=
  let maxn := Nat.max (dMaxN d) niter in
  let '(conv, close_enough) := sCheckPTE sys (dS d) in
  if conv then (mkD (dS d) (dErr d) true (dSlow d) maxn (dMaxL d) (dSmall d), true)
  else
    let s1 := sJacobian sys (dS d) in
    let '(s2, success) := sSolve sys s1 in
    if negb success then (mkD s2 (dErr d) false (dSlow d) maxn (dMaxL d) (dSmall d), true)
    else
      let '(s3, sc) := sScaleDx sys s2 in
      let scale := amin (lit 1) sc in
      let small := if absn scale <? pte_small_step_thresh p then Datatypes.S (dSmall d) else dSmall d in
      if (pte_small_step_tries p <=? small)%nat then (mkD s3 (dErr d) false (dSlow d) maxn (dMaxL d) small, true)
      else
        let err_old := dErr d in
        let '(s4, err, maxl) := line_search s3 scale err_old (dMaxL d) in
        let s5 := sFixup sys s4 in
        if ((pte_slow_convergence_thresh p * err_old <? err) || (niter =? pte_max_iter - 1)%nat) && close_enough
        then (mkD s5 err true true maxn maxl small, true)
        else (mkD s5 err false (dSlow d) maxn maxl small, false).

(** mixed_cell_models.hpp:2205: the for loop; [fuel] = pte_max_iter - niter *)
Fixpoint newton_loop (fuel pte_max_iter niter : nat) (d : dstate) : dstate :=
  match fuel with
  | O => d
  | Datatypes.S f =>
    let '(d1, brk) := newton_step pte_max_iter niter d in
    if brk then d1 else newton_loop f pte_max_iter (Datatypes.S niter) d1
  end.

(** mixed_cell_models.hpp:2188-2291 PTESolver *)
Definition PTESolver (s : S) : SolverStatus A * S :=
  let '(s0, err) := sInit sys s in
  let pte_max_iter := (sNmat sys * pte_max_iter_per_mat p)%nat in
  let d := newton_loop pte_max_iter pte_max_iter 0 (mkD s0 err false false 0 0 0) in
  let s1 := sFixup sys (dS d) in
  let s2 := sFinalize sys s1 in
  (mkStatus A (dConv d) (dSlow d) (dMaxN d) (dMaxL d) (dSmall d) (dErr d), s2).
End Driver.
