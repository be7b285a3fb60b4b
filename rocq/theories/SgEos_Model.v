(** Model of get_sg_eos (Kokkos builds): eos/get_sg_eos.cpp, get_sg_eos_functors.hpp, get_sg_eos_rho_e.cpp,
    get_sg_eos_rho_t.cpp, get_sg_eos_rho_p.cpp, get_sg_eos_p_t.cpp, over the exact reals, with the closure solvers of
    PTE_Model. One [cell] is row i of every per-cell and per-material array, one [row] is row tid of the scratch views.
    The debug-only check_all_vals (get_sg_eos_functors.hpp:122-155, 287-389), the lambda cache (see SgEos_Scratch_Model)
    and n_solves/res (never written) are not modelled. Material arrays are functions nat -> R; loops only touch indices
    below nmat. Pointers that may be null are the flags of [opts]. *)
From Coq Require Import ZArith Reals Bool List Lia.
From Flocq Require Import Core.
From Verif Require Import Arith Robust_Model RootFinding_Model PTE_Driver_Model PTE_Model.
Import ListNotations.
Local Open Scope R_scope.

(** what get_sg_eos asks of a material's EOS besides the closure's interface *)
Record seos := mkSeos {
  se :> meos;
  bmod_rt : R -> R -> R;   (* BulkModulusFromDensityTemperature *)
  gru_rt : R -> R -> R;    (* GruneisenParamFromDensityTemperature *)
  tref : R                 (* temperature returned by ValuesAtReferenceState *)
}.

(** get_sg_eos.hpp:68 *)
Definition ev2k : R := 1160451930280894026 / 100000000000000.

(** get_sg_eos.cpp:37-53: the arrays of the call, at one cell *)
Record cell := mkCell {
  c_press : R; c_pmax : R; c_vol : R; c_spvol : R; c_sie : R; c_temp : R; c_bmod : R; c_dpde : R; c_cv : R;
  f_mass : nat -> R; f_vol : nat -> R; f_ie : nat -> R; f_bmod : nat -> R; f_dpde : nat -> R; f_cv : nat -> R
}.
(** get_sg_eos.cpp:136-143: one row of the scratch views (mass_pte is allocated and never used) *)
Record row := mkRow {
  r_mats : nat -> nat; r_idxs : nat -> nat;
  r_sie : nat -> R; r_vfrac : nat -> R; r_temp : nat -> R; r_press : nat -> R; r_rho : nat -> R
}.
(** get_sg_eos.cpp:58-63: which of the optional per-material pointers are non-null *)
Record opts := mkOpts { has_bmod : bool; has_dpde : bool; has_cv : bool }.
Definition do_frac_bmod (o : opts) : bool := has_bmod o.
Definition do_frac_dpde (o : opts) : bool := has_dpde o.
(** get_sg_eos.cpp:62-63: tests frac_dpde, not frac_cv *)
Definition do_frac_cv (o : opts) : bool := has_dpde o.

Section SgEos.
Variable nmat : nat.
Variable eos : nat -> seos.               (* the eos array *)
Variable eos_offsets : nat -> nat.        (* 1-based *)
Variable mass_frac_cutoff : R.
Variable o : opts.
Variable lin : nat -> (nat -> R) -> (nat -> R) -> (nat -> R).

Definition set_nat (a : nat -> nat) (i x : nat) : nat -> nat := fun k => if (k =? i)%nat then x else a k.
Definition map_nat (n : nat) (f old : nat -> nat) : nat -> nat := fun m => if (m <? n)%nat then f m else old m.

(** locals of one iteration that live across the phases *)
Record loc := mkLoc { l_mass_sum : R; l_npte : nat; l_vfrac_sum : R; l_conv : bool }.
Definition loc0 : loc := mkLoc 0 0 0 true.

(** get_sg_eos_functors.hpp:88-100: counting the participating materials *)
Definition select (fm : nat -> R) (r : row) : nat * (nat -> nat) * (nat -> nat) :=
  fold_left (fun '(np, mats, idxs) m =>
    if Rlt_bool mass_frac_cutoff (fm m) then (S np, set_nat mats np m, set_nat idxs np (eos_offsets m - 1)%nat)
    else (np, mats, idxs)) (seq 0 nmat)
    (0%nat, r_mats r, map_nat nmat (fun m => (eos_offsets m - 1)%nat) (r_idxs r)).

(** get_sg_eos_functors.hpp:65-119 init_functor::operator() *)
Definition init_fun (t_mult s_mult p_mult : R) (c : cell) (r : row) : cell * row * loc :=
  let mass_sum := rsum nmat (f_mass c) in
  let fvol := map_n nmat (f_mass c) (f_vol c) in
  let fie := map_n nmat (fun m => c_sie c * f_mass c m * s_mult) (f_ie c) in
  let fm := map_n nmat (fun m => f_mass c m / mass_sum) (f_mass c) in
  let '(npte, mats, idxs) := select fm r in
  let zero := fun a => map_n nmat (fun _ => 0) a in
  let vfrac := map_n npte (fun mp => fm (mats mp)) (zero (r_vfrac r)) in
  let vfrac_sum := rsum npte vfrac in
  let rho := map_n npte (fun mp => fm (mats mp) / c_spvol c / vfrac mp) (r_rho r) in
  let temp := map_n npte (fun _ => c_temp c * ev2k * t_mult) (zero (r_temp r)) in
  let press := map_n npte (fun _ => c_press c * p_mult) (zero (r_press r)) in
  let sie := map_n npte (fun mp => c_sie c * fm (mats mp) * s_mult) (zero (r_sie r)) in
  (mkCell (c_press c) (c_pmax c) (c_vol c) (c_spvol c) (c_sie c) (c_temp c) (c_bmod c) (c_dpde c) (c_cv c)
          fm fvol fie (f_bmod c) (f_dpde c) (f_cv c),
   mkRow mats idxs sie vfrac temp press rho,
   mkLoc mass_sum npte vfrac_sum true).

(** get_sg_eos_functors.hpp:208-284 final_functor::operator(). Each per-material output is written once, at
    m = pte_mats(tid, mp); the sums are the [rsum]s. *)
Definition scatter_to (npte : nat) (mats : nat -> nat) (f : nat -> R) (old : nat -> R) : nat -> R :=
  fold_left (fun a mp => upd a (mats mp) (f mp)) (seq 0 npte) old.
Definition final_fun (t_mult s_mult p_mult : R) (c : cell) (r : row) (l : loc) : cell :=
  let do_t := Req_bool t_mult 1 in
  let do_s := Req_bool s_mult 1 in
  let do_p := Req_bool p_mult 1 in
  let n := l_npte l in
  let e mp := eos (r_idxs r mp) in
  let ie mp := r_sie r mp * f_mass c (r_mats r mp) * l_mass_sum l in
  let bm mp := bmod_rt (e mp) (r_rho r mp) (r_temp r mp) in
  let cv mp := ev2k * cv_rt (e mp) (r_rho r mp) (r_temp r mp) in
  let dp mp := gru_rt (e mp) (r_rho r mp) (r_temp r mp) in
  let press := (if do_p then 0 else c_press c) + rsum n (fun mp => r_press r mp * r_vfrac r mp * p_mult) in
  let temp := (if do_t then 0 else c_temp c) + rsum n (fun mp => r_temp r mp * r_vfrac r mp * t_mult) in
  let sie := (if do_s then 0 else c_sie c) + rsum n (fun mp => ie mp * s_mult) in
  mkCell press (c_pmax c) (c_vol c) (c_spvol c)
    (if do_s then sie / l_mass_sum l else sie)
    (if do_t then temp / ev2k else temp)
    (rsum n (fun mp => bm mp * r_vfrac r mp))
    (rsum n (fun mp => dp mp * r_vfrac r mp))
    (rsum n (fun mp => cv mp * f_mass c (r_mats r mp)))
    (map_n nmat (fun m => f_mass c m * l_mass_sum l) (f_mass c))
    (scatter_to n (r_mats r) (fun mp => r_vfrac r mp * c_vol c) (f_vol c))
    (scatter_to n (r_mats r) ie (f_ie c))
    (if do_frac_bmod o then scatter_to n (r_mats r) bm (f_bmod c) else f_bmod c)
    (if do_frac_dpde o then scatter_to n (r_mats r) dp (f_dpde c) else f_dpde c)
    (if do_frac_cv o then scatter_to n (r_mats r) cv (f_cv c) else f_cv c).

(** get_sg_eos_rho_e.cpp:85 and the same line of the other three files *)
Definition pmax_fun (c : cell) : cell :=
  mkCell (c_press c) (if Rlt_bool (c_pmax c) (c_press c) then c_press c else c_pmax c) (c_vol c) (c_spvol c) (c_sie c)
    (c_temp c) (c_bmod c) (c_dpde c) (c_cv c) (f_mass c) (f_vol c) (f_ie c) (f_bmod c) (f_dpde c) (f_cv c).
Definition set_cell_sie (x : R) (c : cell) : cell :=
  mkCell (c_press c) (c_pmax c) (c_vol c) (c_spvol c) x (c_temp c) (c_bmod c) (c_dpde c) (c_cv c)
    (f_mass c) (f_vol c) (f_ie c) (f_bmod c) (f_dpde c) (f_cv c).

(** The solver sees the first npte entries of the row; the scratch it carves its own arrays from was zeroed just
    before (get_sg_eos_rho_e.cpp:44-46). Entries past npte are not accessed (C33), so they are given as 0. *)
Definition cut (n : nat) (a : nat -> R) : nat -> R := fun m => if (m <? n)%nat then a m else 0.
Definition pst_of (n : nat) (r : row) (Teq Peq : R) : pst :=
  mkPst (cut n (r_rho r)) (cut n (r_vfrac r)) (cut n (r_sie r)) (cut n (r_temp r)) (cut n (r_press r))
    (fun _ => 0) (fun _ => 0) (fun _ => 0) (fun _ => 0) (fun _ => 0) (fun _ => 0) (fun _ => 0) (fun _ => 0) (fun _ => 0)
    (fun _ => 0) (fun _ => 0) (fun _ => 0) (fun _ => 0) Teq 0 Peq 0 0 0 0 0 0.
Definition row_of (n : nat) (s : pst) (r : row) : row :=
  mkRow (r_mats r) (r_idxs r) (map_n n (sie s) (r_sie r)) (map_n n (vfrac s) (r_vfrac r)) (map_n n (temp s) (r_temp r))
    (map_n n (press s) (r_press r)) (map_n n (rho s) (r_rho r)).
(** get_sg_eos.hpp:38-47 EOSAccessor_, for the materials the solver asks for (0..n-1) *)
Definition accessor (n : nat) (idxs : nat -> nat) : nat -> meos := fun mp => se (eos (if (mp <? n)%nat then idxs mp else idxs 0%nat)).
Definition params0 : MixParams RArith := default_params RArith.

(** get_sg_eos_rho_e.cpp:54-82 *)
Definition solve_rho_e (c : cell) (r : row) (l : loc) : row * bool :=
  let n := l_npte l in
  if (1 <? n)%nat then
    let '(st, s) := @PTESolver RArith pst ratio (RhoT_system n (accessor n (r_idxs r)) (l_vfrac_sum l) (c_sie c) params0 lin) (pst_of n r 0 0) in
    (row_of n s r, converged st)
  else
    let e := eos (r_idxs r 0%nat) in
    let t := t_re e (r_rho r 0%nat) (r_sie r 0%nat) in
    let p := p_rt e (r_rho r 0%nat) t in
    (mkRow (r_mats r) (r_idxs r) (r_sie r) (r_vfrac r) (upd (r_temp r) 0 t) (upd (r_press r) 0 p) (r_rho r), true).
(** get_sg_eos_rho_t.cpp:46-92; the last component is sie_tot_true *)
Definition solve_rho_t (c : cell) (r : row) (l : loc) : row * bool * R :=
  let n := l_npte l in
  if (1 <? n)%nat then
    let '(st, s) := @PTESolver RArith pst ratio (FixedT_system n (accessor n (r_idxs r)) (l_vfrac_sum l) params0 lin) (pst_of n r (r_temp r 0%nat) 0) in
    let r1 := row_of n s r in
    (r1, converged st, rsum n (fun mp => r_sie r1 mp * f_mass c (r_mats r1 mp)))
  else
    let e := eos (r_idxs r 0%nat) in
    let si := e_rt e (r_rho r 0%nat) (r_temp r 0%nat) in
    let p := p_rt e (r_rho r 0%nat) (r_temp r 0%nat) in
    (mkRow (r_mats r) (r_idxs r) (upd (r_sie r) 0 si) (r_vfrac r) (r_temp r) (upd (r_press r) 0 p) (r_rho r), true, si).
(** get_sg_eos_rho_p.cpp:44-102; findRoot's status is ignored and temp_i is uninitialised ([junk]) if it is not set *)
Variable junk : R.
Definition solve_rho_p (c : cell) (r : row) (l : loc) : row * bool * R :=
  let n := l_npte l in
  if (1 <? n)%nat then
    let '(st, s) := @PTESolver RArith pst ratio (FixedP_system n (accessor n (r_idxs r)) (l_vfrac_sum l) params0 lin) (pst_of n r 0 (r_press r 0%nat)) in
    let r1 := row_of n s r in
    (r1, converged st, rsum n (fun mp => r_sie r1 mp * f_mass c (r_mats r1 mp)))
  else
    let e := eos (r_idxs r 0%nat) in
    let p_from_t t := p_rt e (r_rho r 0%nat) t in
    let temp_i := snd (@findRoot RArith p_from_t (c_press c) (tref e) (1 / 10000000000 * tref e) (10000000000 * tref e)
                         (1 / 1000000000000) (1 / 1000000000000) junk) in
    let si := e_rt e (r_rho r 0%nat) temp_i in
    (mkRow (r_mats r) (r_idxs r) (upd (r_sie r) 0 si) (r_vfrac r) (upd (r_temp r) 0 temp_i) (r_press r) (r_rho r), true, si).

Definition set_conv (l : loc) (b : bool) : loc := mkLoc (l_mass_sum l) (l_npte l) (l_vfrac_sum l) b.
(** ** The bodies of the four parallel loops, as phases on (cell, row, locals) *)
Definition phase := cell * row * loc -> cell * row * loc.
Definition ph_init (t s p : R) : phase := fun '(c, r, _) => init_fun t s p c r.
Definition ph_final (t s p : R) : phase := fun '(c, r, l) => (final_fun t s p c r l, r, l).
Definition ph_pmax : phase := fun '(c, r, l) => (pmax_fun c, r, l).
(** get_sg_eos_rho_e.cpp:30-88 *)
Definition body_rho_e : list phase :=
  [ph_init 0 1 0; (fun '(c, r, l) => let '(r1, b) := solve_rho_e c r l in (c, r1, set_conv l b)); ph_final 1 0 1; ph_pmax].
(** get_sg_eos_rho_t.cpp:31-100 *)
Definition body_rho_t : list phase :=
  [ph_init 1 0 0; (fun '(c, r, l) => let '(r1, b, si) := solve_rho_t c r l in (set_cell_sie si c, r1, set_conv l b)); ph_final 0 0 1; ph_pmax].
(** get_sg_eos_rho_p.cpp:31-108 *)
Definition body_rho_p : list phase :=
  [ph_init 0 0 1; (fun '(c, r, l) => let '(r1, b, si) := solve_rho_p c r l in (set_cell_sie si c, r1, set_conv l b)); ph_final 1 0 0; ph_pmax].
(** get_sg_eos_p_t.cpp:34-96 (no init functor). DensityEnergyFromPressureTemperature gets the current row entries as
    guesses (they are passed by reference). *)
Definition pt_idxs (r : row) : nat -> nat := map_nat nmat (fun m => (eos_offsets m - 1)%nat) (r_idxs r).
Definition pt_de (c : cell) (r : row) (m : nat) : R * R :=
  de_pt (accessor nmat (pt_idxs r) m) (c_press c) (c_temp c * ev2k) (r_rho r m) (r_sie r m).
Definition pt_vol (c : cell) (r : row) (m : nat) : R := f_mass c m / rsum nmat (f_mass c) / fst (pt_de c r m) * rsum nmat (f_mass c).
Definition pt_fun (c : cell) (r : row) : cell * row * loc :=
  let mass_sum := rsum nmat (f_mass c) in
  let mats := map_nat nmat (fun m => m) (r_mats r) in
  let temp := map_n nmat (fun _ => c_temp c * ev2k) (r_temp r) in
  let press := map_n nmat (fun _ => c_press c) (r_press r) in
  let fm := map_n nmat (fun m => f_mass c m / mass_sum) (f_mass c) in
  let rho := map_n nmat (fun m => fst (pt_de c r m)) (r_rho r) in
  let sie := map_n nmat (fun m => snd (pt_de c r m)) (r_sie r) in
  let vfrac_tot := rsum nmat (pt_vol c r) in
  let sie_tot := rsum nmat (fun m => sie m * fm m) in
  (mkCell (c_press c) (c_pmax c) vfrac_tot (vfrac_tot / mass_sum) sie_tot (c_temp c) (c_bmod c) (c_dpde c) (c_cv c)
          fm (f_vol c) (f_ie c) (f_bmod c) (f_dpde c) (f_cv c),
   mkRow mats (pt_idxs r) sie (map_n nmat (fun m => pt_vol c r m / vfrac_tot) (r_vfrac r)) temp press rho,
   mkLoc mass_sum nmat 0 true).
Definition body_p_t : list phase := [(fun '(c, r, _) => pt_fun c r); ph_final 0 0 0; ph_pmax].

(** get_sg_eos.cpp:65-71, 160-230 *)
Inductive smode := RHO_T | RHO_P | P_T | RHO_E.
Definition body (md : smode) : list phase :=
  match md with RHO_T => body_rho_t | RHO_P => body_rho_p | P_T => body_p_t | RHO_E => body_rho_e end.
(** get_sg_eos.cpp:25-32, 72: EAPInputToBD.at (throws outside -3..1) *)
Definition mode_of_int (i : Z) : option smode :=
  if (i =? -3)%Z then Some RHO_T else if (i =? -2)%Z then Some RHO_P else if (i =? -1)%Z then Some P_T
  else if (i =? 0)%Z then Some RHO_E else if (i =? 1)%Z then Some RHO_E else None.
(** one whole iteration: phases in order *)
Definition run_body (b : list phase) (x : cell * row * loc) : cell * row * loc := fold_left (fun x f => f x) b x.
Definition cell_after (md : smode) (c : cell) (r : row) : cell := fst (fst (run_body (body md) (c, r, loc0))).

(** get_sg_eos.cpp:235-278: copying back to the caller's arrays. [same_space]: the device views are the host arrays
    (create_mirror_view_and_copy returns its argument when the memory spaces agree), otherwise only the quantities that
    are not inputs are copied, and frac_mass is never copied. *)
Definition copy_back (md : smode) (same_space : bool) (host dev : cell) : cell :=
  if same_space then dev
  else mkCell
    (match md with RHO_P | P_T => c_press host | _ => c_press dev end) (c_pmax dev) (c_vol dev)
    (match md with P_T => c_spvol dev | _ => c_spvol host end)
    (match md with RHO_E => c_sie host | _ => c_sie dev end)
    (match md with RHO_T | P_T => c_temp host | _ => c_temp dev end)
    (c_bmod dev) (c_dpde dev) (c_cv dev) (f_mass host) (f_vol dev) (f_ie dev)
    (if do_frac_bmod o then f_bmod dev else f_bmod host)
    (if do_frac_dpde o then f_dpde dev else f_dpde host)
    (if do_frac_cv o then f_cv dev else f_cv host).
(** get_sg_eos.cpp:56, 279: the value returned *)
Definition get_sg_eos_result (all_converged : bool) : Z := 0%Z.

(** ** The parallel loop (portableFor over UniqueToken rows): get_sg_eos_rho_e.cpp:30-88
    A state holds the cell and scratch arrays and the running iterations. Starting iteration k takes any scratch row not
    in use (tokens.acquire; with small_loop the row is k itself, which is one such choice); a running iteration may
    execute its next phase at any time; an iteration with no phase left releases its row. *)
Record running := mkRun { ru_k : nat; ru_tid : nat; ru_todo : list phase; ru_loc : loc }.
Record machine := mkM { m_cells : nat -> cell; m_rows : nat -> row; m_todo : list nat; m_run : list running; m_done : list nat }.
Definition put {X} (a : nat -> X) (i : nat) (x : X) : nat -> X := fun k => if (k =? i)%nat then x else a k.
Variable offsets : nat -> nat.  (* 1-based *)
Definition cell_of (k : nat) : nat := (offsets k - 1)%nat.

Inductive mstep (b : list phase) : machine -> machine -> Prop :=
| m_start c rw td1 k td2 rn dn t : (forall x, In x rn -> ru_tid x <> t) ->
    mstep b (mkM c rw (td1 ++ k :: td2) rn dn) (mkM c rw (td1 ++ td2) (mkRun k t b loc0 :: rn) dn)
| m_phase c rw td rn1 k t f fs l rn2 dn c' r' l' : f (c (cell_of k), rw t, l) = (c', r', l') ->
    mstep b (mkM c rw td (rn1 ++ mkRun k t (f :: fs) l :: rn2) dn)
            (mkM (put c (cell_of k) c') (put rw t r') td (rn1 ++ mkRun k t fs l' :: rn2) dn)
| m_end c rw td rn1 k t l rn2 dn :
    mstep b (mkM c rw td (rn1 ++ mkRun k t [] l :: rn2) dn) (mkM c rw td (rn1 ++ rn2) (k :: dn)).
Inductive msteps (b : list phase) : machine -> machine -> Prop :=
| ms_refl m : msteps b m m
| ms_next m1 m2 m3 : mstep b m1 m2 -> msteps b m2 m3 -> msteps b m1 m3.
Definition initial (ncell : nat) (c : nat -> cell) (rw : nat -> row) : machine := mkM c rw (seq 0 ncell) [] [].
Definition finished (m : machine) : Prop := m_todo m = [] /\ m_run m = [].
End SgEos.
