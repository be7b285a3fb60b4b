(** Model of the language bindings: the Python vector calls (python/module.hpp), the C query functions
    (eos/singularity_eos.cpp:39-63,387-444) and the Fortran wrappers around them (eos/singularity_eos.f90).
    Memory is indexed by byte address; a double occupies the cell named by the address of its first byte.
    The loops themselves are Vector_Model's [vec_2in_1out] / [vec_fill] / [vec_1in_1out]. *)
From Coq Require Import List ZArith Bool.
From Verif Require Import Vector_Model.
Import ListNotations.
Open Scope Z_scope.

(** ** Python *)
(** std::size_t and address arithmetic *)
Definition wrap64 (z : Z) : Z := z mod 2 ^ 64.

(** a one-dimensional numpy array of doubles as pybind11 hands it over: address of element 0, signed byte distance
    between elements, number of elements, whether it may be written *)
Record nparray := mkNP { np_base : Z; np_step : Z; np_size : nat; np_rw : bool }.
(** a two-dimensional one *)
Record nparray2 := mkNP2 { n2_base : Z; n2_row : Z; n2_col : Z; n2_rows : nat; n2_cols : nat; n2_rw : bool }.

(** what a call does: raise a Python exception, or run a loop of n iterations *)
Inductive outcome (V : Type) := Throws | Runs (k : kernel V) (n : nat).
Arguments Throws {V}.
Arguments Runs {V} k n.

(** module.hpp:77-103 PyArrayHelper: data_ is the address of element 0, stride_ the difference of the addresses of
    elements 1 and 0 in units of double, stored in a size_t.  (When the byte distance is not a multiple of 8 the
    pointer difference is undefined behaviour; the model takes what a shift by three bits gives.) *)
Definition helper_stride (a : nparray) : Z := wrap64 ((np_base a + np_step a - np_base a) / 8).
(** module.hpp:86-89 operator[]: data_[i*stride_] *)
Definition helper_at (a : nparray) (i : nat) : Z := wrap64 (np_base a + 8 * wrap64 (Z.of_nat i * helper_stride a)).
(** module.hpp:96-98 data(): the raw pointer, used by the calls with scratch (131-151,162-177,330-383) *)
Definition raw_at (a : nparray) (i : nat) : Z := wrap64 (np_base a + 8 * Z.of_nat i).

(** module.hpp:48-61 LambdaHelper: lambdas.mutable_data(1,0) is pybind11's checked access, which raises index_error
    unless there is a row 1 and a column 0 *)
Definition lambda_stride (l : nparray2) : Z := wrap64 ((n2_base l + n2_row l - n2_base l) / 8).
Definition lambda_ptr (l : nparray2) (i : nat) : Z := wrap64 (n2_base l + 8 * wrap64 (Z.of_nat i * lambda_stride l)).
Definition lambda_throws (l : nparray2) : bool :=
  negb (n2_rw l) || (n2_rows l <=? 1)%nat || (n2_cols l =? 0)%nat.
(** the scalar EOS call indexes the pointer it is given as lambda[0], ..., lambda[nl-1] *)
Definition lambda_cells (l : nparray2) (nl i : nat) : list Z := map (fun k => wrap64 (lambda_ptr l i + 8 * Z.of_nat k)) (seq 0 nl).

Section Calls.
Context {V : Type}.

(** module.hpp:109-124 (func) and 153-161 (funcNoLambda): [None] is the overload without lambdas; nl is the number of
    lambda entries the EOS uses; a null pointer is the empty list of cells.  mutable_unchecked raises when the array
    may not be written. *)
Definition py_vec2 (sc : V -> V -> list V -> V * list V) (nl : nat) (a b out : nparray) (lams : option nparray2) : outcome V :=
  if negb (np_rw a && np_rw b && np_rw out) then Throws
  else
    let run lam := Runs (vec_2in_1out sc (helper_at a) (helper_at b) (helper_at out) lam) (np_size a) in
    match lams with
    | None => run (fun _ => [])
    | Some l =>
        if (0 <? n2_cols l)%nat then
          if lambda_throws l then Throws else run (lambda_cells l nl)
        else run (fun _ => [])
    end.

(** module.hpp:257-311 FillEos on arrays *)
Definition py_fill (sc : list V -> list V -> list (option V) * list V) (nl : nat)
    (rhos temps sies press cvs bmods : nparray) (lams : option nparray2) : outcome V :=
  if negb (np_rw rhos && np_rw temps && np_rw sies && np_rw press && np_rw cvs && np_rw bmods) then Throws
  else
    let cells i := map (fun a => helper_at a i) [rhos; temps; sies; press; cvs; bmods] in
    let run lam := Runs (vec_fill sc cells lam) (np_size rhos) in
    match lams with
    | None => run (fun _ => [])
    | Some l =>
        if (0 <? n2_cols l)%nat then
          if lambda_throws l then Throws else run (lambda_cells l nl)
        else run (fun _ => [])
    end.

(** *** Python FillEos with keyword arguments, module.hpp:419-451 *)
Inductive qty := Rho | Sie | Press | Temp | Cv | Bmod.
(** constants.hpp:24-29 *)
Definition bit_of (q : qty) : N :=
  match q with Rho => 0 | Sie => 1 | Press => 2 | Temp => 3 | Cv => 4 | Bmod => 5 end%N.
Definition flag_of (q : qty) : N := N.shiftl 1 (bit_of q).
Definition state := qty -> V.
Definition qty_eqb (p q : qty) : bool := N.eqb (bit_of p) (bit_of q).
Definition set_q (s : state) (q : qty) (v : V) : state := fun p => if qty_eqb p q then v else s p.
(** module.hpp:420-429: a std::map, visited in the order of its keys bmod, cv, press, rho, sie, temp *)
Definition params : list qty := [Bmod; Cv; Press; Rho; Sie; Temp].
(** module.hpp:430-438 *)
Definition py_scan (given : qty -> option V) (os : N * state) : N * state :=
  fold_left (fun os q => match given q with
                         | Some v => (N.lor (fst os) (flag_of q), set_q (snd os) q v)
                         | None => os end) params os.
(** module.hpp:417-451: the mask and state given to the C++ FillEos, and the state returned; [nan] is the value
    EOSState's constructor (module.hpp:206-217) puts in every field, [fill] the C++ FillEos *)
Definition py_fill_args (nan : V) (given : qty -> option V) (output : option N) : N * state :=
  let (o, s) := py_scan given (0%N, fun _ => nan) in
  (match output with Some m => m | None => o end, s).
Definition py_fill_kw (fill : state -> N -> state) (nan : V) (given : qty -> option V) (output : option N) : state :=
  let (o, s) := py_fill_args nan given output in fill s o.

(** ** The C interface *)
(** 32-bit int multiplication (overflow is undefined behaviour in C++; the model wraps as the hardware does) *)
Definition wrap32 (z : Z) : Z := (z + 2 ^ 31) mod 2 ^ 32 - 2 ^ 31.
(** singularity_eos.cpp:39-49 lambdaIndexer2D *)
Definition lambda2d (n : Z) (data : Z) (i : nat) : Z := wrap64 (data + 8 * wrap32 (n * Z.of_nat i)).
Definition c_at (p : Z) (i : nat) : Z := wrap64 (p + 8 * Z.of_nat i).
Definition c_cells (n data : Z) (nl i : nat) : list Z := map (fun k => wrap64 (lambda2d n data i + 8 * Z.of_nat k)) (seq 0 nl).

(** an EOS as the C interface sees it: a scalar function of two arguments, the number of lambda entries it uses *)
Record ceos := mkCE { c_fun : V -> V -> list V -> V * list V; c_nl : nat }.

(** singularity_eos.cpp:387-398, 399-410, 416-428 (entropy, pressure and bulk modulus differ only in the query): the
    material is eos[matindex], [None] when that is outside the array; address 0 is the null pointer *)
Definition get_sg (eos : list ceos) (matindex : Z) (rhos sies outs : Z) (len : nat) (stride lambda_data : Z) : option (kernel V * nat) :=
  if (matindex <? 0) then None
  else match nth_error eos (Z.to_nat matindex) with
       | None => None
       | Some e =>
           let lam := if negb (stride =? -1) && negb (lambda_data =? 0)
                      then c_cells stride lambda_data (c_nl e) else fun _ => [] in
           Some (vec_2in_1out (c_fun e) (c_at rhos) (c_at sies) (c_at outs) lam, len)
       end.
(** singularity_eos.cpp:411-415 *)
Definition get_sg_min (eos : list ceos) (sel : ceos -> V -> list V -> V * list V) (matindex : Z) (rhos outs : Z) (len : nat) : option (kernel V * nat) :=
  if (matindex <? 0) then None
  else match nth_error eos (Z.to_nat matindex) with
       | None => None
       | Some e => Some (vec_1in_1out (sel e) (c_at rhos) (c_at outs) (fun _ => []), len)
       end.

(** singularity_eos.cpp:67-385 init_sg_X: eos[matindex] = ... (what is stored is C45's subject) *)
Definition init_sg (eos : list ceos) (matindex : Z) (e : ceos) : option (list ceos) :=
  if (matindex <? 0) || (Z.of_nat (length eos) <=? matindex) then None
  else Some (firstn (Z.to_nat matindex) eos ++ e :: skipn (S (Z.to_nat matindex)) eos).

(** ** Fortran *)
(** an assumed-shape array of rank 3 (dimension(:,:,:)): address of element (1,1,1), extents, byte distances *)
Record farray := mkFA { f_base : Z; f_n1 : nat; f_n2 : nat; f_n3 : nat; f_s1 : Z; f_s2 : Z; f_s3 : Z }.
(** dimension(:,:,:,:) *)
Record farray4 := mkFA4 { f4_base : Z; f4_n0 : nat; f4_s0 : Z; f4_s1 : Z; f4_s2 : Z; f4_s3 : Z }.

(** singularity_eos.f90:753-816: c_loc of the first element, matindex-1, stride and lambda only when both are present *)
Definition get_sg_f (eos : list ceos) (matindex : Z) (rhos sies outs : farray) (len : nat)
    (stride : option Z) (lambda_data : option farray4) : option (kernel V * nat) :=
  match stride, lambda_data with
  | Some n, Some l => get_sg eos (matindex - 1) (f_base rhos) (f_base sies) (f_base outs) len n (f4_base l)
  | _, _ => get_sg eos (matindex - 1) (f_base rhos) (f_base sies) (f_base outs) len (-1) 0
  end.
Definition get_sg_min_f (eos : list ceos) (sel : ceos -> V -> list V -> V * list V) (matindex : Z) (rhos sies : farray) (len : nat) :=
  get_sg_min eos sel (matindex - 1) (f_base rhos) (f_base sies) len.
(** singularity_eos.f90:440-749 init_sg_X_f *)
Definition init_sg_f (eos : list ceos) (matindex : Z) (e : ceos) : option (list ceos) := init_sg eos (matindex - 1) e.
End Calls.

(** singularity_eos.f90: optional modifier arguments get their defaults (e.g. 453-456) *)
Definition f_mods {A} (default : A) (given : option A) : A := match given with Some v => v | None => default end.
(** the split argument: singularity_eos.f90:662-689 and 691-717 (Spiner) pass split_use; 747 (eospac) passes the dummy
    argument split itself, which is undefined when it is absent *)
Inductive defined (A : Type) := Undefined | Is (v : A).
Arguments Undefined {A}.
Arguments Is {A} v.
Definition spiner_split_f (split : option Z) : defined Z := Is (f_mods 0 split).
Definition eospac_split_f (split : option Z) : defined Z := match split with Some v => Is v | None => Undefined end.

(** ** Life cycle, singularity_eos.cpp:58-66, 430-444 (Kokkos builds) *)
(** Kokkos cannot be initialised again after it was finalised *)
Inductive kokkos := Down | Up | Gone.
Definition k_initialize (k : kokkos) : option kokkos := match k with Down => Some Up | _ => None end.
Definition k_finalize (k : kokkos) : option kokkos := match k with Up => Some Gone | _ => None end.
(** init_sg_eos: if (!Kokkos::is_initialized()) Kokkos::initialize(); the EOS array is allocated *)
Definition init_sg_eos (k : kokkos) : option kokkos :=
  match k with Up => Some Up | _ => k_initialize k end.
(** finalize_sg_eos: needs Kokkos for the fence; if (own_kokkos != 0) Kokkos::finalize() *)
Definition finalize_sg_eos (own : Z) (k : kokkos) : option kokkos :=
  match k with
  | Up => if own =? 0 then Some Up else k_finalize k
  | _ => None
  end.
(** singularity_eos.f90:818-823 *)
Definition finalize_sg_eos_f (k : kokkos) : option kokkos := finalize_sg_eos 1 k.

(** a program's history: the host application initialises and finalises Kokkos, creates and destroys EOS arrays;
    the state counts the arrays alive *)
Inductive event := HostInit | HostFinal | CInit | CFinal (own : Z) | FFinal.
Definition estep (s : option (kokkos * nat)) (e : event) : option (kokkos * nat) :=
  match s with
  | None => None
  | Some (k, n) =>
      match e with
      | HostInit => option_map (fun k => (k, n)) (k_initialize k)
      | HostFinal => option_map (fun k => (k, n)) (k_finalize k)
      | CInit => option_map (fun k => (k, S n)) (init_sg_eos k)
      | CFinal own => match n with O => None | S m => option_map (fun k => (k, m)) (finalize_sg_eos own k) end
      | FFinal => match n with O => None | S m => option_map (fun k => (k, m)) (finalize_sg_eos_f k) end
      end
  end.
Definition erun (s : option (kokkos * nat)) (l : list event) := fold_left estep l s.
