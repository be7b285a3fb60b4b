(** Model of singularity-eos/base/root-finding-1d/root_finding.hpp.
    Every function is generic in the arithmetic [A]; the callable [f] is a pure function.
    Output references become components of the result; an output the C++ leaves unwritten is [None].
    printf diagnostics are not modelled. *)
From Coq Require Import ZArith List Bool.
From Verif Require Import Arith.
Import ListNotations.
Local Open Scope arith_scope.

(** root_finding.hpp:43 *)
Inductive Status := SUCCESS | FAIL.

(** root_finding.hpp:39-42 *)
Definition SECANT_NITER_MAX : nat := 1000.
Definition BISECT_NITER_MAX : nat := 1000.
Definition BISECT_REG_MAX : nat := 1000.
Definition NEWTON_RAPHSON_NITER_MAX : nat := 100.

Section RootFinding.
  Context {A : Arith}.
  Notation T := (num A).

  (** root_finding.hpp:113-116 *)
  Definition check_bracket (ya yb : T) : bool := ya * yb <=? lit 0.

  (** root_finding.hpp:118-151. The abscissae tried by the doubly nested loop, in order: [a] and
      [dx] are not modified until the function returns, and [dx] is never refined with [level]. *)
  Definition set_bracket_samples (a dx : T) : list T :=
    flat_map (fun level =>
      map (fun i => a + (lit (Z.of_nat i) + ofQ 1 2) * dx) (seq 0 (Nat.pow 2 level)))
      (seq 0 6).

  Definition set_bracket (f : T -> T) (a guess b ya yg yb : T) : option (T * T * T * T) :=
    match find (fun x => check_bracket (f x) yg) (set_bracket_samples a (b - a)) with
    | Some x =>
        if x <? guess then Some (x, f x, guess, yg)   (* a, ya, b, yb *)
        else Some (guess, yg, x, f x)
    | None => None
    end.

  (** Loop state of regula_falsi, root_finding.hpp:186-223 *)
  Record RF := mkRF { rf_a : T; rf_b : T; rf_ya : T; rf_yb : T;
                      rf_b1 : nat; rf_b2 : nat; rf_it : nat }.

  (** loop condition, lines 193-194 *)
  Definition rf_cond (xtol ytol : T) (s : RF) : bool :=
    (lit 2 * xtol <? rf_b s - rf_a s)
    && ((ytol <? absn (rf_ya s)) || (ytol <? absn (rf_yb s)))
    && Nat.ltb (rf_it s) SECANT_NITER_MAX.

  (** loop body, lines 195-222 ([continue] does not count the iteration) *)
  Definition rf_step (func : T -> T) (sign : T) (s : RF) : RF :=
    let a := rf_a s in let b := rf_b s in let ya := rf_ya s in let yb := rf_yb s in
    let c := (a * yb - b * ya) / (yb - ya) in
    if c =? a then mkRF a a ya yb (rf_b1 s) (rf_b2 s) (rf_it s)
    else if c =? b then mkRF b b ya yb (rf_b1 s) (rf_b2 s) (rf_it s)
    else
      let yc := sign * func c in
      if lit 0 <? yc then
        let b1 := S (rf_b1 s) in
        mkRF a c (ya * (if Nat.ltb 1 b1 then ofQ 1 2 else lit 1)) yc b1 0 (S (rf_it s))
      else if yc <? lit 0 then
        let b2 := S (rf_b2 s) in
        mkRF c b yc (yb * (if Nat.ltb 1 b2 then ofQ 1 2 else lit 1)) 0 b2 (S (rf_it s))
      else mkRF c c ya yb (rf_b1 s) (rf_b2 s) (S (rf_it s)).

  (** The while loop on explicit fuel; [None] = fuel exhausted (the C++ loop is still running). *)
  Fixpoint rf_loop (fuel : nat) (func : T -> T) (sign xtol ytol : T) (s : RF) : option RF :=
    if rf_cond xtol ytol s then
      match fuel with
      | O => None
      | S n => rf_loop n func sign xtol ytol (rf_step func sign s)
      end
    else Some s.

  (** initial bracketing, lines 164-184: (a, b, ya, yb) *)
  Definition rf_bracket (func : T -> T) (guess a b : T) : option (T * T * T * T) :=
    let ya := func a in
    let yg := func guess in
    if check_bracket ya yg then Some (a, guess, ya, yg)
    else
      let yb := func b in
      if check_bracket yg yb then Some (guess, b, yg, yb)
      else match set_bracket func a guess b ya yg yb with
           | Some (a', ya', b', yb') => Some (a', b', ya', yb')
           | None => None
           end.

  Inductive RFResult :=
  | RFDiverge                                  (* loop did not stop within the fuel *)
  | RFDone (st : Status) (xroot : option T) (iters : nat).

  (** root_finding.hpp:154-240 *)
  Definition regula_falsi_fuel (fuel : nat) (f : T -> T) (ytarget guess a b xtol ytol : T)
    : RFResult :=
    let func := fun x => f x - ytarget in
    match rf_bracket func guess a b with
    | None => RFDone FAIL None 0
    | Some (a1, b1, ya1, yb1) =>
        let sign := if ya1 <? lit 0 then lit 1 else lit (-1) in
        match rf_loop fuel func sign xtol ytol
                (mkRF a1 b1 (ya1 * sign) (yb1 * sign) 0 0 0) with
        | None => RFDiverge
        | Some s =>
            RFDone (if Nat.eqb (rf_it s) SECANT_NITER_MAX then FAIL else SUCCESS)
                   (Some (ofQ 1 2 * (rf_a s + rf_b s))) (rf_it s)
        end
    end.

  (** fuel that suffices for every terminating run: at most 1000 counted iterations and one
      uncounted [continue] *)
  Definition regula_falsi := regula_falsi_fuel (S (S SECANT_NITER_MAX)).

  (** newton_raphson, root_finding.hpp:246-310. [f] returns (value, derivative). *)
  Inductive NRExit := NRConverged | NRBound | NRMaxIter.

  (** loop, lines 264-294: returns final _x, value of iter after the loop and the exit reason *)
  Fixpoint nr_loop (left iter : nat) (f : T -> T * T) (ytarget a b ytol x : T)
    : T * nat * NRExit :=
    match left with
    | O => (x, iter, NRMaxIter)
    | S n =>
        let (yg, dfunc) := f x in
        if absn (yg - ytarget) <? absn (ytol * ytarget) then (x, iter, NRConverged)
        else
          let x1 := x - (yg - ytarget) / dfunc in
          if ((x1 <=? a) && (x <=? a)) || ((b <=? x1) && (b <=? x))
          then (x1, iter, NRBound)
          else nr_loop n (S iter) f ytarget a b ytol (amax (amin x1 b) a)
    end.

  Definition newton_raphson (f : T -> T * T) (ytarget guess a b ytol : T)
             (fail_on_bound_root : bool) : Status * T * nat :=
    match nr_loop NEWTON_RAPHSON_NITER_MAX 0 f ytarget a b ytol guess with
    | (x, iter, NRConverged) => (SUCCESS, x, iter)
    | (x, iter, NRBound) => (if fail_on_bound_root then FAIL else SUCCESS, x, iter)
    | (x, iter, NRMaxIter) => (FAIL, x, iter)
    end.

  (** secant, root_finding.hpp:377-478. Loop lines 387-428. *)
  Inductive SecExit := SecNaN | SecStop (x x_last : T) (iter : nat).

  Definition sec_update (f : T -> T) (ytarget xmin xmax xtol x : T) : T :=
    let dx := absn (ofQ 1 10000000 * x) + xtol in
    let y := f x - ytarget in
    let yp := f (x + dx) in
    let ym := f (x - dx) in
    let dy := (yp - ym) / (lit 2 * dx) in
    let x1 := x - y / dy in
    let x2 := if x1 <? xmin then xmin else x1 in
    if xmax <? x2 then xmax else x2.

  (** [left] = SECANT_NITER_MAX - iter > 0 *)
  Fixpoint sec_loop (left iter : nat) (f : T -> T) (ytarget xmin xmax xtol x x_last : T)
    : SecExit :=
    match left with
    | O => SecStop x x_last iter
    | S n =>
        let x1 := sec_update f ytarget xmin xmax xtol x in
        if isnan x1 || isinf x1 then SecNaN
        else if absn (x1 - x) / (absn x1 + xtol) <? xtol then SecStop x1 x iter
        else sec_loop n (S iter) f ytarget xmin xmax xtol x1 x
    end.

  Definition secant (f : T -> T) (ytarget xguess xmin xmax xtol ytol : T)
    : Status * option T :=
    (* x_last is uninitialised before the first iteration; SECANT_NITER_MAX > 0 so it is
       always written before use, the initial value here is irrelevant *)
    match sec_loop SECANT_NITER_MAX 0 f ytarget xmin xmax xtol xguess xguess with
    | SecNaN => (FAIL, None)
    | SecStop x x_last _ =>
        let y := f x in
        let frac_error := absn (y - ytarget) / (absn y + ytol) in
        let failed := (xtol <? absn (x - x_last)) || (ytol <? absn frac_error)
                      || isnan x || isinf x in
        (if failed then FAIL else SUCCESS, Some x)
    end.

  (** bisect, root_finding.hpp:480-603 *)
  (** region search, lines 493-515: [Some (xl,xr,fl,fr)] when it breaks, [None] = return FAIL *)
  Fixpoint bis_region (left i : nat) (f : T -> T) (ytarget xmin xmax x grow : T)
           (last : T * T * T * T) : option (T * T * T * T) :=
    match left with
    | O => Some last                                      (* loop ran out (unreachable) *)
    | S n =>
        let dx := absn (grow * x) in
        let xl := x - dx in
        let xr := x + dx in
        let fl := f xl - ytarget in
        let fr := f xr - ytarget in
        if (fl * fr <? lit 0) || (xl <? xmin) || (xmax <? xr) then Some (xl, xr, fl, fr)
        else if Nat.ltb (BISECT_REG_MAX - 2) i then None
        else bis_region n (S i) f ytarget xmin xmax x (grow * ofQ 11 10) (xl, xr, fl, fr)
    end.

  (** lines 517-560: force into the region and repair equal signs *)
  Definition bis_clamp (f : T -> T) (ytarget xmin xmax : T) (q : T * T * T * T)
    : T * T * T * T :=
    let '(xl, xr, fl, fr) := q in
    let '(xr, fr) := if xmax <? xr then (xmax, f xmax - ytarget) else (xr, fr) in
    let '(xl, fl) := if xl <? xmin then (xmin, f xmin - ytarget) else (xl, fl) in
    (xl, xr, fl, fr).

  Definition bis_fixsign (f : T -> T) (ytarget xmin xmax : T) (q : T * T * T * T)
    : option (T * T * T * T) :=
    let '(xl, xr, fl, fr) := q in
    if lit 0 <? fl * fr then
      let fl := f xmin - ytarget in
      if lit 0 <? fl * fr then
        let fr := f xmax - ytarget in
        if lit 0 <? fl * fr then None else Some (xmin, xmax, fl, fr)
      else Some (xmin, xr, fl, fr)
    else Some (xl, xr, fl, fr).

  (** lines 562-578 *)
  Fixpoint bis_loop (left : nat) (f : T -> T) (ytarget xtol : T) (q : T * T * T * T)
    : Status * (T * T) :=
    let '(xl, xr, fl, fr) := q in
    match left with
    | O => (FAIL, (xl, xr))
    | S n =>
        let xm := ofQ 1 2 * (xl + xr) in
        let fm := f xm - ytarget in
        let q' := if fl * fm <=? lit 0 then (xl, xm, fl, fm) else (xm, xr, fm, fr) in
        let '(xl', xr', _, _) := q' in
        if xr' - xl' <? xtol then (SUCCESS, (xl', xr'))
        else bis_loop n f ytarget xtol q'
    end.

  Definition bisect (f : T -> T) (ytarget xguess xmin xmax xtol : T) : Status * option T :=
    let x := if absn xguess <? xtol then xguess + lit 2 * xtol else xguess in
    match bis_region BISECT_REG_MAX 0 f ytarget xmin xmax x (ofQ 1 100) (x, x, x, x) with
    | None => (FAIL, None)
    | Some q =>
        match bis_fixsign f ytarget xmin xmax (bis_clamp f ytarget xmin xmax q) with
        | None => (FAIL, None)
        | Some q' =>
            let '(st, (xl, xr)) := bis_loop BISECT_NITER_MAX f ytarget xtol q' in
            (st, Some (ofQ 1 2 * (xl + xr)))
        end
    end.

  (** findRoot, root_finding.hpp:312-375. [x0] is the value of the in/out argument xroot on entry;
      the second component of the result is its value on return. *)
  Definition findRoot (f : T -> T) (ytarget xguess xmin xmax xtol ytol x0 : T) : Status * T :=
    let fmax := f xmax in
    let errmax := absn (fmax - ytarget) / (absn fmax + ytol) in
    if errmax <? ytol then (SUCCESS, xmax)
    else
      let fmin := f xmin in
      let errmin := absn (fmin - ytarget) / (absn fmin + ytol) in
      if errmin <? ytol then (SUCCESS, xmin)
      else
        let xguess := if xmax <=? xguess then xmax - xtol else xguess in
        let xguess := if xguess <=? xmin then xmin + xtol else xguess in
        match secant f ytarget xguess xmin xmax xtol ytol with
        | (SUCCESS, Some x) => (SUCCESS, x)
        | (SUCCESS, None) => (SUCCESS, x0)               (* unreachable *)
        | (FAIL, xs) =>
            let x1 := match xs with Some x => x | None => x0 end in
            let '(st, xb) := bisect f ytarget xguess xmin xmax xtol in
            let x2 := match xb with Some x => x | None => x1 end in
            if isnan x2 || isinf x2 then (FAIL, x2)
            else if x2 <? xmin then (FAIL, x2)
            else if xmax <? x2 then (FAIL, x2)
            else (st, x2)
        end.
End RootFinding.

Arguments RFResult : clear implicits.
Arguments RFDiverge {A}.
Arguments RFDone {A}.
