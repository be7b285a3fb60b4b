(** Model of the vector API of EosBase (eos/eos_base.hpp:163-232 macro SG_EOS_VEC_2IN_1OUT, 440-505
    MinInternalEnergyFromDensity, 513-545 FillEos) executed by portableFor, and of the vector overloads of the
    modifiers.  portableFor(name, space, 0, num, body) runs body(i) for i = 0..num-1 as num concurrent
    iterations; an execution is an arbitrary interleaving of their individual loads and stores. *)
From Coq Require Import List ZArith Bool Reals.
Import ListNotations.
Open Scope Z_scope.

Section Par.
Context {V : Type}.
Definition mem := Z -> V.
Definition upd (m : mem) (a : Z) (v : V) : mem := fun x => if Z.eqb x a then v else m x.

(** One iteration: the loads of [RA i] in order, then the stores to [WA i] in order; the k-th store writes
    component k of [F i (values loaded)], None meaning that this store is not executed.
    Each load and each store is one atomic step of the interleaving. *)
Record kernel := mkKernel { RA : nat -> list Z; WA : nat -> list Z; F : nat -> list V -> list (option V) }.

Definition action := list V -> mem -> list V * mem.
Definition load (a : Z) : action := fun l m => (l ++ [m a], m).
Definition store (k : kernel) (i j : nat) (a : Z) : action :=
  fun l m => (l, match nth_error (F k i l) j with Some (Some v) => upd m a v | _ => m end).
Fixpoint stores (k : kernel) (i j : nat) (l : list Z) : list action :=
  match l with [] => [] | a :: r => store k i j a :: stores k i (S j) r end.
Definition iteration (k : kernel) (i : nat) : list action := map load (RA k i) ++ stores k i 0 (WA k i).

(** state of the parallel loop: per iteration the remaining steps and the values loaded so far; memory *)
Record pstate := mkP { rest : nat -> list action; loc : nat -> list V; memo : mem }.
Definition pinit (k : kernel) (m : mem) : pstate := mkP (iteration k) (fun _ => []) m.
Definition pstep (s : pstate) (i : nat) : pstate :=
  match rest s i with
  | [] => s
  | a :: r =>
      let (l, m) := a (loc s i) (memo s) in
      mkP (fun j => if Nat.eqb j i then r else rest s j) (fun j => if Nat.eqb j i then l else loc s j) m
  end.
Definition prun (k : kernel) (m : mem) (sched : list nat) : pstate := fold_left pstep sched (pinit k m).
(** the schedule only runs iterations 0..n-1 and runs them to completion *)
Definition complete (k : kernel) (m : mem) (n : nat) (sched : list nat) : Prop :=
  (forall i, In i sched -> (i < n)%nat) /\ forall i, (i < n)%nat -> rest (prun k m sched) i = [].

(** the same loop run sequentially, iteration by iteration *)
Fixpoint write_list (m : mem) (la : list Z) (lv : list (option V)) : mem :=
  match la, lv with
  | a :: ra, v :: rv => write_list (match v with Some x => upd m a x | None => m end) ra rv
  | _, _ => m
  end.
Definition body (k : kernel) (m : mem) (i : nat) : mem := write_list m (WA k i) (F k i (map m (RA k i))).
Definition seq_for (k : kernel) (n : nat) (m : mem) : mem := fold_left (body k) (seq 0 n) m.

(** eos_base.hpp:163-180: OUT[i] = copy.NAME(IN1[i], IN2[i], lambdas[i]); the indexers are arbitrary address
    functions, lambdas[i] is a list of cells that the scalar call reads and may overwrite. *)
Definition vec_2in_1out (scalar : V -> V -> list V -> V * list V) (in1 in2 out : nat -> Z) (lam : nat -> list Z) : kernel :=
  mkKernel (fun i => in1 i :: in2 i :: lam i) (fun i => out i :: lam i)
    (fun _ l => match l with
                | x :: y :: lm => let (v, lm') := scalar x y lm in Some v :: map Some lm'
                | _ => [] end).
(** eos_base.hpp:446-462 MinInternalEnergyFromDensity *)
Definition vec_1in_1out (scalar : V -> list V -> V * list V) (in1 out : nat -> Z) (lam : nat -> list Z) : kernel :=
  mkKernel (fun i => in1 i :: lam i) (fun i => out i :: lam i)
    (fun _ l => match l with x :: lm => let (v, lm') := scalar x lm in Some v :: map Some lm' | _ => [] end).
(** eos_base.hpp:513-530 FillEos: six in/out cells per element; the scalar FillEos says which it writes *)
Definition vec_fill (scalar : list V -> list V -> list (option V) * list V) (cells : nat -> list Z) (lam : nat -> list Z) : kernel :=
  mkKernel (fun i => cells i ++ lam i) (fun i => cells i ++ lam i)
    (fun i l => let (o, lm') := scalar (firstn (length (cells i)) l) (skipn (length (cells i)) l) in o ++ map Some lm').
End Par.
Arguments kernel : clear implicits.
Arguments mem : clear implicits.

(** *** Vector overloads of the modifiers (raw-pointer overloads with scratch memory) *)
Open Scope R_scope.
Inductive meth := TofE | PofT | PofE | MinE | CvT | CvE | BofT | BofE | GofT | GofE | EofT | SofT | SofE.
(** name ends in "FromDensityInternalEnergy" *)
Definition fromE (q : meth) : bool := match q with TofE | PofE | CvE | BofE | GofE | SofE => true | _ => false end.

Section Mods.
Context {L : Type} (null : L).
Notation M := (mem R).

(** eos_base.hpp:234-263 Transform: the product of the factors applied so far (1 when not set) *)
Record transform := mkT { tx : R; ty : R; tf : R }.
Definition T0 := mkT 1 1 1.
(** conversion factors of UnitSystem, eos_unitsystem.hpp:62-83 *)
Record units := mkU { u_rho : R; u_sie : R; u_temp : R }.

(** EOS classes: [Base]: vector overloads inherited from EosBase (also ZSplit and RelativisticEOS, which define
    none of their own), which drop the Transform (eos_base.hpp:188-196); [BaseT]: a class like EOSPAC whose
    raw-pointer overloads apply the Transform (eos_eospac.hpp:60-118). *)
Inductive eos :=
| Base (s : meth -> R -> R -> L -> R)
| BaseT (s : meth -> R -> R -> L -> R)
| Shifted (shift : R) (t : eos)
| Floored (t : eos)
| Ramp (pramp dpdr : R -> R) (t : eos)
| Scaled (scale : R) (t : eos)
| Units (u : units) (t : eos).

Definition out_unit (u : units) (q : meth) : R :=
  match q with
  | TofE => 1 / u_temp u
  | PofT | PofE | BofT | BofE => 1 / (u_rho u * u_sie u)
  | MinE | EofT => 1 / u_sie u
  | CvT | CvE => u_temp u / u_sie u
  | SofT | SofE => 1 / (u_sie u / u_temp u)
  | GofT | GofE => 1
  end.
Definition in_unit (u : units) (q : meth) : R := if fromE q then u_sie u else u_temp u.

(** scalar methods: shifted_eos.hpp:67-146, floored_energy.hpp:54-132, ramps_eos.hpp:131-210,
    scaled_eos.hpp:70-141, eos_unitsystem.hpp:112-200.  MinE ignores its second argument. *)
Fixpoint scalar (e : eos) (q : meth) (rho x : R) (lam : L) {struct e} : R :=
  match e with
  | Base s | BaseT s => s q rho x lam
  | Shifted sh t =>
      if fromE q then scalar t q rho (x - sh) lam
      else match q with EofT | MinE => scalar t q rho x lam + sh | _ => scalar t q rho x lam end
  | Floored t =>
      if fromE q then scalar t q rho (Rmax x (scalar t MinE rho x null)) lam else scalar t q rho x lam
  | Ramp pr dp t =>
      match q with
      | PofT | PofE => let p := scalar t q rho x lam in if Rlt_dec p (pr rho) then pr rho else p
      | BofT => if Rlt_dec (scalar t PofT rho x lam) (pr rho) then rho * dp rho else scalar t BofT rho x lam
      | BofE => if Rlt_dec (scalar t PofE rho x lam) (pr rho) then rho * dp rho else scalar t BofE rho x lam
      | _ => scalar t q rho x lam
      end
  | Scaled s t =>
      match q with
      | EofT => s * scalar t EofT rho x lam
      | MinE => scalar t MinE (s * rho) x lam
      | SofT => s * scalar t SofT (s * rho) x lam
      | SofE => s * scalar t SofE (s * rho) (1 / s * x) lam
      | _ => if fromE q then scalar t q (s * rho) (1 / s * x) lam else scalar t q (s * rho) x lam
      end
  | Units u t => out_unit u q * scalar t q (rho * u_rho u) (x * in_unit u q) lam
  end.

(** elementwise loops over arrays (portableFor; C13 shows any interleaving gives the sequential result) *)
Definition vfor (out : Z) (n : nat) (g : nat -> M -> R) (m : M) : M :=
  fold_left (fun m i => upd m (out + Z.of_nat i) (g i m)) (seq 0 n) m.

(** scratch_size / sizeof(Real): shifted_eos.hpp:370-376, floored_energy.hpp:362-368, ramps_eos.hpp:500-506,
    scaled_eos.hpp:233-235, eos_unitsystem.hpp:355-357; EosBase: 0; for [BaseT] (EOSPAC's own needs are not
    modelled) also 0 *)
Fixpoint scratch_size (e : eos) (q : meth) (n : nat) : nat :=
  match e with
  | Base _ | BaseT _ => 0
  | Shifted _ t | Floored t => scratch_size t q n + (if fromE q then n else 0)
  | Ramp _ _ t => scratch_size t q n + match q with BofT | BofE => n | _ => 0 end
  | Scaled _ t | Units _ t => scratch_size t q n
  end%nat.

Definition applyT (t0 : transform) (x y f : R) : transform := mkT (tx t0 * x) (ty t0 * y) (tf t0 * f).
Definition vnum (n : nat) (a : Z) : Z := (a + Z.of_nat n)%Z.

(** raw-pointer vector overload NAME(space, in1, in2, out, scratch, num, lambdas, transform) *)
Fixpoint vector (e : eos) (q : meth) (in1 in2 out scratch : Z) (n : nat) (lam : nat -> L) (t0 : transform) (m : M)
    {struct e} : M :=
  match e with
  | Base s => vfor out n (fun i m => s q (m (in1 + Z.of_nat i)%Z) (m (in2 + Z.of_nat i)%Z) (lam i)) m
  | BaseT s => vfor out n (fun i m => tf t0 * s q (tx t0 * m (in1 + Z.of_nat i)%Z) (ty t0 * m (in2 + Z.of_nat i)%Z) (lam i)) m
  | Shifted sh t =>
      if fromE q then
        let m1 := vfor scratch n (fun i m => m (in2 + Z.of_nat i)%Z - sh) m in
        vector t q in1 scratch out (vnum n scratch) n lam t0 m1
      else match q with
           | EofT => vfor out n (fun i m => m (out + Z.of_nat i)%Z + sh) (vector t q in1 in2 out scratch n lam t0 m)
           | MinE => vfor out n (fun i m => m (out + Z.of_nat i)%Z + sh) (vector t q in1 in2 out (vnum n scratch) n lam t0 m)
           | _ => vector t q in1 in2 out scratch n lam t0 m
           end
  | Floored t =>
      if fromE q then
        (* t_.MinInternalEnergyFromDensity(s, rhos, sie_used, num, lambdas): the overload without scratch, i.e. the
           EosBase loop over the scalar method *)
        let m1 := vfor scratch n (fun i m => scalar t MinE (m (in1 + Z.of_nat i)%Z) (m (in2 + Z.of_nat i)%Z) (lam i)) m in
        let m2 := vfor scratch n (fun i m => Rmax (m (in2 + Z.of_nat i)%Z) (m (scratch + Z.of_nat i)%Z)) m1 in
        vector t q in1 scratch out (vnum n scratch) n lam t0 m2
      else match q with
           | MinE => vector t q in1 in2 out (vnum n scratch) n lam t0 m
           | _ => vector t q in1 in2 out scratch n lam t0 m
           end
  | Ramp pr dp t =>
      match q with
      | PofT | PofE =>
          vfor out n (fun i m => Rmax (m (out + Z.of_nat i)%Z) (pr (m (in1 + Z.of_nat i)%Z)))
            (vector t q in1 in2 out scratch n lam t0 m)
      | BofT | BofE =>
          let p := match q with BofT => PofT | _ => PofE end in
          let m1 := vector t p in1 in2 scratch (vnum n scratch) n lam t0 m in
          let m2 := vector t q in1 in2 out (vnum n scratch) n lam t0 m1 in
          vfor out n (fun i m => if Rlt_dec (m (scratch + Z.of_nat i)%Z) (pr (m (in1 + Z.of_nat i)%Z))
                                 then m (in1 + Z.of_nat i)%Z * dp (m (in1 + Z.of_nat i)%Z)
                                 else m (out + Z.of_nat i)%Z) m2
      | _ => vector t q in1 in2 out scratch n lam t0 m
      end
  | Scaled s t =>
      let t1 := match q with
                | EofT => applyT t0 1 1 s
                | SofT => applyT t0 s 1 s
                | SofE => applyT t0 s (1 / s) s
                | _ => if fromE q then applyT t0 s (1 / s) 1 else applyT t0 s 1 1 end in
      vector t q in1 in2 out scratch n lam t1 m
  | Units u t =>
      let fx := match q with MinE => u_sie u | _ => out_unit u q end in   (* eos_unitsystem.hpp:322-323 *)
      vector t q in1 in2 out scratch n lam (applyT t0 (u_rho u) (in_unit u q) fx) m
  end.
End Mods.
