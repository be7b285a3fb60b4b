(** Model of the default (CRTP base class) inversions of singularity-eos/eos/eos_base.hpp.
    The derived class is a record of its scalar methods; lambda is an opaque value of type [L] that those methods may
    use.  [None] = the call aborts (PORTABLE_REQUIRE / non-termination never happen for admissible records, see C15). *)
From Coq Require Import Reals ZArith Bool.
From Verif Require Import Arith RootFinding_Model Robust_Model.
Local Open Scope arith_scope.

Section Defaults.
  Context {A : Arith} {L : Type} (null : L).
  Notation T := (num A).
  Record eos := mkEos {
    PofT : T -> T -> L -> T;       (* PressureFromDensityTemperature *)
    PofE : T -> T -> L -> T;       (* PressureFromDensityInternalEnergy *)
    EofT : T -> T -> L -> T;       (* InternalEnergyFromDensityTemperature *)
    RhoPmin : T -> T;
    MinDensity : T; MaxDensity : T; MinTemperature : T }.

  (** eos_base.hpp:634-670; [eps] = robust::EPS().  [rho] is the value of the in/out argument on entry.
      Result: (status of the root find, rho, sie); [None]: PORTABLE_REQUIRE(rhomax > rhomin) *)
  Definition rho_guess (rhomin rhomax rho : T) : T :=
    if (rho <=? rhomin) || (rhomax <=? rho) then
      if (rhomin <? lit 12) && (lit 12 <? rhomax) then lit 12 else ofQ 1 2 * (rhomin + rhomax)
    else rho.
  Definition DensityEnergyFromPT (eps : T) (e : eos) (press temp : T) (lam : L) (rho : T) : option (Status * T * T) :=
    let rhomin := amax (RhoPmin e temp) (MinDensity e) in
    let rhomax := MaxDensity e in
    if rhomin <? rhomax then
      let '(st, r) := findRoot (fun r => PofT e r temp lam) press (rho_guess rhomin rhomax rho) rhomin rhomax eps eps rho in
      Some (st, r, EofT e r temp lam)
    else None.

  (** eos_base.hpp:686-707.  Result: status and new value of the in/out argument sie *)
  Definition IEFromDensityPressure (eps : T) (e : eos) (rho P sie : T) (lam : L) : option (Status * T) :=
    let sie_min := EofT e rho (MinTemperature e) null in
    let sie_max := EofT e rho (ofQ 100000000000000000000 1) null in
    let guess := if (sie_min <? sie) && (sie <? sie_max) then ofQ 1 2 * (sie_min + sie_max) else sie in
    match regula_falsi (fun s => PofE e rho s lam) P guess sie_min sie_max eps eps with
    | RFDiverge => None
    | RFDone st (Some x) _ => Some (st, x)
    | RFDone st None _ => Some (st, sie)
    end.
  (** eos_base.hpp:708-721: the version without initial guess *)
  Definition IEFromDensityPressure_noguess (eps : T) (e : eos) (rho P : T) (lam : L) : option (Status * T) :=
    let sie_min := EofT e rho (MinTemperature e) null in
    let sie_max := EofT e rho (ofQ 100000000000000000000 1) null in
    IEFromDensityPressure eps e rho P (ofQ 1 2 * (sie_min + sie_max)) lam.

  (** eos_base.hpp:606-612: lambda is not passed on *)
  Definition MinInternalEnergy (e : eos) (rho : T) (lam : L) : T := EofT e rho (lit 0) null.
End Defaults.

(** eos_base.hpp:300-322 over exact reals. [inv P T guess] = DensityEnergyFromPressureTemperature(P, T, lambda, rho, sie)
    with [guess] the value of rho on entry; r_pert is uninitialised before the first call: [garbage]. *)
Open Scope R_scope.
Definition fd_absP (eps P : R) : R := Rmax (Rabs P) (EPS / eps).
Definition fd_dP (eps P : R) : R := - sgn P * fd_absP eps P * eps.
Definition fd_dT (eps T : R) : R := Rmax (Rabs T) (EPS / eps) * eps.
Record pt_derivs := mkPT { dedP_T : R; drdP_T : R; dedT_P : R; drdT_P : R }.
Definition PTDerivativesByFiniteDifferences (inv : R -> R -> R -> R * R) (rho sie P T eps garbage : R) : pt_derivs :=
  let dP := fd_dP eps P in
  let dT := fd_dT eps T in
  let (r1, e1) := inv (P + dP) T garbage in
  let (r2, e2) := inv P (T + dT) r1 in
  mkPT (ratio (e1 - sie) dP) (ratio (r1 - rho) dP) (ratio (e2 - sie) dT) (ratio (r2 - rho) dT).
(** eos_base.hpp:411-420 *)
Definition derivative_eps : R := 3 / 1000000.
