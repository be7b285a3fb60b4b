(** Specification vocabulary for EOS modifiers (C27-C31): an equation of state as the record of its scalar API, and what it
    means for one EOS to be "the same material seen through another choice of units / energy origin / density scale".
    Independent of the modifier classes, which are modelled in Mods_Model.v. *)
From Coq Require Import Reals Bool Lra.
From Coquelicot Require Import Coquelicot.
From Verif Require Import Thermo_Spec.
Local Open Scope R_scope.

(** values at the reference state, in the order of the arguments of ValuesAtReferenceState *)
Record rstate := mkRef { r_rho : R; r_temp : R; r_sie : R; r_press : R; r_cv : R; r_bmod : R; r_dpde : R; r_dvdt : R }.
(** outputs of PTDerivativesFromPreferred *)
Record ptd := mkPtd { d_edP : R; d_rdP : R; d_edT : R; d_rdT : R }.

(** The scalar API of an EOS ([L] = what a lambda accessor holds).
    [qE_P rho P sie lam] is the value left in the in/out argument sie of InternalEnergyFromDensityPressure;
    [qDE P T lam (rho, sie)] the values left in the in/out arguments of DensityEnergyFromPressureTemperature;
    [qFill] = None when the call is an error. *)
Record EOS (L : Type) := mkEOS {
  qT_e : R -> R -> L -> R; qE_T : R -> R -> L -> R; qP_T : R -> R -> L -> R; qP_e : R -> R -> L -> R;
  qEmin : R -> L -> R; qS_T : R -> R -> L -> R; qS_e : R -> R -> L -> R; qC_T : R -> R -> L -> R; qC_e : R -> R -> L -> R;
  qB_T : R -> R -> L -> R; qB_e : R -> R -> L -> R; qG_T : R -> R -> L -> R; qG_e : R -> R -> L -> R;
  qE_P : R -> R -> R -> L -> R;
  qDE : R -> R -> L -> R * R -> R * R;
  qPTD : R -> R -> R -> R -> L -> ptd;
  qFill : flags -> L -> fstate -> option fstate;
  qPref : flags;
  qRef : L -> rstate;
  qRhoMin : R; qTMin : R; qRhoMax : R; qPMin : R; qPMaxT : R -> R; qRhoPmin : R -> R;
  qAbar : R -> R -> L -> R; qZbar : R -> R -> L -> R }.
Arguments qT_e {L}. Arguments qE_T {L}. Arguments qP_T {L}. Arguments qP_e {L}. Arguments qEmin {L}. Arguments qS_T {L}.
Arguments qS_e {L}. Arguments qC_T {L}. Arguments qC_e {L}. Arguments qB_T {L}. Arguments qB_e {L}. Arguments qG_T {L}.
Arguments qG_e {L}. Arguments qE_P {L}. Arguments qDE {L}. Arguments qPTD {L}. Arguments qFill {L}. Arguments qPref {L}.
Arguments qRef {L}. Arguments qRhoMin {L}. Arguments qTMin {L}. Arguments qRhoMax {L}. Arguments qPMin {L}.
Arguments qPMaxT {L}. Arguments qRhoPmin {L}. Arguments qAbar {L}. Arguments qZbar {L}. Arguments mkEOS {L}.

(** ** A change of variables
    The user's (rho, e, T, P) denote the wrapped EOS's (r rho, k (e - sh), t T, p P). Work per mass P d(1/rho) must be an
    energy, so p = r k. *)
Record gauge := mkG { g_r : R; g_k : R; g_t : R; g_p : R; g_sh : R }.
Definition gauge_ok (g : gauge) : Prop := g_r g <> 0 /\ g_k g <> 0 /\ g_t g <> 0 /\ g_p g = g_r g * g_k g.
Definition in_rho g x := g_r g * x.          Definition out_rho g x := x / g_r g.
Definition in_e g x := g_k g * (x - g_sh g). Definition out_e g x := x / g_k g + g_sh g.
Definition in_T g x := g_t g * x.            Definition out_T g x := x / g_t g.
Definition in_P g x := g_p g * x.            Definition out_P g x := x / g_p g.
(** specific heat and entropy are energies per temperature *)
Definition in_c g x := x * g_k g / g_t g.    Definition out_c g x := x * g_t g / g_k g.
Definition in_state g s := mkS (in_rho g (s_rho s)) (in_T g (s_temp s)) (in_e g (s_sie s)) (in_P g (s_press s))
                               (in_c g (s_cv s)) (in_P g (s_bmod s)).
Definition out_state g s := mkS (out_rho g (s_rho s)) (out_T g (s_temp s)) (out_e g (s_sie s)) (out_P g (s_press s))
                                (out_c g (s_cv s)) (out_P g (s_bmod s)).

Section View.
Context {L : Type}.
Variable g : L -> gauge.     (* for ZSplit the gauge depends on the ionisation state, which is in the lambda *)
Variables i o : EOS L.       (* inner (wrapped) and outer (modified) EOS *)

(** pressure, temperature, energy, minimum energy *)
Definition view_T_e := forall rho e l, qT_e o rho e l = out_T (g l) (qT_e i (in_rho (g l) rho) (in_e (g l) e) l).
Definition view_E_T := forall rho T l, qE_T o rho T l = out_e (g l) (qE_T i (in_rho (g l) rho) (in_T (g l) T) l).
Definition view_P_e := forall rho e l, qP_e o rho e l = out_P (g l) (qP_e i (in_rho (g l) rho) (in_e (g l) e) l).
Definition view_P_T := forall rho T l, qP_T o rho T l = out_P (g l) (qP_T i (in_rho (g l) rho) (in_T (g l) T) l).
Definition view_Emin := forall rho l, qEmin o rho l = out_e (g l) (qEmin i (in_rho (g l) rho) l).
(** entropy, specific heat, bulk modulus, Gruneisen parameter *)
Definition view_S := forall rho x l,
  qS_T o rho x l = out_c (g l) (qS_T i (in_rho (g l) rho) (in_T (g l) x) l) /\
  qS_e o rho x l = out_c (g l) (qS_e i (in_rho (g l) rho) (in_e (g l) x) l).
Definition view_C := forall rho x l,
  qC_T o rho x l = out_c (g l) (qC_T i (in_rho (g l) rho) (in_T (g l) x) l) /\
  qC_e o rho x l = out_c (g l) (qC_e i (in_rho (g l) rho) (in_e (g l) x) l).
Definition view_B := forall rho x l,
  qB_T o rho x l = out_P (g l) (qB_T i (in_rho (g l) rho) (in_T (g l) x) l) /\
  qB_e o rho x l = out_P (g l) (qB_e i (in_rho (g l) rho) (in_e (g l) x) l).
Definition view_G := forall rho x l,
  qG_T o rho x l = qG_T i (in_rho (g l) rho) (in_T (g l) x) l /\
  qG_e o rho x l = qG_e i (in_rho (g l) rho) (in_e (g l) x) l.
(** inversions *)
Definition view_E_P := forall rho P e l,
  qE_P o rho P e l = out_e (g l) (qE_P i (in_rho (g l) rho) (in_P (g l) P) (in_e (g l) e) l).
Definition view_DE := forall P T l rho e,
  qDE o P T l (rho, e) =
  (out_rho (g l) (fst (qDE i (in_P (g l) P) (in_T (g l) T) l (in_rho (g l) rho, in_e (g l) e))),
   out_e (g l) (snd (qDE i (in_P (g l) P) (in_T (g l) T) l (in_rho (g l) rho, in_e (g l) e)))).
(** derivatives at constant P and T: chain rule *)
Definition view_PTD := forall rho e P T l,
  let d := qPTD i (in_rho (g l) rho) (in_e (g l) e) (in_P (g l) P) (in_T (g l) T) l in
  qPTD o rho e P T l = mkPtd (d_edP d * g_p (g l) / g_k (g l)) (d_rdP d * g_p (g l) / g_r (g l))
                             (d_edT d * g_t (g l) / g_k (g l)) (d_rdT d * g_t (g l) / g_r (g l)).
Definition view_Fill := forall f l s,
  qFill o f l s = option_map (out_state (g l)) (qFill i f l (in_state (g l) s)).
Definition view_Ref := forall l,
  qRef o l = mkRef (out_rho (g l) (r_rho (qRef i l))) (out_T (g l) (r_temp (qRef i l))) (out_e (g l) (r_sie (qRef i l)))
                   (out_P (g l) (r_press (qRef i l))) (out_c (g l) (r_cv (qRef i l))) (out_P (g l) (r_bmod (qRef i l)))
                   (r_dpde (qRef i l) * g_k (g l) / g_p (g l)) (r_dvdt (qRef i l) * g_r (g l) * g_t (g l)).
Definition view_bounds := forall l T,
  qRhoMin o = out_rho (g l) (qRhoMin i) /\ qRhoMax o = out_rho (g l) (qRhoMax i) /\ qTMin o = out_T (g l) (qTMin i) /\
  qPMin o = out_P (g l) (qPMin i) /\ qPMaxT o T = out_P (g l) (qPMaxT i (in_T (g l) T)) /\
  qRhoPmin o T = out_rho (g l) (qRhoPmin i (in_T (g l) T)).

Definition view_values := view_T_e /\ view_E_T /\ view_P_e /\ view_P_T /\ view_Emin /\ view_S /\ view_C /\ view_B /\ view_G.
(** the outer EOS is the inner one seen through the change of variables *)
Definition is_view := view_values /\ view_E_P /\ view_DE /\ view_PTD /\ view_Fill /\ view_Ref /\ view_bounds.
End View.

(** the inversions ignore the initial guesses they are handed (true of every analytic EOS in the library) *)
Definition guess_free {L} (e : EOS L) : Prop :=
  forall P T l x y, qDE e P T l x = qDE e P T l y.

(** same answers to every query *)
Definition eos_eq {L} (a b : EOS L) : Prop := is_view (fun _ => mkG 1 1 1 1 0) a b.

(** ** thermodynamic consistency of an EOS at a point *)
Definition roundtrip_T {L} (e : EOS L) (rho T : R) (l : L) : Prop := qT_e e rho (qE_T e rho T l) l = T.
Definition agree_P {L} (e : EOS L) (rho T : R) (l : L) : Prop := qP_e e rho (qE_T e rho T l) l = qP_T e rho T l.
