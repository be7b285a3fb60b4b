(** Specification vocabulary for equations of state: what it means for EOS queries to be mutually consistent.
    Independent of any particular EOS; used by C16-C31. *)
From Coq Require Import Reals Bool Lra.
From Coquelicot Require Import Coquelicot.
Local Open Scope R_scope.

(** G is the Gruneisen parameter of the pressure P(rho,e):  G = (1/rho) (dP/de)_rho *)
Definition is_gruneisen (P : R -> R -> R) (rho e G : R) : Prop :=
  is_derive (fun s => P rho s) e (rho * G).

(** B is the isentropic bulk modulus of P(rho,e): along an isentrope de = (P/rho^2) drho, so
    B = rho (dP/drho)_s = rho (dP/drho)_e + (P/rho) (dP/de)_rho *)
Definition is_bulk_modulus (P : R -> R -> R) (rho e B : R) : Prop :=
  exists dPdr dPde : R, is_derive (fun r => P r e) rho dPdr /\ is_derive (fun s => P rho s) e dPde /\
    B = rho * dPdr + P rho e / rho * dPde.

(** c is the specific heat of E(rho,T) *)
Definition is_specific_heat (E : R -> R -> R) (rho T c : R) : Prop := is_derive (fun t => E rho t) T c.

(** first and second law, T ds = de - (P/rho^2) drho, for S, E, P as functions of (rho,T) *)
Definition first_law (S E P : R -> R -> R) (rho T : R) : Prop :=
  exists dEdT dEdr : R, is_derive (fun t => E rho t) T dEdT /\ is_derive (fun r => E r T) rho dEdr /\
    is_derive (fun t => S rho t) T (dEdT / T) /\ is_derive (fun r => S r T) rho ((dEdr - P rho T / (rho * rho)) / T).

(** the thermodynamic derivatives at constant P and T of an EOS with density rho(P,T) and energy e(P,T) *)
Definition is_PT_derivatives (rhoPT ePT : R -> R -> R) (P T drdP dedP drdT dedT : R) : Prop :=
  is_derive (fun p => rhoPT p T) P drdP /\ is_derive (fun p => ePT p T) P dedP /\
  is_derive (fun t => rhoPT P t) T drdT /\ is_derive (fun t => ePT P t) T dedT.

(** ** FillEos (doc/sphinx/src/using-eos.rst:1469-1489) *)
Record fstate := mkS { s_rho : R; s_temp : R; s_sie : R; s_press : R; s_cv : R; s_bmod : R }.
(** requested outputs, constants.hpp:22-29 *)
Record flags := mkF { f_rho : bool; f_temp : bool; f_sie : bool; f_press : bool; f_cv : bool; f_bmod : bool }.

(** which two quantities are the inputs *)
Inductive mode := InRhoSie | InRhoTemp | InPressTemp | InRhoPress.
Definition mode_of (o : flags) (m : mode) : Prop :=
  match m with
  | InRhoSie => f_rho o = false /\ f_sie o = false
  | InRhoTemp => f_rho o = false /\ f_temp o = false /\ f_sie o = true /\ f_press o = true
  | InPressTemp => f_press o = false /\ f_temp o = false /\ f_rho o = true /\ f_sie o = true
  | InRhoPress => f_rho o = false /\ f_press o = false /\ f_temp o = true /\ f_sie o = true
  end.
(** how many of density, temperature, energy and pressure the caller supplies (does not request) *)
Definition inputs (o : flags) : nat :=
  ((if f_rho o then 0 else 1) + (if f_temp o then 0 else 1) + (if f_sie o then 0 else 1) + (if f_press o then 0 else 1))%nat.
(** nothing that was not requested is modified *)
Definition fill_frame (o : flags) (s s' : fstate) : Prop :=
  (f_rho o = false -> s_rho s' = s_rho s) /\ (f_temp o = false -> s_temp s' = s_temp s) /\
  (f_sie o = false -> s_sie s' = s_sie s) /\ (f_press o = false -> s_press s' = s_press s) /\
  (f_cv o = false -> s_cv s' = s_cv s) /\ (f_bmod o = false -> s_bmod s' = s_bmod s).
(** every requested quantity is the scalar query at the final (rho, sie), and the inputs are reproduced by it *)
Definition fill_values (Tq Pq Cq Bq : R -> R -> R) (m : mode) (o : flags) (s s' : fstate) : Prop :=
  let r := s_rho s' in let e := s_sie s' in
  (f_press o = true -> s_press s' = Pq r e) /\ (f_temp o = true -> s_temp s' = Tq r e) /\
  (f_cv o = true -> s_cv s' = Cq r e) /\ (f_bmod o = true -> s_bmod s' = Bq r e) /\
  match m with
  | InRhoSie => True
  | InRhoTemp => Tq r e = s_temp s
  | InPressTemp => Pq r e = s_press s /\ Tq r e = s_temp s
  | InRhoPress => Pq r e = s_press s
  end.
Definition fill_ok Tq Pq Cq Bq m o s s' : Prop := fill_frame o s s' /\ fill_values Tq Pq Cq Bq m o s s'.

(** tactics for FillEos proofs *)
Definition upd_rho (s : fstate) v := mkS v (s_temp s) (s_sie s) (s_press s) (s_cv s) (s_bmod s).
Definition upd_temp (s : fstate) v := mkS (s_rho s) v (s_sie s) (s_press s) (s_cv s) (s_bmod s).
Definition upd_sie (s : fstate) v := mkS (s_rho s) (s_temp s) v (s_press s) (s_cv s) (s_bmod s).
Definition upd_press (s : fstate) v := mkS (s_rho s) (s_temp s) (s_sie s) v (s_cv s) (s_bmod s).
Definition upd_cv (s : fstate) v := mkS (s_rho s) (s_temp s) (s_sie s) (s_press s) v (s_bmod s).
Definition upd_bmod (s : fstate) v := mkS (s_rho s) (s_temp s) (s_sie s) (s_press s) (s_cv s) v.
(** if (flag) field = value *)
Definition cond_upd (b : bool) (upd : fstate -> R -> fstate) (v : fstate -> R) (s : fstate) : fstate :=
  if b then upd s (v s) else s.

(** derivative lemmas that hold on one side of a [max] *)
Lemma is_derive_max_left (f : R -> R) (c x d : R) : is_derive f x d -> c < f x -> is_derive (fun y => Rmax c (f y)) x d.
Proof.
  intros Hd Hc. apply (is_derive_ext_loc (V := R_NormedModule) f); [|exact Hd].
  assert (HC : continuous f x) by (apply (ex_derive_continuous (V := R_NormedModule)); exists d; exact Hd).
  specialize (HC (fun y => c < y)). 
  assert (HL : locally (f x) (fun y => c < y)).
  { exists (mkposreal (f x - c) ltac:(lra)). intros y Hy. 
    unfold ball in Hy. cbn in Hy. unfold AbsRing_ball, abs, minus, plus, opp in Hy. cbn in Hy. apply Rabs_def2 in Hy. lra. }
  specialize (HC HL). change (locally x (fun y => c < f y)) in HC. revert HC. apply filter_imp. intros y Hy. rewrite Rmax_right; [reflexivity|lra].
Qed.
Lemma is_derive_eq (f : R -> R) (x d d' : R) : is_derive f x d -> d = d' -> is_derive f x d'.
Proof. intros H <-. exact H. Qed.
