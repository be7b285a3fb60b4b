(** What the EOSPAC properties (C78, C79) are stated with: one material in the user's (cgs) units, EOSPAC's tables as views of it in units of
    1e10, and the storage of a vector call. Independent of the proofs. *)
From Coq Require Import ZArith Reals List Bool.
From Coquelicot Require Import Coquelicot.
From Verif Require Import Thermo_Spec Sesame_Model Sesame_Spec Sesame_Tables_Props Vector_Model Vector_Spec Eospac_Model.
Import ListNotations.
Local Open Scope R_scope.

(** besides P(rho,T), e(rho,T), T(rho,e): rho(P,T), T(rho,P), the cold energy and the entropy *)
Record material := mkMat { m_eos :> material_eos; rhoPT : R -> R -> R; TofP : R -> R -> R; Ecold : R -> R; Sof : R -> R -> R }.
Record view (m : material) (p : eospac) : Prop := {
  v_base : eospac_view m (PofRT p) (TofRE p) (EofRT p);
  v_R : forall P T, et (RofPT p) P T = rhoPT m (10 ^ 10 * P) T;
  v_TP : forall r P, et (TofRP p) r P = TofP m r (10 ^ 10 * P);
  v_PE : forall r e, et (PofRE p) r e = P_of_E m r (10 ^ 10 * e) / 10 ^ 10;
  v_Ec : forall r z, et (EcofD p) r z = Ecold m r / 10 ^ 10;      (* a table of one input *)
  v_S : forall r T, et (SofRT p) r T = Sof m r T / 10 ^ 10
}.
(** the inverse tables invert at positive temperature and density *)
Definition inverts (m : material) : Prop :=
  (forall P T, 0 < T -> Sesame_Spec.P m (rhoPT m P T) T = P) /\ (forall r P, 0 < r -> Sesame_Spec.P m r (TofP m r P) = P).
(** rho(P,T) is differentiable *)
Definition smooth_density (m : material) (P T : R) : Prop := exists a b, differentiable_pt_lim (rhoPT m) P T a b.

(** the scalar query a vector call stands for; [u]: values of uninitialised locals *)
Definition query (p : eospac) (u : fstate) (q : meth) (rho x : R) : option R :=
  match q with
  | TofE => Some (T_e p rho x) | PofT => Some (P_T p rho x) | PofE => Some (P_e p rho x) | MinE => Some (E_min p (s_sie u) rho)
  | CvT => C_T p u rho x | CvE => C_e p u rho x | BofT => B_T p u rho x | BofE => B_e p u rho x
  | GofT => Some (G_T p rho x) | GofE => Some (G_e p rho x) | EofT => E_T p u rho x | SofT => S_T p rho x | SofE => S_e p rho x
  end.
(** a table of one input: the second argument is ignored *)
Definition one_input (t : etable) : Prop := forall r y z, et t r y = et t r z.
(** density and input factors of a Transform are positive where set; the output factor is any number *)
Definition positive_factor (f : option R) : Prop := match f with Some v => 0 < v | None => True end.
Definition good_trans (t : trans) : Prop := positive_factor (t_x t) /\ positive_factor (t_y t).
(** arrays of n numbers at in1, in2, out and [k] cells of scratch, none of which overlap *)
Definition storage (in1 in2 out scratch : Z) (n k : nat) : Prop :=
  Vector_Spec.disj in1 n out n /\ Vector_Spec.disj in2 n out n /\ Vector_Spec.disj in1 n scratch k /\ Vector_Spec.disj in2 n scratch k /\ Vector_Spec.disj out n scratch k.
(** the six arrays of FillEos and its scratch, pairwise apart *)
Definition fill_storage (arrs : list Z) (scratch : Z) (n k : nat) : Prop :=
  ForallOrdPairs (fun a b => Vector_Spec.disj a n b n) arrs /\ List.Forall (fun a => Vector_Spec.disj a n scratch k) arrs.
