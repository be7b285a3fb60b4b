(** Specifications for sesame2spiner (C73-C77). *)
From Coq Require Import ZArith Reals List Bool Ascii String.
From Coquelicot Require Import Coquelicot.
From Verif Require Import Sesame_Model.
Import ListNotations.
Open Scope string_scope.

(** ** The input language *)
(** the characters of a line that are not white space *)
Definition white : list nat := [32; 9; 10; 11; 12; 13]%nat.
Definition letters (s : string) : list ascii :=
  filter (fun c => negb (existsb (Nat.eqb (nat_of_ascii c)) white)) (list_ascii_of_string s).
Definition free (c : ascii) (s : string) : Prop := ~ In c (list_ascii_of_string s).
Inductive item := Nothing | Header (name : string) | Setting (key value : string).
(** what a line says, up to white space: nothing or a comment; <name> followed by anything; key=value with an optional comment *)
Definition says (line : string) (it : item) : Prop :=
  match it with
  | Nothing => letters line = [] \/ exists r, letters line = list_ascii_of_string ("#" ++ r)
  | Header n => exists r, free ">" n /\ letters line = list_ascii_of_string ("<" ++ n ++ ">" ++ r)
  | Setting k v => free "=" k /\ free "#" v /\
      (forall c r, k = String c r -> c <> "#"%char /\ c <> "<"%char) /\
      exists r, (r = "" \/ exists r', r = "#" ++ r') /\ letters line = list_ascii_of_string (k ++ "=" ++ v ++ r)
  end.
Definition meaningful (it : item) : bool := match it with Nothing => false | _ => true end.
(** a section is its settings in order, the header being a setting of "name" *)
Definition section := list (string * string).
Definition section_items (named : string * section) : list item :=
  Header (fst named) :: map (fun kv => Setting (fst kv) (snd kv)) (snd named).
(** the value of a key in a section: its last setting *)
Definition last_setting (k : string) (s : section) : option string :=
  fold_left (fun acc kv => if String.eqb k (fst kv) then Some (snd kv) else acc) s None.
(** a parsed material holds exactly the settings of its section *)
Definition holds (p : Params) (s : section) : Prop := forall k, pget k p = last_setting k s.

(** ** Names *)
(** the materials that are written: the first of each number, with its position in the input *)
Fixpoint firsts (seen : list Z) (i : nat) (mats : list (Z * Params)) : list (nat * Z * Params) :=
  match mats with
  | [] => []
  | (m, p) :: r => if existsb (Z.eqb m) seen then firsts seen (S i) r else (i, m, p) :: firsts (m :: seen) (S i) r
  end.
(** a name that cannot be mistaken for a number or for a numbered copy of another name *)
Definition plain (n : string) : Prop :=
  n <> "" /\ free "_" n /\ exists c, In c (list_ascii_of_string n) /\ digit c = None /\ c <> "-"%char.

(** ** Tables: one thermodynamic description in the user's units and EOSPAC's view of it in units of 1e10 *)
Open Scope R_scope.
Record material_eos := mkMEos {
  P : R -> R -> R; E : R -> R -> R; Tm : R -> R -> R;      (* P(rho,T), e(rho,T), T(rho,e) *)
  P_r : R -> R -> R; P_t : R -> R -> R; E_r : R -> R -> R; E_t : R -> R -> R; T_r : R -> R -> R; T_e : R -> R -> R
}.
(** the partial derivatives are right and T(rho, .) inverts e(rho, .) at the state (rho, T) *)
Record right_at (m : material_eos) (rho T : R) : Prop := {
  ra_P : differentiable_pt_lim (P m) rho T (P_r m rho T) (P_t m rho T);
  ra_E : differentiable_pt_lim (E m) rho T (E_r m rho T) (E_t m rho T);
  ra_T : differentiable_pt_lim (Tm m) rho (E m rho T) (T_r m rho (E m rho T)) (T_e m rho (E m rho T));
  ra_inv : forall r t, Tm m r (E m r t) = t
}.
(** EOSPAC returns the same functions with pressure and energy divided by 1e10 *)
Record eospac_view (m : material_eos) (tP tT tE : etable) : Prop := {
  ev_P : forall r t, et tP r t = P m r t / 10 ^ 10 /\ et_x tP r t = P_r m r t / 10 ^ 10 /\ et_y tP r t = P_t m r t / 10 ^ 10;
  ev_E : forall r t, et tE r t = E m r t / 10 ^ 10 /\ et_x tE r t = E_r m r t / 10 ^ 10 /\ et_y tE r t = E_t m r t / 10 ^ 10;
  ev_T : forall r e, et tT r e = Tm m r (10 ^ 10 * e) /\ et_x tT r e = T_r m r (10 ^ 10 * e) /\ et_y tT r e = 10 ^ 10 * T_e m r (10 ^ 10 * e)
}.
