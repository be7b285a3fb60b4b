(** C27, C28, C29: energy shift, density scale and unit conversion.
    The specification (Mods_Spec.is_view, one clause per query) says: the modified EOS is the wrapped one seen through a
    change of variables.  Trust: Reals; Mods_Model. *)
From Coq Require Import Reals Bool Lra List ZArith.
From Coquelicot Require Import Coquelicot.
From Flocq Require Import Core.
From Coq Require Import Floats.
From Verif Require Import Robust_Model Thermo_Spec Thermo_Tools Mods_Spec Mods_Model Mods_View Mods_Instances.
From Verif Require Ideal_Model Ideal_Props Stiff_Model Stiff_Props Vinet_Model.
Local Open Scope R_scope.

(** ** the three changes of variables *)
(** the user's energy e is the wrapped EOS's e - shift *)
Definition shift_gauge (shift : R) : gauge := mkG 1 1 1 1 shift.
(** the user's (rho, e) is the wrapped EOS's (s rho, e / s); P and T are the same *)
Definition scale_gauge (s : R) : gauge := mkG s (1 / s) 1 1 0.
(** the user's quantities times their units are cgs *)
Definition unit_gauge (u : units) : gauge := mkG (u_rho u) (u_sie u) (u_temp u) (u_rho u * u_sie u) 0.

Lemma shift_ok sh : gauge_ok (shift_gauge sh).
Proof. unfold gauge_ok, shift_gauge; cbn. repeat split; lra. Qed.
Lemma scale_ok s : s <> 0 -> gauge_ok (scale_gauge s).
Proof.
  intros H. unfold gauge_ok, scale_gauge; cbn. repeat split; try lra.
  - unfold Rdiv. rewrite Rmult_1_l. apply Rinv_neq_0_compat. exact H.
  - field. exact H.
Qed.
Lemma Units_check_pos u : Units_check u = true <-> 0 < u_rho u /\ 0 < u_sie u /\ 0 < u_temp u.
Proof.
  unfold Units_check. rewrite !andb_true_iff. split.
  - intros [[A B] C]. destruct (Rlt_bool_spec 0 (u_rho u)), (Rlt_bool_spec 0 (u_sie u)), (Rlt_bool_spec 0 (u_temp u)); try discriminate. auto.
  - intros (A & B & C). rewrite !Rlt_bool_true by assumption. auto.
Qed.
Lemma unit_ok u : Units_check u = true -> gauge_ok (unit_gauge u).
Proof. intros H. apply Units_check_pos in H. unfold gauge_ok, unit_gauge; cbn. repeat split; lra. Qed.
Lemma Scaled_check_ne s : Scaled_check s = true <-> s <> 0.
Proof.
  unfold Scaled_check. rewrite andb_true_iff, !negb_true_iff. split.
  - intros [A _]. destruct (Req_bool_spec s 0); [discriminate|assumption].
  - intros H. rewrite !Req_bool_false; [auto| |exact H]. unfold Rdiv. rewrite Rmult_1_l. apply Rinv_neq_0_compat. exact H.
Qed.

Ltac vs := unfold in_rho, out_rho, in_e, out_e, in_T, out_T, in_P, out_P, in_c, out_c, shift_gauge, scale_gauge, unit_gauge; cbn.
Lemma Rdiv_1 x : x / 1 = x. Proof. field. Qed.
Ltac one := repeat rewrite ?Rmult_1_l, ?Rmult_1_r, ?Rplus_0_r, ?Rminus_0_r, ?Rdiv_1.

Section Props.
Context {L : Type}.
Notation EOS := (EOS L).

(** ** C27 ShiftedEOS *)
(** every query except FillEos, for every wrapped EOS and every shift *)
Theorem C27_shifted_queries : forall (t : EOS) shift, let g := fun _ : L => shift_gauge shift in
  view_values g t (Shifted shift t) /\ view_E_P g t (Shifted shift t) /\ view_PTD g t (Shifted shift t) /\
  view_Ref g t (Shifted shift t) /\ view_bounds g t (Shifted shift t) /\
  (guess_free t -> view_DE g t (Shifted shift t)).
Proof.
  intros t shift g.
  refine (conj (conj _ (conj _ (conj _ (conj _ (conj _ (conj _ (conj _ (conj _ _)))))))) (conj _ (conj _ (conj _ (conj _ _))))).
  - intros rho e l. unfold g. vs. one. reflexivity.
  - intros rho e l. unfold g. vs. one. reflexivity.
  - intros rho e l. unfold g. vs. one. reflexivity.
  - intros rho e l. unfold g. vs. one. reflexivity.
  - intros rho l. unfold g. vs. one. reflexivity.
  - intros rho x l. unfold g. vs. one. split; reflexivity.
  - intros rho x l. unfold g. vs. one. split; reflexivity.
  - intros rho x l. unfold g. vs. one. split; reflexivity.
  - intros rho x l. unfold g. vs. one. split; reflexivity.
  - intros rho P e l. unfold g. vs. one. reflexivity.
  - intros rho e P T l. cbv zeta. unfold g. vs. one. destruct (qPTD t rho (e - shift) P T l); reflexivity.
  - intros l. unfold g. vs. one. reflexivity.
  - intros l T. unfold g. vs. one. repeat split; reflexivity.
  - intros Hgf P T l rho e. unfold g. vs. one.
    rewrite (Hgf P T l (rho, (e - shift)) (rho, e)). destruct (qDE t P T l (rho, e)); reflexivity.
Qed.
(** hence the shifted EOS is thermodynamically consistent wherever the wrapped one is at the unshifted energy *)
Theorem C27_shifted_consistent : forall (t : EOS) shift rho l,
  let o := Shifted shift t in
  (forall T, roundtrip_T t rho T l -> roundtrip_T o rho T l) /\
  (forall T, agree_P t rho T l -> agree_P o rho T l) /\
  (forall e G, is_gruneisen (fun r x => qP_e t r x l) rho (e - shift) G -> is_gruneisen (fun r x => qP_e o r x l) rho e G) /\
  (forall e B, rho <> 0 -> is_bulk_modulus (fun r x => qP_e t r x l) rho (e - shift) B -> is_bulk_modulus (fun r x => qP_e o r x l) rho e B) /\
  (forall T c, is_specific_heat (fun r x => qE_T t r x l) rho T c -> is_specific_heat (fun r x => qE_T o r x l) rho T c) /\
  (forall T, rho <> 0 -> T <> 0 ->
     first_law (fun r x => qS_T t r x l) (fun r x => qE_T t r x l) (fun r x => qP_T t r x l) rho T ->
     first_law (fun r x => qS_T o r x l) (fun r x => qE_T o r x l) (fun r x => qP_T o r x l) rho T).
Proof.
  intros t shift rho l o.
  destruct (C27_shifted_queries t shift) as ((A1 & A2 & A3 & A4 & A5 & A6 & A7 & A8 & A9) & _).
  assert (OK : forall l : L, gauge_ok ((fun _ : L => shift_gauge shift) l)) by (intros; apply shift_ok).
  assert (E1 : in_rho (shift_gauge shift) rho = rho) by (vs; ring).
  assert (E2 : forall T, in_T (shift_gauge shift) T = T) by (intros; vs; ring).
  assert (E3 : forall e, in_e (shift_gauge shift) e = e - shift) by (intros; vs; ring).
  refine (conj _ (conj _ (conj _ (conj _ (conj _ _))))).
  - intros T H. apply (view_roundtrip (fun _ => shift_gauge shift) t o OK A1 A2). rewrite E1, E2. exact H.
  - intros T H. apply (view_agree (fun _ => shift_gauge shift) t o OK A3 A4 A2). rewrite E1, E2. exact H.
  - intros e G H. apply (view_gruneisen (fun _ => shift_gauge shift) t o OK A3 rho e l G). rewrite E1, E3. exact H.
  - intros e B Hr H. replace B with (out_P (shift_gauge shift) B) by (vs; field).
    apply (view_bulk (fun _ => shift_gauge shift) t o OK A3 rho e l B Hr). rewrite E1, E3. exact H.
  - intros T c H. replace c with (out_c (shift_gauge shift) c) by (vs; field).
    apply (view_cv (fun _ => shift_gauge shift) t o OK A2 rho T l c). rewrite E1, E2. exact H.
  - intros T Hr HT H. apply (view_first_law (fun _ => shift_gauge shift) t o OK A6 A2 A4 rho T l Hr HT). rewrite E1, E2. exact H.
Qed.
(** shifts add up, and a shift undone by the opposite shift answers every query like the wrapped EOS *)
Theorem C27_shifts_compose : forall (t : EOS) s1 s2,
  view_values (fun _ => shift_gauge (s1 + s2)) t (Shifted s2 (Shifted s1 t)) /\
  view_values (fun _ => mkG 1 1 1 1 0) t (Shifted (- s1) (Shifted s1 t)).
Proof.
  intros t s1 s2. destruct (C27_shifted_queries t s1) as (A & _).
  pose proof (fun s => proj1 (C27_shifted_queries (Shifted s1 t) s)) as B.
  assert (K : forall s, view_values (fun _ => shift_gauge (s1 + s)) t (Shifted s (Shifted s1 t))).
  { intros s. pose proof (view_comp_values (fun _ => shift_gauge s1) (fun _ => shift_gauge s) t (Shifted s1 t) (Shifted s (Shifted s1 t))
      ltac:(intros; apply shift_ok) ltac:(intros; apply shift_ok) A (B s)) as H. cbv beta in H.
    replace (g_comp (shift_gauge s1) (shift_gauge s)) with (shift_gauge (s1 + s)) in H; [exact H|].
    unfold g_comp, shift_gauge; cbn. f_equal; field. }
  split; [apply K|]. specialize (K (- s1)). unfold shift_gauge in K. rewrite Rplus_opp_r in K. exact K.
Qed.
(** FillEos is wrong for every PreferredInput.
    (density, temperature): an energy that is an input, left alone by the wrapped FillEos, comes back changed by the shift;
    (density, energy): the energy the wrapped FillEos computes is thrown away;
    anything else (in particular IdealGas): the call is an error *)
Theorem C60_shifted_fill_refuted : forall (t : EOS) shift f l s,
  (qPref t = pref_rhoT -> forall s', f_sie f = false -> shift <> 0 -> qFill t f l s = Some s' -> s_sie s' = s_sie s ->
     exists s'', qFill (Shifted shift t) f l s = Some s'' /\ s_sie s'' <> s_sie s) /\
  (qPref t = pref_rhoE -> forall s', f_sie f = true -> qFill (Shifted shift t) f l s = Some s' -> s_sie s' = s_sie s) /\
  (qPref t <> pref_rhoT -> qPref t <> pref_rhoE -> qFill (Shifted shift t) f l s = None).
Proof.
  intros t shift f l s. repeat split.
  - intros Hp s' Hf Hsh E Es. exists (upd_sie s' (s_sie s' + shift)). cbn. unfold shifted_Fill. rewrite Hp, E. cbn. split; [reflexivity|].
    rewrite Es. lra.
  - intros Hp s' Hf. cbn. unfold shifted_Fill. rewrite Hp. cbn. destruct (qFill t f l (upd_sie s (s_sie s - shift))); [|discriminate].
    intros E. injection E as <-. reflexivity.
  - intros H1 H2. cbn. unfold shifted_Fill. destruct (qPref t) as [b1 b2 b3 b4 b5 b6].
    destruct b1, b2, b3, b4, b5, b6; cbn; try reflexivity; exfalso; unfold pref_rhoT, pref_rhoE in *; congruence.
Qed.
(** what does hold of FillEos: with (density, energy) preferred and used as inputs, it is the wrapped FillEos seen through
    the shift *)
Theorem C27_shifted_fill_rho_sie : forall (t : EOS) shift f l s, qPref t = pref_rhoE -> f_sie f = false ->
  (forall s0 s1, qFill t f l s0 = Some s1 -> s_sie s1 = s_sie s0) ->
  qFill (Shifted shift t) f l s = option_map (out_state (shift_gauge shift)) (qFill t f l (in_state (shift_gauge shift) s)).
Proof.
  intros t shift f l s Hp Hf Hfr. cbn. unfold shifted_Fill. rewrite Hp. cbn.
  replace (in_state (shift_gauge shift) s) with (upd_sie s (s_sie s - shift)) by (destruct s; unfold in_state, upd_sie; vs; f_equal; field).
  destruct (qFill t f l (upd_sie s (s_sie s - shift))) as [s1|] eqn:E; [|reflexivity]. cbn. f_equal.
  apply Hfr in E. cbn in E. destruct s, s1; unfold out_state, upd_sie; cbn in *. vs. subst. f_equal; field.
Qed.

(** ** C28 ScaledEOS *)
(** pressure, temperature, entropy, bulk modulus, Gruneisen parameter, (P, T) inversion and derivatives, bounds *)
Theorem C28_scaled_queries : forall (t : EOS) s, Scaled_check s = true -> let g := fun _ : L => scale_gauge s in
  let o := Scaled s t in
  view_T_e g t o /\ view_P_e g t o /\ view_P_T g t o /\ view_S g t o /\ view_B g t o /\ view_G g t o /\
  view_PTD g t o /\ view_bounds g t o /\ (guess_free t -> view_DE g t o) /\
  (forall rho T l, s * qAbar o rho T l = qAbar t (s * rho) T l).
Proof.
  intros t s Hs g o. apply Scaled_check_ne in Hs.
  refine (conj _ (conj _ (conj _ (conj _ (conj _ (conj _ (conj _ (conj _ (conj _ _))))))))).
  - intros rho e l. unfold g. vs. rewrite Rminus_0_r, Rdiv_1. reflexivity.
  - intros rho e l. unfold g. vs. rewrite Rminus_0_r, Rdiv_1. reflexivity.
  - intros rho e l. unfold g. vs. rewrite Rmult_1_l, Rdiv_1. reflexivity.
  - intros rho x l. unfold g. vs. rewrite Rmult_1_l, Rminus_0_r. split; field; exact Hs.
  - intros rho x l. unfold g. vs. rewrite Rmult_1_l, Rminus_0_r. split; field; exact Hs.
  - intros rho x l. unfold g. vs. rewrite Rmult_1_l, Rminus_0_r. split; reflexivity.
  - intros rho e P T l. cbv zeta. unfold g. vs. rewrite !Rmult_1_l, Rminus_0_r. f_equal; field; exact Hs.
  - intros l T. unfold g. vs. rewrite !Rmult_1_l. repeat split; field; exact Hs.
  - intros Hgf P T l rho e. unfold g. vs. rewrite !Rmult_1_l, Rminus_0_r. rewrite (Hgf P T l (s * rho, 1 / s * e) (rho, e)).
    destruct (qDE t P T l (rho, e)) as [a b]. cbn. f_equal; field; exact Hs.
  - intros rho T l. cbn. field. exact Hs.
Qed.
(** so the scaled pressure has the scaled bulk modulus and Gruneisen parameter *)
Theorem C28_scaled_consistent : forall (t : EOS) s rho e l, Scaled_check s = true -> rho <> 0 ->
  (is_gruneisen (fun r x => qP_e t r x l) (s * rho) (e / s) (qG_e t (s * rho) (e / s) l) ->
   is_gruneisen (fun r x => qP_e (Scaled s t) r x l) rho e (qG_e (Scaled s t) rho e l)) /\
  (is_bulk_modulus (fun r x => qP_e t r x l) (s * rho) (e / s) (qB_e t (s * rho) (e / s) l) ->
   is_bulk_modulus (fun r x => qP_e (Scaled s t) r x l) rho e (qB_e (Scaled s t) rho e l)).
Proof.
  intros t s rho e l Hs Hr. destruct (C28_scaled_queries t s Hs) as (A1 & A2 & A3 & A4 & A5 & A6 & _). apply Scaled_check_ne in Hs.
  assert (OK : forall l : L, gauge_ok ((fun _ : L => scale_gauge s) l)) by (intros; apply scale_ok; exact Hs).
  assert (E1 : in_rho (scale_gauge s) rho = s * rho) by (vs; ring).
  assert (E3 : in_e (scale_gauge s) e = e / s) by (vs; field; exact Hs).
  split; intros H.
  - apply (view_gruneisen (fun _ => scale_gauge s) t _ OK A2). rewrite E1, E3.
    change (qG_e (Scaled s t) rho e l) with (qG_e t (s * rho) (1 / s * e) l). replace (1 / s * e) with (e / s) by (field; exact Hs). exact H.
  - change (qB_e (Scaled s t) rho e l) with (qB_e t (s * rho) (1 / s * e) l). replace (1 / s * e) with (e / s) by (field; exact Hs).
    replace (qB_e t (s * rho) (e / s) l) with (out_P (scale_gauge s) (qB_e t (s * rho) (e / s) l)) by (vs; field).
    apply (view_bulk (fun _ => scale_gauge s) t _ OK A2); [exact Hr|]. rewrite E1, E3. exact H.
Qed.
(** when the wrapped energy does not depend on density (ideal gas), the energy, the temperature round trip and the
    first law are right too *)
Theorem C28_scaled_density_free_energy : forall (t : EOS) s, Scaled_check s = true ->
  (forall r r' T l, qE_T t r T l = qE_T t r' T l) ->
  view_E_T (fun _ => scale_gauge s) t (Scaled s t) /\
  forall rho T l, (roundtrip_T t (s * rho) T l -> roundtrip_T (Scaled s t) rho T l) /\
    (rho <> 0 -> T <> 0 ->
     first_law (fun r x => qS_T t r x l) (fun r x => qE_T t r x l) (fun r x => qP_T t r x l) (s * rho) T ->
     first_law (fun r x => qS_T (Scaled s t) r x l) (fun r x => qE_T (Scaled s t) r x l) (fun r x => qP_T (Scaled s t) r x l) rho T).
Proof.
  intros t s Hs Hd. destruct (C28_scaled_queries t s Hs) as (A1 & A2 & A3 & A4 & A5 & A6 & _). apply Scaled_check_ne in Hs.
  assert (OK : forall l : L, gauge_ok ((fun _ : L => scale_gauge s) l)) by (intros; apply scale_ok; exact Hs).
  assert (HE : view_E_T (fun _ => scale_gauge s) t (Scaled s t)).
  { intros rho T l. vs. rewrite (Hd rho (s * rho)), Rmult_1_l. field. exact Hs. }
  split; [exact HE|]. intros rho T l.
  assert (E1 : in_rho (scale_gauge s) rho = s * rho) by (vs; ring).
  assert (E2 : in_T (scale_gauge s) T = T) by (vs; ring).
  split.
  - intros H. apply (view_roundtrip (fun _ => scale_gauge s) t _ OK A1 HE). rewrite E1, E2. exact H.
  - intros Hr HT H. apply (view_first_law (fun _ => scale_gauge s) t _ OK A4 HE A3); [exact Hr|exact HT|]. rewrite E1, E2. exact H.
Qed.
(** the wrong queries, characterised exactly: for every wrapped EOS the scaled energy, minimum energy, specific heat,
    reference specific heat and (rho, P) inversion are the scaled ones only in the degenerate cases on the right *)
Theorem C60_scaled_wrong_queries_refuted : forall (t : EOS) s rho x P e l, Scaled_check s = true ->
  let g := scale_gauge s in let o := Scaled s t in
  (qE_T o rho x l = out_e g (qE_T t (in_rho g rho) (in_T g x) l) <-> qE_T t rho x l = qE_T t (s * rho) x l) /\
  (qEmin o rho l = out_e g (qEmin t (in_rho g rho) l) <-> s = 1 \/ qEmin t (s * rho) l = 0) /\
  (qC_T o rho x l = out_c g (qC_T t (in_rho g rho) (in_T g x) l) <-> s = 1 \/ qC_T t (s * rho) x l = 0) /\
  (r_cv (qRef o l) = out_c g (r_cv (qRef t l)) <-> s = 1 \/ r_cv (qRef t l) = 0) /\
  (qE_P o rho P e l = out_e g (qE_P t (in_rho g rho) (in_P g P) (in_e g e) l) <->
     qE_P t (s * rho) P e l = s * qE_P t (s * rho) P (e / s) l).
Proof.
  intros t s rho x P e l Hs g o. apply Scaled_check_ne in Hs. unfold g, o. vs. rewrite !Rmult_1_l, !Rminus_0_r.
  assert (K : forall a, a = a * 1 / (1 / s) <-> s = 1 \/ a = 0).
  { intros a. replace (a * 1 / (1 / s)) with (s * a) by (field; exact Hs). split.
    - intros H. assert (Hp : (s - 1) * a = 0) by lra. apply Rmult_integral in Hp. destruct Hp; [left|right]; lra.
    - intros [-> | ->]; ring. }
  refine (conj _ (conj _ (conj (K _) (conj (K _) _)))).
  - replace (qE_T t (s * rho) x l / (1 / s) + 0) with (s * qE_T t (s * rho) x l) by (field; exact Hs). split.
    + intros H. apply Rmult_eq_reg_l in H; assumption.
    + intros ->. reflexivity.
  - replace (qEmin t (s * rho) l / (1 / s) + 0) with (qEmin t (s * rho) l * 1 / (1 / s)) by (field; exact Hs). apply K.
  - replace (1 / s * e) with (e / s) by (field; exact Hs).
    replace (qE_P t (s * rho) P (e / s) l / (1 / s) + 0) with (s * qE_P t (s * rho) P (e / s) l) by (field; exact Hs). reflexivity.
Qed.
(** FillEos: nothing it writes to density survives; and with (density, temperature) preferred an input energy is multiplied by
    the scale; with (density, energy) preferred a requested energy is never returned; otherwise (IdealGas) it is an error *)
Theorem C60_scaled_fill_refuted : forall (t : EOS) s f l st,
  (forall st', qFill (Scaled s t) f l st = Some st' -> s_rho st' = s_rho st) /\
  (qPref t = pref_rhoT -> forall st0, qFill t f l (upd_rho st (s * s_rho st)) = Some st0 -> s_sie st0 = s_sie st ->
     exists st', qFill (Scaled s t) f l st = Some st' /\ s_sie st' = s * s_sie st) /\
  (qPref t = pref_rhoE -> forall st', qFill (Scaled s t) f l st = Some st' -> s_sie st' = s_sie st) /\
  (qPref t <> pref_rhoT -> qPref t <> pref_rhoE -> qFill (Scaled s t) f l st = None).
Proof.
  intros t s f l st. refine (conj _ (conj _ (conj _ _))).
  - intros st'. cbn. unfold scaled_Fill. destruct (flags_eqb _ _); [destruct (qFill t f l _); [|discriminate]|
      destruct (flags_eqb _ _); [destruct (qFill t f l _); [|discriminate]|discriminate]]; intros E; injection E as <-; reflexivity.
  - intros Hp st0 E Es. eexists. cbn. unfold scaled_Fill. rewrite Hp. cbn. rewrite E. split; [reflexivity|]. cbn. rewrite Es. reflexivity.
  - intros Hp st'. cbn. unfold scaled_Fill. rewrite Hp. cbn. destruct (qFill t f l _); [|discriminate]. intros E. injection E as <-. reflexivity.
  - intros H1 H2. cbn. unfold scaled_Fill. destruct (qPref t) as [b1 b2 b3 b4 b5 b6].
    destruct b1, b2, b3, b4, b5, b6; cbn; try reflexivity; exfalso; unfold pref_rhoT, pref_rhoE in *; congruence.
Qed.

(** ** C29 UnitSystem *)
(** the whole scalar API, FillEos included, for every wrapped EOS *)
Theorem C29_units : forall (t : EOS) u, Units_check u = true -> tiny <= u_rho u -> tiny <= u_sie u ->
  is_view (fun _ => unit_gauge u) t (Units u t).
Proof.
  intros t u Hu H1 H2. apply Units_check_pos in Hu. destruct Hu as (Hr & He & HT).
  assert (Hp : u_rho u * u_sie u <> 0) by (apply Rmult_integral_contrapositive_currified; lra).
  refine (conj (conj _ (conj _ (conj _ (conj _ (conj _ (conj _ (conj _ (conj _ _)))))))) (conj _ (conj _ (conj _ (conj _ (conj _ _)))))).
  - intros rho e l. vs. unfold inv_temp. rewrite Rminus_0_r, (Rmult_comm rho), (Rmult_comm e). field. lra.
  - intros rho e l. vs. unfold inv_sie. rewrite (Rmult_comm rho), (Rmult_comm e). field. lra.
  - intros rho e l. vs. unfold inv_press, u_press. rewrite Rminus_0_r, (Rmult_comm rho), (Rmult_comm e). field. lra.
  - intros rho e l. vs. unfold inv_press, u_press. rewrite (Rmult_comm rho), (Rmult_comm e). field. lra.
  - intros rho l. vs. unfold inv_sie. rewrite (Rmult_comm rho). field. lra.
  - intros rho x l. vs. unfold inv_entropy, u_entropy. rewrite Rminus_0_r, (Rmult_comm rho), !(Rmult_comm x). split; field; lra.
  - intros rho x l. vs. unfold inv_cv. rewrite Rminus_0_r, (Rmult_comm rho), !(Rmult_comm x). split; field; lra.
  - intros rho x l. vs. unfold inv_bmod, u_press. rewrite Rminus_0_r, (Rmult_comm rho), !(Rmult_comm x). split; field; lra.
  - intros rho x l. vs. rewrite Rminus_0_r, (Rmult_comm rho), !(Rmult_comm x). split; reflexivity.
  - intros rho P e l. vs. unfold inv_sie, u_press. rewrite Rminus_0_r, (Rmult_comm e). field. lra.
  - intros P T l rho e. vs. unfold inv_sie, inv_rho, u_press. rewrite Rminus_0_r, (Rmult_comm P), (Rmult_comm T), (Rmult_comm rho), (Rmult_comm e).
    destruct (qDE t _ _ l _) as [a b]. cbn. f_equal; field; lra.
  - intros rho e P T l. cbv zeta. vs. rewrite Rminus_0_r. unfold u_press.
    rewrite !ratio_pos by assumption. rewrite (Rmult_comm rho), (Rmult_comm e), (Rmult_comm P), (Rmult_comm T). f_equal; field; lra.
  - intros f l s. cbn. unfold units_Fill.
    replace (in_state (unit_gauge u) s) with (mkS (s_rho s * u_rho u) (s_temp s * u_temp u) (s_sie s * u_sie u) (s_press s * u_press u)
                         (s_cv s * u_cv u) (s_bmod s * u_bmod u)).
    2:{ unfold in_state, u_press, u_cv, u_bmod, u_press. vs. f_equal; field; lra. }
    destruct (qFill t f l _) as [s'|]; [|reflexivity]. cbn. f_equal. unfold out_state, inv_rho, inv_temp, inv_sie, inv_press, inv_cv, inv_bmod, u_press. vs.
    f_equal; field; lra.
  - intros l. vs. unfold inv_rho, inv_temp, inv_sie, inv_press, inv_cv, inv_bmod, inv_dpde, inv_dvdt, u_press. f_equal; field; lra.
  - intros l T. vs. unfold inv_rho, inv_temp, inv_press, u_press. rewrite (Rmult_comm T). repeat split; field; lra.
Qed.
(** converting to other units and back answers every query like the wrapped EOS *)
Theorem C29_units_inverse : forall (t : EOS) u,
  let v := mkUnits (1 / u_rho u) (1 / u_sie u) (1 / u_temp u) in
  Units_check u = true -> tiny <= u_rho u -> tiny <= u_sie u -> tiny <= 1 / u_rho u -> tiny <= 1 / u_sie u ->
  eos_eq t (Units v (Units u t)).
Proof.
  intros t u v Hu H1 H2 H3 H4. pose proof Hu as Hc. apply Units_check_pos in Hc. destruct Hc as (Hr & He & HT).
  assert (Hv : Units_check v = true).
  { apply Units_check_pos. unfold v; cbn. pose proof tiny_pos. repeat split; try lra. apply Rdiv_lt_0_compat; lra. }
  pose proof (view_comp (fun _ => unit_gauge u) (fun _ => unit_gauge v) t (Units u t) (Units v (Units u t))
    ltac:(intros; apply unit_ok; exact Hu) ltac:(intros; apply unit_ok; exact Hv) (C29_units t u Hu H1 H2) (C29_units (Units u t) v Hv H3 H4)) as H. cbv beta in H.
  unfold eos_eq. replace (mkG 1 1 1 1 0) with (g_comp (unit_gauge u) (unit_gauge v)); [exact H|].
  unfold g_comp, unit_gauge, v; cbn. f_equal; field; lra.
Qed.
(** thermodynamic consistency and FillEos correctness survive any change of units *)
Theorem C29_units_consistent : forall (t : EOS) u rho l, Units_check u = true -> tiny <= u_rho u -> tiny <= u_sie u -> rho <> 0 ->
  let o := Units u t in let R := rho * u_rho u in
  (forall T, roundtrip_T t R (T * u_temp u) l -> roundtrip_T o rho T l) /\
  (forall e, is_gruneisen (fun r x => qP_e t r x l) R (e * u_sie u) (qG_e t R (e * u_sie u) l) ->
     is_gruneisen (fun r x => qP_e o r x l) rho e (qG_e o rho e l)) /\
  (forall e, is_bulk_modulus (fun r x => qP_e t r x l) R (e * u_sie u) (qB_e t R (e * u_sie u) l) ->
     is_bulk_modulus (fun r x => qP_e o r x l) rho e (qB_e o rho e l)) /\
  (forall T, is_specific_heat (fun r x => qE_T t r x l) R (T * u_temp u) (qC_T t R (T * u_temp u) l) ->
     is_specific_heat (fun r x => qE_T o r x l) rho T (qC_T o rho T l)) /\
  (forall T, T <> 0 ->
     first_law (fun r x => qS_T t r x l) (fun r x => qE_T t r x l) (fun r x => qP_T t r x l) R (T * u_temp u) ->
     first_law (fun r x => qS_T o r x l) (fun r x => qE_T o r x l) (fun r x => qP_T o r x l) rho T) /\
  (forall m f s s', qFill o f l s = Some s' ->
     (forall s0 s0', qFill t f l s0 = Some s0' -> s0 = in_state (unit_gauge u) s ->
       fill_ok (fun r x => qT_e t r x l) (fun r x => qP_e t r x l) (fun r x => qC_e t r x l) (fun r x => qB_e t r x l) m f s0 s0') ->
     fill_ok (fun r x => qT_e o r x l) (fun r x => qP_e o r x l) (fun r x => qC_e o r x l) (fun r x => qB_e o r x l) m f s s').
Proof.
  intros t u rho l Hu H1 H2 Hr o R.
  destruct (C29_units t u Hu H1 H2) as ((A1 & A2 & A3 & A4 & A5 & A6 & A7 & A8 & A9) & _ & _ & _ & AF & _).
  assert (OK : forall l : L, gauge_ok ((fun _ : L => unit_gauge u) l)) by (intros; apply unit_ok; exact Hu).
  assert (E1 : in_rho (unit_gauge u) rho = R) by (unfold R; vs; ring).
  assert (E2 : forall T, in_T (unit_gauge u) T = T * u_temp u) by (intros; vs; ring).
  assert (E3 : forall e, in_e (unit_gauge u) e = e * u_sie u) by (intros; vs; ring).
  refine (conj _ (conj _ (conj _ (conj _ (conj _ _))))).
  - intros T H. apply (view_roundtrip (fun _ => unit_gauge u) t o OK A1 A2). rewrite E1, E2. exact H.
  - intros e H. apply (view_gruneisen (fun _ => unit_gauge u) t o OK A3). change (qG_e o rho e l) with (qG_e t R (e * u_sie u) l). rewrite E1, E3. exact H.
  - intros e H. rewrite (proj2 (A8 rho e l) : qB_e o rho e l = _). apply (view_bulk (fun _ => unit_gauge u) t o OK A3); [exact Hr|]. rewrite E1, E3. exact H.
  - intros T H. rewrite (proj1 (A7 rho T l) : qC_T o rho T l = _). apply (view_cv (fun _ => unit_gauge u) t o OK A2). rewrite E1, E2. exact H.
  - intros T HT H. apply (view_first_law (fun _ => unit_gauge u) t o OK A6 A2 A4 rho T l Hr HT). rewrite E1, E2. exact H.
  - intros m f s s' Hs Hin. apply (view_fill_ok (fun _ => unit_gauge u) t o OK AF A1 A3 A7 A8 m f l s s' Hin Hs).
Qed.
(** the length/time/mass constructor: with [lu], [mu], [tu] user units per cm, g, s (the convention of the comment at
    eos_unitsystem.hpp:84-87), densities, specific energies and pressures convert to cgs *)
Theorem C29_length_time_units : forall tu mu lu ku m len tau, 0 < tu -> 0 < mu -> 0 < lu -> 0 < len -> 0 < tau ->
  let u := length_time_units tu mu lu ku in
  (mu * m) / (lu * len) ^ 3 * u_rho u = m / len ^ 3 /\
  ((lu * len) / (tu * tau)) ^ 2 * u_sie u = (len / tau) ^ 2 /\
  (mu * m) / ((lu * len) * (tu * tau) ^ 2) * u_press u = m / (len * tau ^ 2) /\ u_temp u = ku.
Proof. intros. unfold u, u_press; cbn. repeat split; field; repeat split; lra. Qed.
End Props.

(** Refuted: FillEos through UnitSystem does not leave its inputs untouched: in binary64 multiplying by the unit and then by
    its stored inverse (eos_unitsystem.hpp:243-255, 71) changes the caller's density *)
Theorem C60_units_fill_input_changed_in_binary64_refuted : exists rho unit : PrimFloat.float,
  PrimFloat.eqb (PrimFloat.mul (PrimFloat.mul rho unit) (PrimFloat.div PrimFloat.one unit)) rho = false.
Proof. exists 3%float, 49%float. vm_compute. reflexivity. Qed.
Print Assumptions C27_shifted_queries.
Print Assumptions C27_shifted_consistent.
Print Assumptions C27_shifts_compose.
Print Assumptions C60_shifted_fill_refuted.
Print Assumptions C27_shifted_fill_rho_sie.
Print Assumptions C28_scaled_queries.
Print Assumptions C28_scaled_consistent.
Print Assumptions C28_scaled_density_free_energy.
Print Assumptions C60_scaled_wrong_queries_refuted.
Print Assumptions C60_scaled_fill_refuted.
Print Assumptions C29_units.
Print Assumptions C29_units_inverse.
Print Assumptions C29_units_consistent.
Print Assumptions C29_length_time_units.
Print Assumptions C60_units_fill_input_changed_in_binary64_refuted.
