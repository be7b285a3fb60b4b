(** Generic theory of "the same EOS seen through a change of variables" (Mods_Spec.is_view): it is a groupoid, and
    thermodynamic consistency and FillEos correctness are inherited.  Used for C27-C31. *)
From Coq Require Import Reals Bool Lra.
From Coquelicot Require Import Coquelicot.
From Verif Require Import Thermo_Spec Thermo_Tools Mods_Spec.
Local Open Scope R_scope.

Ltac gu := unfold in_rho, out_rho, in_e, out_e, in_T, out_T, in_P, out_P, in_c, out_c in *.
Lemma gauge_p_ne g : gauge_ok g -> g_p g <> 0.
Proof. intros (Hr & Hk & _ & ->). apply Rmult_integral_contrapositive_currified; assumption. Qed.
Lemma out_in_rho g x : gauge_ok g -> out_rho g (in_rho g x) = x.
Proof. intros (Hr & _). gu. field. exact Hr. Qed.
Lemma in_out_rho g x : gauge_ok g -> in_rho g (out_rho g x) = x.
Proof. intros (Hr & _). gu. field. exact Hr. Qed.
Lemma out_in_e g x : gauge_ok g -> out_e g (in_e g x) = x.
Proof. intros (_ & Hk & _). gu. field. exact Hk. Qed.
Lemma in_out_e g x : gauge_ok g -> in_e g (out_e g x) = x.
Proof. intros (_ & Hk & _). gu. field. exact Hk. Qed.
Lemma out_in_T g x : gauge_ok g -> out_T g (in_T g x) = x.
Proof. intros (_ & _ & Ht & _). gu. field. exact Ht. Qed.
Lemma in_out_T g x : gauge_ok g -> in_T g (out_T g x) = x.
Proof. intros (_ & _ & Ht & _). gu. field. exact Ht. Qed.
Lemma out_in_P g x : gauge_ok g -> out_P g (in_P g x) = x.
Proof. intros H. pose proof (gauge_p_ne _ H). gu. field. assumption. Qed.
Lemma in_out_P g x : gauge_ok g -> in_P g (out_P g x) = x.
Proof. intros H. pose proof (gauge_p_ne _ H). gu. field. assumption. Qed.
Lemma out_in_c g x : gauge_ok g -> out_c g (in_c g x) = x.
Proof. intros (_ & Hk & Ht & _). gu. field. auto. Qed.
Lemma in_out_c g x : gauge_ok g -> in_c g (out_c g x) = x.
Proof. intros (_ & Hk & Ht & _). gu. field. auto. Qed.

(** ** round trips *)
Section Inherit.
Context {L : Type}.
Variable g : L -> gauge.
Variables i o : EOS L.
Hypothesis Hok : forall l, gauge_ok (g l).

Lemma view_roundtrip : view_T_e g i o -> view_E_T g i o -> forall rho T l,
  roundtrip_T i (in_rho (g l) rho) (in_T (g l) T) l -> roundtrip_T o rho T l.
Proof.
  intros HT HE rho T l H. unfold roundtrip_T in *. rewrite HT, HE, in_out_e by auto. rewrite H. apply out_in_T; auto.
Qed.
Lemma view_agree : view_P_e g i o -> view_P_T g i o -> view_E_T g i o -> forall rho T l,
  agree_P i (in_rho (g l) rho) (in_T (g l) T) l -> agree_P o rho T l.
Proof.
  intros HP HPT HE rho T l H. unfold agree_P in *. rewrite HP, HE, HPT, in_out_e by auto. rewrite H. reflexivity.
Qed.

(** scaling a derivative: d/dx [a * f (b * x + c) + d] *)
Lemma derive_affine (f h : R -> R) (a b c d x f' : R) :
  (forall y, h y = a * f (b * y + c) + d) -> is_derive f (b * x + c) f' -> is_derive h x (a * (b * f')).
Proof.
  intros Hh Hf. apply (is_derive_ext (V := R_NormedModule) (fun y => a * f (b * y + c) + d)).
  - intros y. symmetry. apply Hh.
  - assert (H1 : is_derive (fun y => b * y + c) x b) by (auto_derive; [exact I|ring]).
    pose proof (is_derive_comp (V := R_NormedModule) f (fun y => b * y + c) x f' b Hf H1) as H2.
    assert (H3 : is_derive (fun y => a * f (b * y + c)) x (a * (b * f'))).
    { pose proof (is_derive_scal (fun y => f (b * y + c)) x a _ H2) as H3. exact H3. }
    pose proof (is_derive_plus (V := R_NormedModule) (fun y => a * f (b * y + c)) (fun _ => d) x _ 0 H3
                  (is_derive_const (V := R_NormedModule) d x)) as H4.
    eapply is_derive_eq; [exact H4|]. unfold plus. cbn. ring.
Qed.

Lemma view_gruneisen : view_P_e g i o -> forall rho e l G,
  is_gruneisen (fun r x => qP_e i r x l) (in_rho (g l) rho) (in_e (g l) e) G -> is_gruneisen (fun r x => qP_e o r x l) rho e G.
Proof.
  intros HP rho e l G H. unfold is_gruneisen in *. pose proof (Hok l) as (Hr & Hk & Ht & Hp).
  eapply is_derive_eq.
  - apply (derive_affine (fun x => qP_e i (in_rho (g l) rho) x l) _ (/ g_p (g l)) (g_k (g l)) (- g_k (g l) * g_sh (g l)) 0 e).
    + intros y. rewrite HP. unfold out_P, Rdiv. rewrite Rplus_0_r, Rmult_comm. do 2 f_equal. gu. ring.
    + replace (g_k (g l) * e + - g_k (g l) * g_sh (g l)) with (in_e (g l) e) by (gu; ring). exact H.
  - unfold in_rho. rewrite Hp. field. auto.
Qed.

Lemma view_bulk : view_P_e g i o -> forall rho e l B, rho <> 0 ->
  is_bulk_modulus (fun r x => qP_e i r x l) (in_rho (g l) rho) (in_e (g l) e) B ->
  is_bulk_modulus (fun r x => qP_e o r x l) rho e (out_P (g l) B).
Proof.
  intros HP rho e l B Hrho (dPdr & dPde & H1 & H2 & HB). pose proof (Hok l) as (Hr & Hk & Ht & Hp).
  exists (/ g_p (g l) * (g_r (g l) * dPdr)), (/ g_p (g l) * (g_k (g l) * dPde)). refine (conj _ (conj _ _)).
  - apply (derive_affine (fun r => qP_e i r (in_e (g l) e) l) _ (/ g_p (g l)) (g_r (g l)) 0 0 rho).
    + intros y. rewrite HP. unfold out_P, Rdiv. rewrite !Rplus_0_r, Rmult_comm. reflexivity.
    + rewrite Rplus_0_r. exact H1.
  - apply (derive_affine (fun x => qP_e i (in_rho (g l) rho) x l) _ (/ g_p (g l)) (g_k (g l)) (- g_k (g l) * g_sh (g l)) 0 e).
    + intros y. rewrite HP. unfold out_P, Rdiv. rewrite Rplus_0_r, Rmult_comm. do 2 f_equal. gu. ring.
    + replace (g_k (g l) * e + - g_k (g l) * g_sh (g l)) with (in_e (g l) e) by (gu; ring). exact H2.
  - rewrite HB, HP. gu. rewrite Hp. field. auto.
Qed.

Lemma view_cv : view_E_T g i o -> forall rho T l c,
  is_specific_heat (fun r x => qE_T i r x l) (in_rho (g l) rho) (in_T (g l) T) c ->
  is_specific_heat (fun r x => qE_T o r x l) rho T (out_c (g l) c).
Proof.
  intros HE rho T l c H. unfold is_specific_heat in *. pose proof (Hok l) as (Hr & Hk & Ht & Hp). eapply is_derive_eq.
  - apply (derive_affine (fun x => qE_T i (in_rho (g l) rho) x l) _ (/ g_k (g l)) (g_t (g l)) 0 (g_sh (g l)) T).
    + intros y. rewrite HE. gu. rewrite Rplus_0_r. unfold Rdiv. ring.
    + rewrite Rplus_0_r. exact H.
  - gu. field. auto.
Qed.

Lemma view_first_law : view_S g i o -> view_E_T g i o -> view_P_T g i o -> forall rho T l, rho <> 0 -> T <> 0 ->
  first_law (fun r x => qS_T i r x l) (fun r x => qE_T i r x l) (fun r x => qP_T i r x l) (in_rho (g l) rho) (in_T (g l) T) ->
  first_law (fun r x => qS_T o r x l) (fun r x => qE_T o r x l) (fun r x => qP_T o r x l) rho T.
Proof.
  intros HS HE HP rho T l Hrho HT (dT & dr & H1 & H2 & H3 & H4). pose proof (Hok l) as (Hr & Hk & Ht & Hp).
  exists (/ g_k (g l) * (g_t (g l) * dT)), (/ g_k (g l) * (g_r (g l) * dr)). refine (conj _ (conj _ (conj _ _))).
  - apply (derive_affine (fun x => qE_T i (in_rho (g l) rho) x l) _ (/ g_k (g l)) (g_t (g l)) 0 (g_sh (g l)) T).
    + intros y. rewrite HE. gu. rewrite Rplus_0_r. unfold Rdiv. ring.
    + rewrite Rplus_0_r. exact H1.
  - apply (derive_affine (fun r => qE_T i r (in_T (g l) T) l) _ (/ g_k (g l)) (g_r (g l)) 0 (g_sh (g l)) rho).
    + intros y. rewrite HE. gu. rewrite Rplus_0_r. unfold Rdiv. ring.
    + rewrite Rplus_0_r. exact H2.
  - eapply is_derive_eq.
    + apply (derive_affine (fun x => qS_T i (in_rho (g l) rho) x l) _ (g_t (g l) / g_k (g l)) (g_t (g l)) 0 0 T).
      * intros y. destruct (HS rho y l) as [-> _]. gu. rewrite !Rplus_0_r. unfold Rdiv. ring.
      * rewrite Rplus_0_r. exact H3.
    + gu. field. auto.
  - eapply is_derive_eq.
    + apply (derive_affine (fun r => qS_T i r (in_T (g l) T) l) _ (g_t (g l) / g_k (g l)) (g_r (g l)) 0 0 rho).
      * intros y. destruct (HS y T l) as [-> _]. gu. rewrite !Rplus_0_r. unfold Rdiv. ring.
      * rewrite Rplus_0_r. exact H4.
    + rewrite HP. gu. rewrite Hp. field. auto.
Qed.

(** derivatives at constant P and T, for inversions that ignore their guesses *)
Lemma view_ptd : view_DE g i o -> view_PTD g i o -> guess_free i -> forall rho e P T l x x',
  (let d := qPTD i (in_rho (g l) rho) (in_e (g l) e) (in_P (g l) P) (in_T (g l) T) l in
   is_PT_derivatives (fun p t => fst (qDE i p t l x)) (fun p t => snd (qDE i p t l x)) (in_P (g l) P) (in_T (g l) T)
     (d_rdP d) (d_edP d) (d_rdT d) (d_edT d)) ->
  let d := qPTD o rho e P T l in
  is_PT_derivatives (fun p t => fst (qDE o p t l x')) (fun p t => snd (qDE o p t l x')) P T (d_rdP d) (d_edP d) (d_rdT d) (d_edT d).
Proof.
  intros HD HPTD Hgf rho e P T l x [x1 x2]. cbv zeta. intros (H1 & H2 & H3 & H4). rewrite HPTD.
  cbn [d_rdP d_edP d_rdT d_edT]. pose proof (Hok l) as (Hr & Hk & Ht & Hp). pose proof (gauge_p_ne _ (Hok l)) as Hpn.
  refine (conj _ (conj _ (conj _ _))).
  - eapply is_derive_eq.
    + apply (derive_affine (fun p => fst (qDE i p (in_T (g l) T) l x)) _ (/ g_r (g l)) (g_p (g l)) 0 0 P).
      * intros y. rewrite HD. cbn [fst]. rewrite (Hgf _ _ l _ x). gu. rewrite !Rplus_0_r. unfold Rdiv. ring.
      * rewrite Rplus_0_r. exact H1.
    + field. auto.
  - eapply is_derive_eq.
    + apply (derive_affine (fun p => snd (qDE i p (in_T (g l) T) l x)) _ (/ g_k (g l)) (g_p (g l)) 0 (g_sh (g l)) P).
      * intros y. rewrite HD. cbn [snd]. rewrite (Hgf _ _ l _ x). gu. rewrite !Rplus_0_r. unfold Rdiv. ring.
      * rewrite Rplus_0_r. exact H2.
    + field. auto.
  - eapply is_derive_eq.
    + apply (derive_affine (fun t => fst (qDE i (in_P (g l) P) t l x)) _ (/ g_r (g l)) (g_t (g l)) 0 0 T).
      * intros y. rewrite HD. cbn [fst]. rewrite (Hgf _ _ l _ x). gu. rewrite !Rplus_0_r. unfold Rdiv. ring.
      * rewrite Rplus_0_r. exact H3.
    + field. auto.
  - eapply is_derive_eq.
    + apply (derive_affine (fun t => snd (qDE i (in_P (g l) P) t l x)) _ (/ g_k (g l)) (g_t (g l)) 0 (g_sh (g l)) T).
      * intros y. rewrite HD. cbn [snd]. rewrite (Hgf _ _ l _ x). gu. rewrite !Rplus_0_r. unfold Rdiv. ring.
      * rewrite Rplus_0_r. exact H4.
    + field. auto.
Qed.

(** FillEos correctness is inherited *)
Lemma view_fill_ok : view_Fill g i o -> view_T_e g i o -> view_P_e g i o -> view_C g i o -> view_B g i o ->
  forall m f l s s',
  (forall s0 s0', qFill i f l s0 = Some s0' -> s0 = in_state (g l) s ->
     fill_ok (fun r x => qT_e i r x l) (fun r x => qP_e i r x l) (fun r x => qC_e i r x l) (fun r x => qB_e i r x l) m f s0 s0') ->
  qFill o f l s = Some s' ->
  fill_ok (fun r x => qT_e o r x l) (fun r x => qP_e o r x l) (fun r x => qC_e o r x l) (fun r x => qB_e o r x l) m f s s'.
Proof.
  intros HF HT HP HC HB m f l s s' Hin Hs. rewrite HF in Hs. destruct (qFill i f l (in_state (g l) s)) as [t|] eqn:E; [|discriminate].
  cbn in Hs. injection Hs as <-. specialize (Hin _ _ E eq_refl). destruct Hin as [(Fr & Ft & Fe & Fp & Fc & Fb) V].
  pose proof (Hok l) as G.
  unfold fill_values in V. cbv zeta in V. destruct V as (Vp & Vt & Vc & Vb & Vm).
  split.
  - unfold in_state in *; cbn [s_rho s_temp s_sie s_press s_cv s_bmod] in *. repeat split; intros Hf; unfold out_state; cbn.
    + rewrite Fr by exact Hf. apply out_in_rho; auto.
    + rewrite Ft by exact Hf. apply out_in_T; auto.
    + rewrite Fe by exact Hf. apply out_in_e; auto.
    + rewrite Fp by exact Hf. apply out_in_P; auto.
    + rewrite Fc by exact Hf. apply out_in_c; auto.
    + rewrite Fb by exact Hf. apply out_in_P; auto.
  - unfold fill_values. cbv zeta. unfold out_state; cbn [s_rho s_temp s_sie s_press s_cv s_bmod].
    rewrite HP, HT. destruct (HC (out_rho (g l) (s_rho t)) (out_e (g l) (s_sie t)) l) as [_ ->].
    destruct (HB (out_rho (g l) (s_rho t)) (out_e (g l) (s_sie t)) l) as [_ ->].
    rewrite !in_out_rho, !in_out_e by auto.
    repeat (split; [intros Hf; f_equal; auto|]).
    destruct m; unfold in_state in Vm; cbn [s_rho s_temp s_sie s_press] in Vm.
    + exact I.
    + rewrite Vm. apply out_in_T; auto.
    + destruct Vm as [-> ->]. split; [apply out_in_P|apply out_in_T]; auto.
    + rewrite Vm. apply out_in_P; auto.
Qed.
End Inherit.

(** ** composition *)
(** user -> (g2) -> middle -> (g1) -> inner *)
Definition g_comp (g1 g2 : gauge) : gauge :=
  mkG (g_r g1 * g_r g2) (g_k g1 * g_k g2) (g_t g1 * g_t g2) (g_p g1 * g_p g2) (g_sh g2 + g_sh g1 / g_k g2).
Lemma g_comp_ok g1 g2 : gauge_ok g1 -> gauge_ok g2 -> gauge_ok (g_comp g1 g2).
Proof.
  intros (a & b & c & d) (a' & b' & c' & d'). unfold gauge_ok, g_comp; cbn.
  repeat split; try (apply Rmult_integral_contrapositive_currified; assumption). rewrite d, d'. ring.
Qed.
Section Comp.
Context {L : Type}.
Variables g1 g2 : L -> gauge.
Variables a b c : EOS L.
Hypothesis H1 : forall l, gauge_ok (g1 l).
Hypothesis H2 : forall l, gauge_ok (g2 l).
Let gg l := g_comp (g1 l) (g2 l).
Ltac go l := pose proof (H1 l) as (? & ? & ? & ?); pose proof (H2 l) as (? & ? & ? & ?);
  pose proof (gauge_p_ne _ (H1 l)); pose proof (gauge_p_ne _ (H2 l)).
Lemma c_in_rho l x : in_rho (gg l) x = in_rho (g1 l) (in_rho (g2 l) x).
Proof. unfold in_rho, gg, g_comp; cbn. ring. Qed.
Lemma c_out_rho l x : out_rho (gg l) x = out_rho (g2 l) (out_rho (g1 l) x).
Proof. go l. unfold out_rho, gg, g_comp; cbn. field. auto. Qed.
Lemma c_in_e l x : in_e (gg l) x = in_e (g1 l) (in_e (g2 l) x).
Proof. go l. unfold in_e, gg, g_comp; cbn. field. auto. Qed.
Lemma c_out_e l x : out_e (gg l) x = out_e (g2 l) (out_e (g1 l) x).
Proof. go l. unfold out_e, gg, g_comp; cbn. field. auto. Qed.
Lemma c_in_T l x : in_T (gg l) x = in_T (g1 l) (in_T (g2 l) x).
Proof. unfold in_T, gg, g_comp; cbn. ring. Qed.
Lemma c_out_T l x : out_T (gg l) x = out_T (g2 l) (out_T (g1 l) x).
Proof. go l. unfold out_T, gg, g_comp; cbn. field. auto. Qed.
Lemma c_in_P l x : in_P (gg l) x = in_P (g1 l) (in_P (g2 l) x).
Proof. unfold in_P, gg, g_comp; cbn. ring. Qed.
Lemma c_out_P l x : out_P (gg l) x = out_P (g2 l) (out_P (g1 l) x).
Proof. go l. unfold out_P, gg, g_comp; cbn. field. auto. Qed.
Lemma c_in_c l x : in_c (gg l) x = in_c (g1 l) (in_c (g2 l) x).
Proof. go l. unfold in_c, gg, g_comp; cbn. field. auto. Qed.
Lemma c_out_c l x : out_c (gg l) x = out_c (g2 l) (out_c (g1 l) x).
Proof. go l. unfold out_c, gg, g_comp; cbn. field. auto. Qed.
Ltac rw := rewrite ?c_in_rho, ?c_in_e, ?c_in_T, ?c_in_P, ?c_in_c, ?c_out_rho, ?c_out_e, ?c_out_T, ?c_out_P, ?c_out_c.

Lemma view_comp_values : view_values g1 a b -> view_values g2 b c -> view_values gg a c.
Proof.
  intros (A1 & A2 & A3 & A4 & A5 & A6 & A7 & A8 & A9) (B1 & B2 & B3 & B4 & B5 & B6 & B7 & B8 & B9).
  refine (conj _ (conj _ (conj _ (conj _ (conj _ (conj _ (conj _ (conj _ _)))))))).
  - intros rho e l. rw. rewrite B1, A1. reflexivity.
  - intros rho e l. rw. rewrite B2, A2. reflexivity.
  - intros rho e l. rw. rewrite B3, A3. reflexivity.
  - intros rho e l. rw. rewrite B4, A4. reflexivity.
  - intros rho l. rw. rewrite B5, A5. reflexivity.
  - intros rho x l. rw. split; [rewrite (proj1 (B6 _ _ _)), (proj1 (A6 _ _ _))|rewrite (proj2 (B6 _ _ _)), (proj2 (A6 _ _ _))]; reflexivity.
  - intros rho x l. rw. split; [rewrite (proj1 (B7 _ _ _)), (proj1 (A7 _ _ _))|rewrite (proj2 (B7 _ _ _)), (proj2 (A7 _ _ _))]; reflexivity.
  - intros rho x l. rw. split; [rewrite (proj1 (B8 _ _ _)), (proj1 (A8 _ _ _))|rewrite (proj2 (B8 _ _ _)), (proj2 (A8 _ _ _))]; reflexivity.
  - intros rho x l. rw. split; [rewrite (proj1 (B9 _ _ _)), (proj1 (A9 _ _ _))|rewrite (proj2 (B9 _ _ _)), (proj2 (A9 _ _ _))]; reflexivity.
Qed.
Lemma view_comp : is_view g1 a b -> is_view g2 b c -> is_view gg a c.
Proof.
  intros (A0 & A1 & A2 & A3 & A4 & A5 & A6) (B0 & B1 & B2 & B3 & B4 & B5 & B6).
  refine (conj (view_comp_values A0 B0) (conj _ (conj _ (conj _ (conj _ (conj _ _)))))).
  - intros rho P e l. rw. rewrite B1, A1. reflexivity.
  - intros P T l rho e. rw. rewrite B2, A2. reflexivity.
  - intros rho e P T l. cbv zeta. rw. rewrite B3. cbv zeta. rewrite A3. cbv zeta. cbn [d_edP d_rdP d_edT d_rdT].
    go l. unfold gg, g_comp; cbn. f_equal; field; auto.
  - intros f l s. rewrite B4, A4.
    replace (in_state (gg l) s) with (in_state (g1 l) (in_state (g2 l) s)) by (unfold in_state; cbn; rw; reflexivity).
    destruct (qFill a f l (in_state (g1 l) (in_state (g2 l) s))) as [t|]; [|reflexivity].
    cbn. f_equal. unfold out_state; cbn. rw. reflexivity.
  - intros l. rewrite B5, A5. cbn. rw. go l. unfold gg, g_comp; cbn. f_equal; field; auto.
  - intros l T. destruct (A6 l (in_T (g2 l) T)) as (P1 & P2 & P3 & P4 & P5 & P6). destruct (B6 l T) as (Q1 & Q2 & Q3 & Q4 & Q5 & Q6). rw.
    rewrite Q1, P1, Q2, P2, Q3, P3, Q4, P4, Q5, P5, Q6, P6. repeat split.
Qed.
End Comp.

(** ** inverse *)
Definition g_inv (g : gauge) : gauge := mkG (/ g_r g) (/ g_k g) (/ g_t g) (/ g_p g) (- g_k g * g_sh g).
Lemma g_inv_ok g : gauge_ok g -> gauge_ok (g_inv g).
Proof.
  intros (a & b & c & d). unfold gauge_ok, g_inv; cbn. repeat split; try (apply Rinv_neq_0_compat; assumption).
  rewrite d. field. auto.
Qed.
Section Inv.
Context {L : Type}.
Variable g : L -> gauge.
Variables a b : EOS L.
Hypothesis H1 : forall l, gauge_ok (g l).
Let gi l := g_inv (g l).
Ltac go l := pose proof (H1 l) as (? & ? & ? & ?); pose proof (gauge_p_ne _ (H1 l)).
Lemma i_in_rho l x : in_rho (gi l) x = out_rho (g l) x. Proof. unfold in_rho, out_rho, gi, g_inv; cbn. unfold Rdiv. ring. Qed.
Lemma i_out_rho l x : out_rho (gi l) x = in_rho (g l) x. Proof. go l. unfold in_rho, out_rho, gi, g_inv; cbn. field. auto. Qed.
Lemma i_in_e l x : in_e (gi l) x = out_e (g l) x. Proof. go l. unfold in_e, out_e, gi, g_inv; cbn. field. auto. Qed.
Lemma i_out_e l x : out_e (gi l) x = in_e (g l) x. Proof. go l. unfold in_e, out_e, gi, g_inv; cbn. field. auto. Qed.
Lemma i_in_T l x : in_T (gi l) x = out_T (g l) x. Proof. unfold in_T, out_T, gi, g_inv; cbn. unfold Rdiv. ring. Qed.
Lemma i_out_T l x : out_T (gi l) x = in_T (g l) x. Proof. go l. unfold in_T, out_T, gi, g_inv; cbn. field. auto. Qed.
Lemma i_in_P l x : in_P (gi l) x = out_P (g l) x. Proof. unfold in_P, out_P, gi, g_inv; cbn. unfold Rdiv. ring. Qed.
Lemma i_out_P l x : out_P (gi l) x = in_P (g l) x. Proof. go l. unfold in_P, out_P, gi, g_inv; cbn. field. auto. Qed.
Lemma i_in_c l x : in_c (gi l) x = out_c (g l) x. Proof. go l. unfold in_c, out_c, gi, g_inv; cbn. field. auto. Qed.
Lemma i_out_c l x : out_c (gi l) x = in_c (g l) x. Proof. go l. unfold in_c, out_c, gi, g_inv; cbn. field. auto. Qed.
Ltac rw := rewrite ?i_in_rho, ?i_in_e, ?i_in_T, ?i_in_P, ?i_in_c, ?i_out_rho, ?i_out_e, ?i_out_T, ?i_out_P, ?i_out_c.
Ltac un := rewrite ?in_out_rho, ?in_out_e, ?in_out_T, ?in_out_P, ?in_out_c by auto.
Lemma view_inv : is_view g a b -> is_view gi b a.
Proof.
  intros ((A1 & A2 & A3 & A4 & A5 & A6 & A7 & A8 & A9) & B1 & B2 & B3 & B4 & B5 & B6).
  refine (conj (conj _ (conj _ (conj _ (conj _ (conj _ (conj _ (conj _ (conj _ _)))))))) (conj _ (conj _ (conj _ (conj _ (conj _ _)))))).
  - intros rho e l. rw. rewrite A1. un. reflexivity.
  - intros rho e l. rw. rewrite A2. un. reflexivity.
  - intros rho e l. rw. rewrite A3. un. reflexivity.
  - intros rho e l. rw. rewrite A4. un. reflexivity.
  - intros rho l. rw. rewrite A5. un. reflexivity.
  - intros rho x l. rw. rewrite (proj1 (A6 _ _ _)), (proj2 (A6 _ _ _)). un. split; reflexivity.
  - intros rho x l. rw. rewrite (proj1 (A7 _ _ _)), (proj2 (A7 _ _ _)). un. split; reflexivity.
  - intros rho x l. rw. rewrite (proj1 (A8 _ _ _)), (proj2 (A8 _ _ _)). un. split; reflexivity.
  - intros rho x l. rw. rewrite (proj1 (A9 _ _ _)), (proj2 (A9 _ _ _)). un. split; reflexivity.
  - intros rho P e l. rw. rewrite B1. un. reflexivity.
  - intros P T l rho e. rw. rewrite B2. cbn [fst snd]. un. destruct (qDE a P T l (rho, e)); reflexivity.
  - intros rho e P T l. cbv zeta. rw. rewrite B3. cbv zeta. un. cbn [d_edP d_rdP d_edT d_rdT]. go l. unfold gi, g_inv; cbn.
    destruct (qPTD a rho e P T l) as [d1 d2 d3 d4]; cbn. f_equal; field; auto.
  - intros f l s. rewrite B4.
    replace (in_state (g l) (in_state (gi l) s)) with s by (destruct s; unfold in_state; cbn; rw; un; reflexivity).
    destruct (qFill a f l s) as [t|]; [|reflexivity]. cbn. f_equal. destruct t; unfold out_state; cbn. rw. un. reflexivity.
  - intros l. rewrite B5. cbn. rw. un. go l. destruct (qRef a l) as [x1 x2 x3 x4 x5 x6 x7 x8]; cbn. f_equal; unfold gi, g_inv; cbn; field; auto.
  - intros l T. destruct (B6 l (in_T (gi l) T)) as (P1 & P2 & P3 & P4 & P5 & P6). rw. rewrite P1, P2, P3, P4.
    rewrite i_in_T in P5, P6. rewrite P5, P6. un. repeat split.
Qed.
End Inv.

(** two EOS related to the same one by the same change of variables answer alike; in particular a change of variables
    followed by its inverse is the identity *)
Lemma g_comp_inv g : gauge_ok g -> g_comp g (g_inv g) = mkG 1 1 1 1 0.
Proof.
  intros H. pose proof (gauge_p_ne _ H). destruct H as (a & b & c & d). unfold g_comp, g_inv; cbn. f_equal; field; auto.
Qed.
