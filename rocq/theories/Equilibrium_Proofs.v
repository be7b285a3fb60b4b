(** Convexity of the free energy and what follows for mixtures (lemmas for C91) *)
From Coq Require Import Reals Lra Lia Psatz.
From Coquelicot Require Import Coquelicot.
From Verif Require Import Thermo_Spec Stability_Spec Equilibrium_Spec.
Local Open Scope R_scope.

(** ** sums *)
Lemma total_ext n f g : (forall m, (m < n)%nat -> f m = g m) -> total n f = total n g.
Proof. intros H. induction n as [|n IH]; [reflexivity|]. cbn. rewrite IH by auto. rewrite H by lia. reflexivity. Qed.
Lemma total_plus n f g : total n (fun m => f m + g m) = total n f + total n g.
Proof. induction n as [|n IH]; cbn; [ring|]. rewrite IH. ring. Qed.
Lemma total_minus n f g : total n (fun m => f m - g m) = total n f - total n g.
Proof. induction n as [|n IH]; cbn; [ring|]. rewrite IH. ring. Qed.
Lemma total_scal n c f : total n (fun m => c * f m) = c * total n f.
Proof. induction n as [|n IH]; cbn; [ring|]. rewrite IH. ring. Qed.
Lemma total_nonneg n f : (forall m, (m < n)%nat -> 0 <= f m) -> 0 <= total n f.
Proof. intros H. induction n as [|n IH]; cbn; [lra|]. specialize (IH ltac:(auto)). pose proof (H n ltac:(lia)). lra. Qed.
Lemma total_le n f g : (forall m, (m < n)%nat -> f m <= g m) -> total n f <= total n g.
Proof. intros H. induction n as [|n IH]; cbn; [lra|]. specialize (IH ltac:(auto)). pose proof (H n ltac:(lia)). lra. Qed.
Lemma total_zero n f : (forall m, (m < n)%nat -> 0 <= f m) -> total n f <= 0 -> forall m, (m < n)%nat -> f m = 0.
Proof.
  induction n as [|n IH]; intros H H0 m Hm; [lia|]. cbn in H0. pose proof (total_nonneg n f ltac:(auto)). pose proof (H n ltac:(lia)).
  destruct (Nat.eq_dec m n) as [->|Hne]; [lra|]. apply IH; [auto|lra|lia].
Qed.

(** ** one variable: a function whose derivative has the sign of (x - a) has its strict minimum at a *)
Lemma strict_min (f f' : R -> R) (a b : R) : a <> b -> (forall c, Rmin a b <= c <= Rmax a b -> is_derive f c (f' c)) ->
  (forall c, Rmin a b <= c <= Rmax a b -> c <> a -> 0 < f' c * (c - a)) -> f a < f b.
Proof.
  intros Hne HD HS. destruct (Rlt_dec a b) as [L|L].
  - rewrite Rmin_left, Rmax_right in HD, HS by lra.
    destruct (MVT_cor2 f f' a b L) as (c & E & Hc). { intros c Hc. apply is_derive_Reals, HD, Hc. }
    specialize (HS c ltac:(lra) ltac:(lra)).
    assert (0 < f' c). { destruct (Rle_dec (f' c) 0) as [n|n]; [|lra]. exfalso. assert (0 <= - f' c * (c - a)) by (apply Rmult_le_pos; lra). lra. }
    assert (0 < f' c * (b - a)) by (apply Rmult_lt_0_compat; lra). lra.
  - rewrite Rmin_right, Rmax_left in HD, HS by lra.
    destruct (MVT_cor2 f f' b a ltac:(lra)) as (c & E & Hc). { intros c Hc. apply is_derive_Reals, HD, Hc. }
    specialize (HS c ltac:(lra) ltac:(lra)).
    assert (f' c < 0). { destruct (Rle_dec 0 (f' c)) as [n|n]; [|lra]. exfalso. assert (0 <= f' c * (a - c)) by (apply Rmult_le_pos; lra). lra. }
    assert (0 < - f' c * (a - b)) by (apply Rmult_lt_0_compat; lra). lra.
Qed.
Lemma between_in (D : R -> Prop) a b c : positive_interval D -> D a -> D b -> Rmin a b <= c <= Rmax a b -> D c.
Proof.
  intros (_ & H) Ha Hb Hc. destruct (Rle_dec a b).
  - rewrite Rmin_left, Rmax_right in Hc by lra. apply (H a b); assumption.
  - rewrite Rmin_right, Rmax_left in Hc by lra. apply (H b a); try assumption.
Qed.
Lemma increasing_on (D : R -> Prop) (f : R -> R) : positive_interval D -> (forall x, D x -> exists d, is_derive f x d /\ 0 < d) ->
  forall a b, D a -> D b -> a < b -> f a < f b.
Proof.
  intros HI H a b Ha Hb L.
  assert (HD : forall c, a <= c <= b -> is_derive f c (Derive f c) /\ 0 < Derive f c).
  { intros c Hc. destruct (H c) as (d & H1 & H2). { apply (proj2 HI a b); assumption. } rewrite (is_derive_unique f c d H1). split; assumption. }
  destruct (MVT_cor2 f (Derive f) a b L) as (c & E & Hc). { intros c Hc. apply is_derive_Reals, HD, Hc. }
  pose proof (proj2 (HD c ltac:(lra))). assert (0 < Derive f c * (b - a)) by (apply Rmult_lt_0_compat; lra). lra.
Qed.

Section Material.
Variables P E : R -> R -> R.
Variables D DT : R -> Prop.
Hypothesis W : well_behaved P E D DT.
Lemma P_up T a b : DT T -> D a -> D b -> a < b -> P a T < P b T.
Proof.
  intros HT Ha Hb L. destruct W as (WD & WT & _ & _ & WP). apply (increasing_on D (fun r => P r T) WD); try assumption.
  intros x Hx. destruct (WP x T Hx HT) as (K & (d & H1 & ->) & H2). exists d. split; [exact H1|].
  pose proof (proj1 WD x Hx). destruct (Rle_dec d 0); [|lra]. exfalso. assert (0 <= x * - d) by (apply Rmult_le_pos; lra). lra.
Qed.
Lemma E_up rho a b : D rho -> DT a -> DT b -> a < b -> E rho a < E rho b.
Proof.
  intros Hr Ha Hb L. destruct W as (WD & WT & _ & WC & _). apply (increasing_on DT (fun t => E rho t) WT); try assumption.
  intros x Hx. exact (WC rho x Hr Hx).
Qed.
(** the Helmholtz energy divided by temperature *)
Variable S : R -> R -> R.
Hypothesis FL : forall rho T, D rho -> DT T -> first_law S E P rho T.
Definition phi (rho T : R) : R := E rho T / T - S rho T.
(** convex in specific volume *)
Lemma phi_volume T a b : DT T -> D a -> D b -> a <> b -> - (P a T / T) * (1 / b - 1 / a) < phi b T - phi a T.
Proof.
  intros HT Ha Hb Hne. destruct W as (WD & WT & _). pose proof (proj1 WT T HT) as T0. pose proof (proj1 WD a Ha) as A0. pose proof (proj1 WD b Hb) as B0.
  assert (M := strict_min (fun r => phi r T + P a T / T * (1 / r)) (fun r => (P r T - P a T) / (T * (r * r))) a b Hne).
  cbv beta in M. enough (phi a T + P a T / T * (1 / a) < phi b T + P a T / T * (1 / b)) by lra. apply M; clear M.
  - intros c Hc. pose proof (between_in D a b c WD Ha Hb Hc) as Dc. pose proof (proj1 WD c Dc) as C0.
    destruct (FL c T Dc HT) as (dT & dr & _ & H2 & _ & H4). unfold phi.
    eapply is_derive_eq; [apply (is_derive_plus (V := R_NormedModule)); [apply (is_derive_minus (V := R_NormedModule)); [|exact H4]|]|].
    + apply (is_derive_ext (fun r => / T * E r T)); [intros t; unfold Rdiv; apply Rmult_comm|]. apply (is_derive_scal (fun r => E r T) c (/ T) dr). exact H2.
    + auto_derive; [lra|reflexivity].
    + unfold plus, minus, opp; cbn. unfold plus, opp; cbn. field. lra.
  - intros c Hc Hca. pose proof (between_in D a b c WD Ha Hb Hc) as Dc. pose proof (proj1 WD c Dc) as C0.
    replace ((P c T - P a T) / (T * (c * c)) * (c - a)) with ((P c T - P a T) * (c - a) / (T * (c * c))) by (field; lra).
    apply Rdiv_lt_0_compat; [|repeat apply Rmult_lt_0_compat; lra].
    destruct (Rlt_dec a c) as [L|L].
    + pose proof (P_up T a c HT Ha Dc L). apply Rmult_lt_0_compat; lra.
    + pose proof (P_up T c a HT Dc Ha ltac:(lra)). replace ((P c T - P a T) * (c - a)) with ((P a T - P c T) * (a - c)) by ring. apply Rmult_lt_0_compat; lra.
Qed.
(** concave in inverse temperature *)
Lemma phi_temperature rho a b : D rho -> DT a -> DT b -> a <> b -> phi rho b - phi rho a < E rho a * (1 / b - 1 / a).
Proof.
  intros Hr Ha Hb Hne. destruct W as (WD & WT & _). pose proof (proj1 WT a Ha) as A0. pose proof (proj1 WT b Hb) as B0.
  assert (M := strict_min (fun t => E rho a * (1 / t) - phi rho t) (fun t => (E rho t - E rho a) / (t * t)) a b Hne).
  cbv beta in M. enough (E rho a * (1 / a) - phi rho a < E rho a * (1 / b) - phi rho b) by lra. apply M; clear M.
  - intros c Hc. pose proof (between_in DT a b c WT Ha Hb Hc) as Dc. pose proof (proj1 WT c Dc) as C0.
    destruct (FL rho c Hr Dc) as (dT & dr & H1 & _ & H3 & _). unfold phi.
    eapply is_derive_eq; [apply (is_derive_minus (V := R_NormedModule)); [|apply (is_derive_minus (V := R_NormedModule)); [|exact H3]]|].
    + auto_derive; [lra|reflexivity].
    + apply (is_derive_div (fun t => E rho t) (fun t => t) c dT 1); [exact H1|apply (is_derive_id (K := R_AbsRing))|lra].
    + unfold plus, minus, opp; cbn. unfold plus, opp; cbn. field. lra.
  - intros c Hc Hca. pose proof (between_in DT a b c WT Ha Hb Hc) as Dc. pose proof (proj1 WT c Dc) as C0.
    replace ((E rho c - E rho a) / (c * c) * (c - a)) with ((E rho c - E rho a) * (c - a) / (c * c)) by (field; lra).
    apply Rdiv_lt_0_compat; [|apply Rmult_lt_0_compat; lra].
    destruct (Rlt_dec a c) as [L|L].
    + pose proof (E_up rho a c Hr Ha Dc L). apply Rmult_lt_0_compat; lra.
    + pose proof (E_up rho c a Hr Dc Ha ltac:(lra)). replace ((E rho c - E rho a) * (c - a)) with ((E rho a - E rho c) * (a - c)) by ring. apply Rmult_lt_0_compat; lra.
Qed.
End Material.

Lemma gap_pos P E D DT rho T rho' T' : well_behaved P E D DT -> D rho -> DT T -> D rho' -> DT T' -> rho <> rho' \/ T <> T' -> 0 < gap P E rho T rho' T'.
Proof.
  intros W Hr HT Hr' HT' Hne. destruct W as (WD & WT & (S & FL) & WC & WP).
  assert (W : well_behaved P E D DT) by (refine (conj WD (conj WT (conj (ex_intro _ S FL) (conj WC WP))))).
  unfold gap. destruct (Req_dec rho rho') as [<-|Nr].
  - assert (NT : T <> T') by tauto.
    pose proof (phi_temperature P E D DT W S FL rho T T' Hr HT HT' NT). pose proof (phi_temperature P E D DT W S FL rho T' T Hr HT' HT ltac:(auto)). lra.
  - pose proof (phi_volume P E D DT W S FL T rho rho' HT Hr Hr' Nr) as V1. pose proof (phi_volume P E D DT W S FL T' rho' rho HT' Hr' Hr ltac:(auto)) as V2.
    destruct (Req_dec T T') as [<-|NT].
    + replace (1 / T - 1 / T) with 0 by ring. lra.
    + pose proof (phi_temperature P E D DT W S FL rho T T' Hr HT HT' NT). pose proof (phi_temperature P E D DT W S FL rho' T' T Hr' HT' HT ltac:(auto)). lra.
Qed.
Lemma gap_same P E rho T : gap P E rho T rho T = 0.
Proof. unfold gap. ring. Qed.

(** ** mixtures *)
Section Mixture.
Variable n : nat.
Variables P E : nat -> R -> R -> R.
Variable mass : nat -> R.
Variables rho rho' : nat -> R.
Variables T T' p p' : R.
Notation dv m := (1 / rho' m - 1 / rho m).
Notation de m := (E m (rho' m) T' - E m (rho m) T).
Lemma gap_sum :
  total n (fun m => mass m * gap (P m) (E m) (rho m) T (rho' m) T') =
  (1 / T - 1 / T') * (total n (fun m => mass m * E m (rho' m) T') - total n (fun m => mass m * E m (rho m) T)) +
  (p / T - p' / T') * (total n (fun m => mass m / rho' m) - total n (fun m => mass m / rho m)) +
  total n (fun m => ((P m (rho m) T - p) / T - (P m (rho' m) T' - p') / T') * (mass m * dv m)).
Proof.
  rewrite <- !total_minus, <- !total_scal, <- !total_plus. apply total_ext. intros m Hm. unfold gap. unfold Rdiv. ring.
Qed.
End Mixture.
Lemma near_agree n P E mass V U dp dv du rho T p dp' dv' du' rho' T' p' :
  (forall m, (m < n)%nat -> 0 < mass m /\ 0 < rho m /\ 0 < rho' m) -> 0 < T -> 0 < T' -> 0 <= dp -> 0 <= dp' ->
  near_equilibrium n P E mass V U dp dv du rho T p -> near_equilibrium n P E mass V U dp' dv' du' rho' T' p' ->
  total n (fun m => mass m * gap (P m) (E m) (rho m) T (rho' m) T') <=
    Rabs (1 / T - 1 / T') * (du + du') + Rabs (p / T - p' / T') * (dv + dv') + (dp / T + dp' / T') * (2 * V + dv + dv').
Proof.
  intros HM HT HT' Hp Hp' (H1 & H2 & H3) (H1' & H2' & H3'). rewrite (gap_sum n P E mass rho rho' T T' p p').
  set (EU := total n (fun m => mass m * E m (rho m) T)) in *. set (EU' := total n (fun m => mass m * E m (rho' m) T')) in *.
  set (VV := total n (fun m => mass m / rho m)) in *. set (VV' := total n (fun m => mass m / rho' m)) in *.
  assert (A1 : (1 / T - 1 / T') * (EU' - EU) <= Rabs (1 / T - 1 / T') * (du + du')).
  { eapply Rle_trans; [apply Rle_abs|]. rewrite Rabs_mult. apply Rmult_le_compat_l; [apply Rabs_pos|].
    replace (EU' - EU) with ((EU' - U) - (EU - U)) by ring. eapply Rle_trans; [apply Rabs_triang|]. rewrite Rabs_Ropp. lra. }
  assert (A2 : (p / T - p' / T') * (VV' - VV) <= Rabs (p / T - p' / T') * (dv + dv')).
  { eapply Rle_trans; [apply Rle_abs|]. rewrite Rabs_mult. apply Rmult_le_compat_l; [apply Rabs_pos|].
    replace (VV' - VV) with ((VV' - V) - (VV - V)) by ring. eapply Rle_trans; [apply Rabs_triang|]. rewrite Rabs_Ropp. lra. }
  assert (K : 0 <= dp / T + dp' / T').
  { assert (0 <= dp / T) by (apply Rmult_le_pos; [exact Hp|apply Rlt_le, Rinv_0_lt_compat, HT]).
    assert (0 <= dp' / T') by (apply Rmult_le_pos; [exact Hp'|apply Rlt_le, Rinv_0_lt_compat, HT']). lra. }
  assert (A3 : total n (fun m => ((P m (rho m) T - p) / T - (P m (rho' m) T' - p') / T') * (mass m * (1 / rho' m - 1 / rho m))) <= (dp / T + dp' / T') * (VV' + VV)).
  { unfold VV, VV'. rewrite <- total_plus, <- total_scal. apply total_le. intros m Hm. destruct (HM m Hm) as (M1 & M2 & M3).
    assert (I1 : 0 < / rho m) by (apply Rinv_0_lt_compat; lra). assert (I2 : 0 < / rho' m) by (apply Rinv_0_lt_compat; lra).
    eapply Rle_trans; [apply Rle_abs|]. rewrite Rabs_mult. apply Rmult_le_compat; [apply Rabs_pos|apply Rabs_pos| |].
    - unfold Rminus. eapply Rle_trans; [apply Rabs_triang|]. rewrite Rabs_Ropp. unfold Rdiv. rewrite !Rabs_mult, !Rabs_inv, (Rabs_right T), (Rabs_right T') by lra.
      apply Rplus_le_compat; (apply Rmult_le_compat_r; [apply Rlt_le, Rinv_0_lt_compat; assumption|]); [apply H1|apply H1']; exact Hm.
    - rewrite Rabs_mult, (Rabs_right (mass m)) by lra. unfold Rdiv. rewrite !Rmult_1_l, <- Rmult_plus_distr_l. apply Rmult_le_compat_l; [lra|].
      unfold Rabs. destruct (Rcase_abs _); lra. }
  assert (A4 : (dp / T + dp' / T') * (VV' + VV) <= (dp / T + dp' / T') * (2 * V + dv + dv')).
  { apply Rmult_le_compat_l; [exact K|]. apply Rabs_le_between in H2. apply Rabs_le_between in H2'. lra. }
  lra.
Qed.
Lemma equilibrium_near n P E mass V U rho T p : equilibrium n P E mass V U rho T p -> near_equilibrium n P E mass V U 0 0 0 rho T p.
Proof.
  intros (H1 & H2 & H3). refine (conj _ (conj _ _)).
  - intros m Hm. rewrite H1, Rminus_diag_eq, Rabs_R0 by auto. lra.
  - rewrite H2, Rminus_diag_eq, Rabs_R0 by reflexivity. lra.
  - rewrite H3, Rminus_diag_eq, Rabs_R0 by reflexivity. lra.
Qed.
Lemma unique n P E D DT mass V U rho T p rho' T' p' : (0 < n)%nat -> (forall m, (m < n)%nat -> 0 < mass m) ->
  (forall m, (m < n)%nat -> well_behaved (P m) (E m) (D m) (DT m)) ->
  (forall m, (m < n)%nat -> D m (rho m) /\ DT m T /\ D m (rho' m) /\ DT m T') ->
  equilibrium n P E mass V U rho T p -> equilibrium n P E mass V U rho' T' p' ->
  T = T' /\ p = p' /\ forall m, (m < n)%nat -> rho m = rho' m.
Proof.
  intros Hn HM HW HD HE HE'.
  assert (PT : 0 < T /\ 0 < T'). { destruct (HD 0%nat Hn) as (_ & A & _ & B). destruct (HW 0%nat Hn) as (_ & (WT & _) & _). split; apply WT; assumption. }
  assert (HR : forall m, (m < n)%nat -> 0 < mass m /\ 0 < rho m /\ 0 < rho' m).
  { intros m Hm. destruct (HD m Hm) as (A & _ & B & _). destruct (HW m Hm) as ((WD & _) & _). split; [apply HM; exact Hm|]. split; apply WD; assumption. }
  pose proof (near_agree n P E mass V U 0 0 0 rho T p 0 0 0 rho' T' p' HR (proj1 PT) (proj2 PT) ltac:(lra) ltac:(lra) (equilibrium_near _ _ _ _ _ _ _ _ _ HE) (equilibrium_near _ _ _ _ _ _ _ _ _ HE')) as HS.
  replace (_ + _ + _) with 0 in HS by (unfold Rdiv; ring).
  assert (GP : forall m, (m < n)%nat -> 0 <= gap (P m) (E m) (rho m) T (rho' m) T').
  { intros m Hm. destruct (HD m Hm) as (D1 & D2 & D3 & D4). destruct (Req_dec (rho m) (rho' m)) as [e1|ne1]; [destruct (Req_dec T T') as [e2|ne2]|].
    - rewrite <- e1, <- e2, gap_same. lra.
    - left. apply (gap_pos _ _ (D m) (DT m)); auto.
    - left. apply (gap_pos _ _ (D m) (DT m)); auto. }
  assert (GZ : forall m, (m < n)%nat -> rho m = rho' m /\ T = T').
  { intros m Hm. destruct (HD m Hm) as (D1 & D2 & D3 & D4). pose proof (HM m Hm).
    pose proof (total_zero n (fun m => mass m * gap (P m) (E m) (rho m) T (rho' m) T') ltac:(intros k Hk; apply Rmult_le_pos; [apply Rlt_le, HM, Hk|apply GP, Hk]) HS m Hm) as Z. cbv beta in Z.
    destruct (Req_dec (rho m) (rho' m)) as [e1|ne1]; [destruct (Req_dec T T') as [e2|ne2]; [split; assumption|]|]; exfalso;
      (assert (G : 0 < gap (P m) (E m) (rho m) T (rho' m) T') by (apply (gap_pos _ _ (D m) (DT m)); auto); assert (0 < mass m * gap (P m) (E m) (rho m) T (rho' m) T') by (apply Rmult_lt_0_compat; assumption); lra). }
  pose proof (GZ 0%nat Hn) as (E1 & E2). split; [exact E2|]. split; [|intros m Hm; apply GZ, Hm].
  rewrite <- (proj1 HE 0%nat Hn), <- (proj1 HE' 0%nat Hn), E1, E2. reflexivity.
Qed.
(** common pressure determines the order of the volumes *)
Lemma volume_order n (P : nat -> R -> R -> R) mass rho rho' T p p' (D : nat -> R -> Prop) : (0 < n)%nat -> (forall m, (m < n)%nat -> 0 < mass m) ->
  (forall m, (m < n)%nat -> (forall x, D m x -> 0 < x) /\ (forall a b, D m a -> D m b -> a < b -> P m a T < P m b T)) ->
  (forall m, (m < n)%nat -> D m (rho m) /\ D m (rho' m)) ->
  (forall m, (m < n)%nat -> P m (rho m) T = p) -> (forall m, (m < n)%nat -> P m (rho' m) T = p') -> p < p' ->
  total n (fun m => mass m / rho' m) < total n (fun m => mass m / rho m).
Proof.
  intros Hn HM HP HD H1 H2 L.
  assert (LT : forall m, (m < n)%nat -> mass m / rho' m < mass m / rho m).
  { intros m Hm. destruct (HP m Hm) as (P1 & P2). destruct (HD m Hm) as (D1 & D2). pose proof (P1 _ D1). pose proof (P1 _ D2). pose proof (HM m Hm).
    assert (rho m < rho' m).
    { destruct (Rlt_dec (rho m) (rho' m)) as [|nl]; [assumption|]. exfalso. assert (P m (rho' m) T <= P m (rho m) T).
      { destruct (Req_dec (rho m) (rho' m)) as [->|ne]; [lra|]. left. apply P2; auto. lra. } rewrite H1, H2 in * by exact Hm. lra. }
    unfold Rdiv. apply Rmult_lt_compat_l; [assumption|]. apply Rinv_lt_contravar; [apply Rmult_lt_0_compat; assumption|assumption]. }
  destruct n as [|n0]; [lia|]. cbn. pose proof (LT n0 ltac:(lia)).
  assert (total n0 (fun m => mass m / rho' m) <= total n0 (fun m => mass m / rho m)) by (apply total_le; intros m Hm; left; apply LT; lia). lra.
Qed.
