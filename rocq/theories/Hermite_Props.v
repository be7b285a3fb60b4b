(** Property theorems C04: the Hermite basis and the cell interpolants built from it. *)
From Coq Require Import Reals Lra Lia List.
From Coquelicot Require Import Coquelicot.
From Verif Require Import Hermite_Model Hermite_Proofs.
Local Open Scope R_scope.

(** *** Specification (independent of the model): bivariate polynomials of degree <= N in each
    variable with coefficient c i j, and their partial derivatives. *)
Definition dmono (k i : nat) (x : R) : R :=
  match k with
  | 0%nat => x ^ i
  | 1%nat => INR i * x ^ (i - 1)
  | _ => INR i * INR (i - 1) * x ^ (i - 2)
  end.
Definition bipoly (N : nat) (c : nat -> nat -> R) (m n : nat) (d t : R) : R :=
  sum_f_R0 (fun i => sum_f_R0 (fun j => c i j * dmono m i d * dmono n j t) N) N.

(** the specification's derivatives are derivatives *)
Lemma dmono_derive k i x : (k <= 1)%nat -> is_derive (dmono k i) x (dmono (S k) i x).
Proof.
  intros Hk. destruct k as [|[|k]]; [| |lia]; unfold dmono.
  - auto_derive; [exact I|]. destruct i; simpl; [ring|]. replace (i - 0)%nat with i by lia. ring.
  - auto_derive; [exact I|]. replace (Init.Nat.pred (i - 1)) with (i - 2)%nat by lia. ring.
Qed.

(** each documented derivative is the exact derivative of its basis function *)
Theorem C04_basis_derivatives :
  forall z, is_derive psi0 z (dpsi0 z) /\ is_derive dpsi0 z (ddpsi0 z) /\
            is_derive psi1 z (dpsi1 z) /\ is_derive dpsi1 z (ddpsi1 z) /\
            is_derive psi2 z (dpsi2 z) /\ is_derive dpsi2 z (ddpsi2 z) /\
            is_derive xpsi0 z (xdpsi0 z) /\ is_derive xpsi1 z (xdpsi1 z).
Proof.
  intros z. refine (conj _ (conj _ (conj _ (conj _ (conj _ (conj _ (conj _ _))))))); [apply dpsi0_ok|apply ddpsi0_ok|apply dpsi1_ok|apply ddpsi1_ok|
    apply dpsi2_ok|apply ddpsi2_ok|apply xdpsi0_ok|apply xdpsi1_ok].
Qed.
Print Assumptions C04_basis_derivatives.

(** the basis functions satisfy the Hermite cardinal conditions at the two nodes *)
Theorem C04_basis_cardinal :
  psi0 0 = 1 /\ dpsi0 0 = 0 /\ ddpsi0 0 = 0 /\ psi0 1 = 0 /\ dpsi0 1 = 0 /\ ddpsi0 1 = 0 /\
  psi1 0 = 0 /\ dpsi1 0 = 1 /\ ddpsi1 0 = 0 /\ psi1 1 = 0 /\ dpsi1 1 = 0 /\ ddpsi1 1 = 0 /\
  psi2 0 = 0 /\ dpsi2 0 = 0 /\ ddpsi2 0 = 1 /\ psi2 1 = 0 /\ dpsi2 1 = 0 /\ ddpsi2 1 = 0 /\
  xpsi0 0 = 1 /\ xdpsi0 0 = 0 /\ xpsi0 1 = 0 /\ xdpsi0 1 = 0 /\
  xpsi1 0 = 0 /\ xdpsi1 0 = 1 /\ xpsi1 1 = 0 /\ xdpsi1 1 = 0.
Proof.
  unfold psi0, dpsi0, ddpsi0, psi1, dpsi1, ddpsi1, psi2, dpsi2, ddpsi2, xpsi0, xdpsi0, xpsi1, xdpsi1.
  repeat split; field.
Qed.
Print Assumptions C04_basis_cardinal.

(** at the corners of a cell the interpolant and its derivatives return the stored nodal values *)
Theorem C04_corner_values :
  forall D hd ht (p q : bool), hd <> 0 -> ht <> 0 ->
  (forall od ot, (od <= 2)%nat -> (ot <= 2)%nat ->
     interp5 D od ot hd (if p then 1 else 0) ht (if q then 1 else 0) = D od ot p q) /\
  (forall od ot, (od <= 1)%nat -> (ot <= 1)%nat ->
     interp3 D od ot hd (if p then 1 else 0) ht (if q then 1 else 0) = D od ot p q).
Proof.
  intros D hd ht p q Hd Ht. split; intros; [apply interp5_corner|apply interp3_corner]; assumption.
Qed.
Print Assumptions C04_corner_values.

Lemma sumf_app {A} (l1 l2 : list A) f : sumf (l1 ++ l2) f = sumf l1 f + sumf l2 f.
Proof. induction l1 as [|a l IH]; simpl; [ring|]. rewrite IH. ring. Qed.
Lemma sumf_map {A B} (g : A -> B) l f : sumf (map g l) f = sumf l (fun a => f (g a)).
Proof. induction l as [|a l IH]; simpl; [reflexivity|]. rewrite IH. reflexivity. Qed.
Lemma sumf_flat {A B} (g : A -> list B) l f : sumf (flat_map g l) f = sumf l (fun a => sumf (g a) f).
Proof. induction l as [|a l IH]; simpl; [reflexivity|]. rewrite sumf_app, IH. reflexivity. Qed.
Lemma sumf_seq f N : sumf (seq 0 (S N)) f = sum_f_R0 f N.
Proof.
  induction N as [|N IH]; [simpl; ring|].
  rewrite seq_S, sumf_app, IH. simpl. ring.
Qed.
Definition unit_coeff (a : R) (i k : nat) : R := if Nat.eqb k i then a else 0.
Definition terms (N : nat) (c : nat -> nat -> R) :=
  flat_map (fun i => map (fun j => (unit_coeff (c i j) i, unit_coeff 1 j)) (seq 0 (S N))) (seq 0 (S N)).
Lemma poly5_unit a i k x : (i <= 5)%nat -> (k <= 2)%nat -> poly5 (unit_coeff a i) k x = a * dmono k i x.
Proof.
  intros Hi Hk. destruct i as [|[|[|[|[|[|i]]]]]]; try lia;
  destruct k as [|[|[|k]]]; try lia; unfold poly5, unit_coeff, dmono; simpl; ring.
Qed.
Lemma poly3_unit a i k x : (i <= 3)%nat -> (k <= 1)%nat -> poly3 (unit_coeff a i) k x = a * dmono k i x.
Proof.
  intros Hi Hk. destruct i as [|[|[|[|i]]]]; try lia;
  destruct k as [|[|k]]; try lia; unfold poly3, unit_coeff, dmono; simpl; ring.
Qed.
Lemma sum_ext_le f g N : (forall i, (i <= N)%nat -> f i = g i) -> sum_f_R0 f N = sum_f_R0 g N.
Proof. intros H. apply sum_eq. exact H. Qed.
Lemma sep5_bipoly c m n d t : (m <= 2)%nat -> (n <= 2)%nat -> sep5 (terms 5 c) m n d t = bipoly 5 c m n d t.
Proof.
  intros Hm Hn. unfold sep5, terms, bipoly. rewrite sumf_flat, sumf_seq. apply sum_ext_le. intros i Hi.
  rewrite sumf_map, sumf_seq. apply sum_ext_le. intros j Hj. cbn [fst snd].
  rewrite !poly5_unit by assumption. ring.
Qed.
Lemma sep3_bipoly c m n d t : (m <= 1)%nat -> (n <= 1)%nat -> sep3 (terms 3 c) m n d t = bipoly 3 c m n d t.
Proof.
  intros Hm Hn. unfold sep3, terms, bipoly. rewrite sumf_flat, sumf_seq. apply sum_ext_le. intros i Hi.
  rewrite sumf_map, sumf_seq. apply sum_ext_le. intros j Hj. cbn [fst snd].
  rewrite !poly3_unit by assumption. ring.
Qed.

Lemma interp5_ext D D' od ot hd xd ht xt :
  (forall m n p q, (m <= 2)%nat -> (n <= 2)%nat -> D m n p q = D' m n p q) ->
  interp5 D od ot hd xd ht xt = interp5 D' od ot hd xd ht xt.
Proof. intros H. rewrite !interp5_tensor. unfold comb. rewrite !H by lia. reflexivity. Qed.
Lemma interp3_ext D D' od ot hd xd ht xt :
  (forall m n p q, (m <= 1)%nat -> (n <= 1)%nat -> D m n p q = D' m n p q) ->
  interp3 D od ot hd xd ht xt = interp3 D' od ot hd xd ht xt.
Proof. intros H. rewrite !interp3_tensor. unfold comb3. rewrite !H by lia. reflexivity. Qed.

(** on a cell [d0,d0+hd] x [t0,t0+ht] whose nodal data come from a bivariate polynomial of degree <= 5
    (<= 3) in each variable, the interpolant and all its partial derivatives are exact everywhere *)
Theorem C04_polynomial_exactness :
  forall c d0 hd t0 ht d t, hd <> 0 -> ht <> 0 ->
  let dn (p : bool) := if p then d0 + hd else d0 in
  let tn (q : bool) := if q then t0 + ht else t0 in
  (forall od ot, (od <= 2)%nat -> (ot <= 2)%nat ->
     interp5 (fun m n p q => bipoly 5 c m n (dn p) (tn q)) od ot hd ((d - d0) / hd) ht ((t - t0) / ht)
     = bipoly 5 c od ot d t) /\
  (forall od ot, (od <= 1)%nat -> (ot <= 1)%nat ->
     interp3 (fun m n p q => bipoly 3 c m n (dn p) (tn q)) od ot hd ((d - d0) / hd) ht ((t - t0) / ht)
     = bipoly 3 c od ot d t).
Proof.
  intros c d0 hd t0 ht d t Hd Ht dn tn. split; intros od ot Ho Ht'.
  - rewrite (interp5_ext _ (fun m n p q => sep5 (terms 5 c) m n (dn p) (tn q))).
    2:{ intros. symmetry. apply sep5_bipoly; assumption. }
    unfold dn, tn. rewrite interp5_exact by assumption. rewrite sep5_bipoly by assumption.
    f_equal; field; assumption.
  - rewrite (interp3_ext _ (fun m n p q => sep3 (terms 3 c) m n (dn p) (tn q))).
    2:{ intros. symmetry. apply sep3_bipoly; assumption. }
    unfold dn, tn. rewrite interp3_exact by assumption. rewrite sep3_bipoly by assumption.
    f_equal; field; assumption.
Qed.
Print Assumptions C04_polynomial_exactness.

(** the quantities the code calls derivatives are the partial derivatives of the interpolant, for
    arbitrary (also inconsistent) nodal data *)
Theorem C04_interpolant_derivatives :
  forall D hd ht d0 t0 d t, hd <> 0 -> ht <> 0 ->
  (forall od ot, (od <= 2)%nat -> (ot <= 1)%nat ->
     is_derive (fun t => interp5 D od ot hd ((d - d0) / hd) ht ((t - t0) / ht)) t
               (interp5 D od (S ot) hd ((d - d0) / hd) ht ((t - t0) / ht))) /\
  (forall od ot, (od <= 1)%nat -> (ot <= 2)%nat ->
     is_derive (fun d => interp5 D od ot hd ((d - d0) / hd) ht ((t - t0) / ht)) d
               (interp5 D (S od) ot hd ((d - d0) / hd) ht ((t - t0) / ht))) /\
  (forall od, is_derive (fun t => interp3 D od 0 hd ((d - d0) / hd) ht ((t - t0) / ht)) t
               (interp3 D od 1 hd ((d - d0) / hd) ht ((t - t0) / ht))) /\
  (forall ot, is_derive (fun d => interp3 D 0 ot hd ((d - d0) / hd) ht ((t - t0) / ht)) d
               (interp3 D 1 ot hd ((d - d0) / hd) ht ((t - t0) / ht))).
Proof.
  intros D hd ht d0 t0 d t Hd Ht. refine (conj _ (conj _ (conj _ _))); intros.
  - apply interp5_dt; assumption.
  - apply interp5_dd; assumption.
  - apply interp3_dt; assumption.
  - apply interp3_dd; assumption.
Qed.
Print Assumptions C04_interpolant_derivatives.

(** neighbouring cells that share nodes agree on the shared edge, in value and in every derivative of
    order <= 2 per variable: the interpolated table is C^2 across cells *)
Theorem C04_cells_glue :
  forall D D' od ot hd hd' ht ht' x,
  hd <> 0 -> hd' <> 0 -> ht <> 0 -> ht' <> 0 -> (od <= 2)%nat -> (ot <= 2)%nat ->
  ((forall m n p, D' m n p false = D m n p true) ->
     interp5 D od ot hd x ht 1 = interp5 D' od ot hd x ht' 0) /\
  ((forall m n q, D' m n false q = D m n true q) ->
     interp5 D od ot hd 1 ht x = interp5 D' od ot hd' 0 ht x).
Proof.
  intros. split; intros; [apply interp5_glue_t|apply interp5_glue_d]; assumption.
Qed.
Print Assumptions C04_cells_glue.

(** non-vacuity: a cell of width 2 x 3 at (1,1) with the data of d^5 t^5, evaluated at (2,2) *)
Example C04_instance :
  interp5 (fun m n p q => bipoly 5 (fun i j => if Nat.eqb i 5 then if Nat.eqb j 5 then 1 else 0 else 0)
             m n (if p then 1 + 2 else 1) (if q then 1 + 3 else 1)) 1 2 2 ((2 - 1) / 2) 3 ((2 - 1) / 3)
  = 5 * 2^4 * (20 * 2^3).
Proof.
  destruct (C04_polynomial_exactness (fun i j => if Nat.eqb i 5 then if Nat.eqb j 5 then 1 else 0 else 0)
     1 2 1 3 2 2 ltac:(lra) ltac:(lra)) as [H _].
  etransitivity; [exact (H 1%nat 2%nat ltac:(lia) ltac:(lia))|].
  unfold bipoly, dmono. simpl. ring.
Qed.
