From Coq Require Import Reals List Lra Lia.
From Coquelicot Require Import Coquelicot.
From Verif Require Import Hermite_Model.
Import ListNotations.
Local Open Scope R_scope.

Lemma dpsi0_ok z : is_derive psi0 z (dpsi0 z).
Proof. unfold psi0, dpsi0. auto_derive; [exact I|ring]. Qed.
Lemma ddpsi0_ok z : is_derive dpsi0 z (ddpsi0 z).
Proof. unfold dpsi0, ddpsi0. auto_derive; [exact I|ring]. Qed.
Lemma dpsi1_ok z : is_derive psi1 z (dpsi1 z).
Proof. unfold psi1, dpsi1. auto_derive; [exact I|ring]. Qed.
Lemma ddpsi1_ok z : is_derive dpsi1 z (ddpsi1 z).
Proof. unfold dpsi1, ddpsi1. auto_derive; [exact I|ring]. Qed.
Lemma dpsi2_ok z : is_derive psi2 z (dpsi2 z).
Proof. unfold psi2, dpsi2. auto_derive; [exact I|field]. Qed.
Lemma ddpsi2_ok z : is_derive dpsi2 z (ddpsi2 z).
Proof. unfold dpsi2, ddpsi2. auto_derive; [exact I|field]. Qed.
Lemma xdpsi0_ok z : is_derive xpsi0 z (xdpsi0 z).
Proof. unfold xpsi0, xdpsi0. auto_derive; [exact I|ring]. Qed.
Lemma xdpsi1_ok z : is_derive xpsi1 z (xdpsi1 z).
Proof. unfold xpsi1, xdpsi1. auto_derive; [exact I|ring]. Qed.

(** one-dimensional combination *)
Definition comb (w : W6) (u : nat -> bool -> R) : R :=
  u 0%nat false * w0 w + u 0%nat true * w0m w + u 1%nat false * w1 w + u 1%nat true * w1m w
  + u 2%nat false * w2 w + u 2%nat true * w2m w.
Definition comb3 (w : W4) (u : nat -> bool -> R) : R :=
  u 0%nat false * v0 w + u 0%nat true * v0m w + u 1%nat false * v1 w + u 1%nat true * v1m w.

(** h5 is the tensor product of the two one-dimensional combinations *)
Lemma interp5_tensor D od ot hd xd ht xt :
  interp5 D od ot hd xd ht xt =
  comb (weights5 ot ht xt) (fun n q => comb (weights5 od hd xd) (fun m p => D m n p q)).
Proof.
  unfold interp5. generalize (weights5 ot ht xt) as a, (weights5 od hd xd) as b.
  intros [a0 a1 a2 a3 a4 a5] [b0 b1 b2 b3 b4 b5].
  unfold h5, fi5, comb; simpl. ring.
Qed.
Lemma interp3_tensor D od ot hd xd ht xt :
  interp3 D od ot hd xd ht xt =
  comb3 (weights3 ot ht xt) (fun n q => comb3 (weights3 od hd xd) (fun m p => D m n p q)).
Proof.
  unfold interp3. generalize (weights3 ot ht xt) as a, (weights3 od hd xd) as b.
  intros [a0 a1 a2 a3] [b0 b1 b2 b3].
  unfold h3, fi3, comb3; simpl. ring.
Qed.

(** values of the weights at the two ends of the cell: only the datum of the requested order
    at that node contributes *)
Lemma comb_left k h u : h <> 0 -> (k <= 2)%nat -> comb (weights5 k h 0) u = u k false.
Proof.
  intros Hh Hk. destruct k as [|[|[|k]]]; [| | |lia];
    unfold comb, weights5; cbn [w0 w1 w2 w0m w1m w2m];
    unfold psi0, psi1, psi2, dpsi0, dpsi1, dpsi2, ddpsi0, ddpsi1, ddpsi2; field; exact Hh.
Qed.
Lemma comb_right k h u : h <> 0 -> (k <= 2)%nat -> comb (weights5 k h 1) u = u k true.
Proof.
  intros Hh Hk. destruct k as [|[|[|k]]]; [| | |lia];
    unfold comb, weights5; cbn [w0 w1 w2 w0m w1m w2m];
    unfold psi0, psi1, psi2, dpsi0, dpsi1, dpsi2, ddpsi0, ddpsi1, ddpsi2; field; exact Hh.
Qed.
Lemma comb3_left k h u : h <> 0 -> (k <= 1)%nat -> comb3 (weights3 k h 0) u = u k false.
Proof.
  intros Hh Hk. destruct k as [|[|k]]; [| |lia];
    unfold comb3, weights3; cbn [v0 v1 v0m v1m]; unfold xpsi0, xpsi1, xdpsi0, xdpsi1; field; exact Hh.
Qed.
Lemma comb3_right k h u : h <> 0 -> (k <= 1)%nat -> comb3 (weights3 k h 1) u = u k true.
Proof.
  intros Hh Hk. destruct k as [|[|k]]; [| |lia];
    unfold comb3, weights3; cbn [v0 v1 v0m v1m]; unfold xpsi0, xpsi1, xdpsi0, xdpsi1; field; exact Hh.
Qed.

(** the weights of order k+1 are the derivative (with respect to the physical coordinate) of those
    of order k *)
Lemma comb_derive k h x0 y u : h <> 0 -> (k <= 1)%nat ->
  is_derive (fun y => comb (weights5 k h ((y - x0) / h)) u) y
            (comb (weights5 (S k) h ((y - x0) / h)) u).
Proof.
  intros Hh Hk. destruct k as [|[|k]]; [| |lia];
    unfold comb, weights5; cbn [w0 w1 w2 w0m w1m w2m];
    unfold psi0, psi1, psi2, dpsi0, dpsi1, dpsi2, ddpsi0, ddpsi1, ddpsi2;
    auto_derive; try exact I; field; exact Hh.
Qed.
Lemma comb3_derive h x0 y u : h <> 0 ->
  is_derive (fun y => comb3 (weights3 0 h ((y - x0) / h)) u) y
            (comb3 (weights3 1 h ((y - x0) / h)) u).
Proof.
  intros Hh. unfold comb3, weights3; cbn [v0 v1 v0m v1m]; unfold xpsi0, xpsi1, xdpsi0, xdpsi1;
    auto_derive; try exact I; field; exact Hh.
Qed.

(** polynomials as coefficient functions *)
Definition poly5 (c : nat -> R) (k : nat) (x : R) : R :=
  match k with
  | O => c 0%nat + c 1%nat * x + c 2%nat * x^2 + c 3%nat * x^3 + c 4%nat * x^4 + c 5%nat * x^5
  | S O => c 1%nat + 2 * c 2%nat * x + 3 * c 3%nat * x^2 + 4 * c 4%nat * x^3 + 5 * c 5%nat * x^4
  | _ => 2 * c 2%nat + 6 * c 3%nat * x + 12 * c 4%nat * x^2 + 20 * c 5%nat * x^3
  end.

Lemma comb_poly k h x0 x c : h <> 0 -> (k <= 2)%nat ->
  comb (weights5 k h x) (fun m p => poly5 c m (if p then x0 + h else x0)) = poly5 c k (x0 + x * h).
Proof.
  intros Hh Hk. destruct k as [|[|[|k]]]; [| | |lia];
    unfold comb, weights5, poly5; cbn [w0 w1 w2 w0m w1m w2m];
    unfold psi0, psi1, psi2, dpsi0, dpsi1, dpsi2, ddpsi0, ddpsi1, ddpsi2; field; exact Hh.
Qed.

Definition poly3 (c : nat -> R) (k : nat) (x : R) : R :=
  match k with
  | O => c 0%nat + c 1%nat * x + c 2%nat * x^2 + c 3%nat * x^3
  | _ => c 1%nat + 2 * c 2%nat * x + 3 * c 3%nat * x^2
  end.
Lemma comb3_poly k h x0 x c : h <> 0 -> (k <= 1)%nat ->
  comb3 (weights3 k h x) (fun m p => poly3 c m (if p then x0 + h else x0)) = poly3 c k (x0 + x * h).
Proof.
  intros Hh Hk. destruct k as [|[|k]]; [| |lia];
    unfold comb3, weights3, poly3; cbn [v0 v1 v0m v1m]; unfold xpsi0, xpsi1, xdpsi0, xdpsi1; field; exact Hh.
Qed.

(** finite sums of separable polynomials *)
Fixpoint sumf {A} (l : list A) (f : A -> R) : R :=
  match l with nil => 0 | a :: r => f a + sumf r f end.

Lemma comb_sum {A} w (l : list A) (g : A -> nat -> bool -> R) :
  comb w (fun m p => sumf l (fun a => g a m p)) = sumf l (fun a => comb w (g a)).
Proof. induction l as [|a l IH]; simpl; [unfold comb; ring|]. rewrite <- IH. unfold comb. ring. Qed.
Lemma comb3_sum {A} w (l : list A) (g : A -> nat -> bool -> R) :
  comb3 w (fun m p => sumf l (fun a => g a m p)) = sumf l (fun a => comb3 w (g a)).
Proof. induction l as [|a l IH]; simpl; [unfold comb3; ring|]. rewrite <- IH. unfold comb3. ring. Qed.
Lemma comb_scal w u c : comb w (fun m p => u m p * c) = comb w u * c.
Proof. unfold comb. ring. Qed.
Lemma comb3_scal w u c : comb3 w (fun m p => u m p * c) = comb3 w u * c.
Proof. unfold comb3. ring. Qed.
Lemma comb_scal_l w u c : comb w (fun m p => c * u m p) = c * comb w u.
Proof. unfold comb. ring. Qed.
Lemma comb3_scal_l w u c : comb3 w (fun m p => c * u m p) = c * comb3 w u.
Proof. unfold comb3. ring. Qed.
Lemma comb_ext w u v : (forall m p, u m p = v m p) -> comb w u = comb w v.
Proof. intros H. unfold comb. rewrite !H. reflexivity. Qed.
Lemma comb3_ext w u v : (forall m p, u m p = v m p) -> comb3 w u = comb3 w v.
Proof. intros H. unfold comb3. rewrite !H. reflexivity. Qed.
Lemma sumf_ext {A} (l : list A) f g : (forall a, f a = g a) -> sumf l f = sumf l g.
Proof. intros H; induction l; simpl; [reflexivity|]. rewrite H, IHl. reflexivity. Qed.

(** every bivariate polynomial of degree <= 5 in each variable is such a sum *)
Definition sep5 (l : list ((nat -> R) * (nat -> R))) (m n : nat) (d t : R) : R :=
  sumf l (fun a => poly5 (fst a) m d * poly5 (snd a) n t).
Definition sep3 (l : list ((nat -> R) * (nat -> R))) (m n : nat) (d t : R) : R :=
  sumf l (fun a => poly3 (fst a) m d * poly3 (snd a) n t).

Lemma interp5_exact l od ot d0 hd xd t0 ht xt :
  hd <> 0 -> ht <> 0 -> (od <= 2)%nat -> (ot <= 2)%nat ->
  interp5 (fun m n p q => sep5 l m n (if p then d0 + hd else d0) (if q then t0 + ht else t0))
          od ot hd xd ht xt
  = sep5 l od ot (d0 + xd * hd) (t0 + xt * ht).
Proof.
  intros Hd Ht H1 H2. rewrite interp5_tensor.
  rewrite (comb_ext _ _ (fun n q => sumf l (fun a =>
     poly5 (fst a) od (d0 + xd * hd) * poly5 (snd a) n (if q then t0 + ht else t0)))).
  2: { intros n q. unfold sep5. rewrite comb_sum. apply sumf_ext. intros a.
       rewrite comb_scal, comb_poly by assumption. reflexivity. }
  rewrite comb_sum. unfold sep5. apply sumf_ext. intros a.
  rewrite comb_scal_l, comb_poly by assumption. reflexivity.
Qed.

Lemma interp3_exact l od ot d0 hd xd t0 ht xt :
  hd <> 0 -> ht <> 0 -> (od <= 1)%nat -> (ot <= 1)%nat ->
  interp3 (fun m n p q => sep3 l m n (if p then d0 + hd else d0) (if q then t0 + ht else t0))
          od ot hd xd ht xt
  = sep3 l od ot (d0 + xd * hd) (t0 + xt * ht).
Proof.
  intros Hd Ht H1 H2. rewrite interp3_tensor.
  rewrite (comb3_ext _ _ (fun n q => sumf l (fun a =>
     poly3 (fst a) od (d0 + xd * hd) * poly3 (snd a) n (if q then t0 + ht else t0)))).
  2: { intros n q. unfold sep3. rewrite comb3_sum. apply sumf_ext. intros a.
       rewrite comb3_scal, comb3_poly by assumption. reflexivity. }
  rewrite comb3_sum. unfold sep3. apply sumf_ext. intros a.
  rewrite comb3_scal_l, comb3_poly by assumption. reflexivity.
Qed.

(** corner and edge values for arbitrary data *)
Lemma interp5_corner D od ot hd ht (p q : bool) :
  hd <> 0 -> ht <> 0 -> (od <= 2)%nat -> (ot <= 2)%nat ->
  interp5 D od ot hd (if p then 1 else 0) ht (if q then 1 else 0) = D od ot p q.
Proof.
  intros Hd Ht H1 H2. rewrite interp5_tensor.
  destruct q; [rewrite comb_right by assumption|rewrite comb_left by assumption];
  (destruct p; [rewrite comb_right by assumption|rewrite comb_left by assumption]); reflexivity.
Qed.
Lemma interp3_corner D od ot hd ht (p q : bool) :
  hd <> 0 -> ht <> 0 -> (od <= 1)%nat -> (ot <= 1)%nat ->
  interp3 D od ot hd (if p then 1 else 0) ht (if q then 1 else 0) = D od ot p q.
Proof.
  intros Hd Ht H1 H2. rewrite interp3_tensor.
  destruct q; [rewrite comb3_right by assumption|rewrite comb3_left by assumption];
  (destruct p; [rewrite comb3_right by assumption|rewrite comb3_left by assumption]); reflexivity.
Qed.

(** continuity across cells: two neighbouring cells sharing an edge (with any widths) give the same
    value and derivatives up to second order on the shared edge *)
Lemma interp5_glue_t D D' od ot hd xd ht ht' :
  ht <> 0 -> ht' <> 0 -> (ot <= 2)%nat ->
  (forall m n p, D' m n p false = D m n p true) ->
  interp5 D od ot hd xd ht 1 = interp5 D' od ot hd xd ht' 0.
Proof.
  intros H1 H2 H3 HD. rewrite !interp5_tensor. rewrite comb_right, comb_left by assumption.
  apply comb_ext. intros m p. rewrite HD. reflexivity.
Qed.
Lemma interp5_glue_d D D' od ot hd hd' ht xt :
  hd <> 0 -> hd' <> 0 -> (od <= 2)%nat ->
  (forall m n q, D' m n false q = D m n true q) ->
  interp5 D od ot hd 1 ht xt = interp5 D' od ot hd' 0 ht xt.
Proof.
  intros H1 H2 H3 HD. rewrite !interp5_tensor. apply comb_ext. intros n q.
  rewrite comb_right, comb_left by assumption. rewrite HD. reflexivity.
Qed.

(** the routine's derivative outputs are the derivatives of its value output (any data) *)
Lemma interp5_dt D od ot hd xd ht t0 t : ht <> 0 -> (ot <= 1)%nat ->
  is_derive (fun t => interp5 D od ot hd xd ht ((t - t0) / ht)) t
            (interp5 D od (S ot) hd xd ht ((t - t0) / ht)).
Proof.
  intros Hh Ho.
  apply is_derive_ext with (f := fun t => comb (weights5 ot ht ((t - t0) / ht))
      (fun n q => comb (weights5 od hd xd) (fun m p => D m n p q))).
  { intros s. rewrite interp5_tensor. reflexivity. }
  rewrite interp5_tensor. apply comb_derive; assumption.
Qed.

Lemma comb_swap w w' (D : nat -> nat -> bool -> bool -> R) :
  comb w (fun n q => comb w' (fun m p => D m n p q)) =
  comb w' (fun m p => comb w (fun n q => D m n p q)).
Proof. unfold comb. ring. Qed.

Lemma interp5_dd D od ot hd ht xt d0 d : hd <> 0 -> (od <= 1)%nat ->
  is_derive (fun d => interp5 D od ot hd ((d - d0) / hd) ht xt) d
            (interp5 D (S od) ot hd ((d - d0) / hd) ht xt).
Proof.
  intros Hh Ho.
  apply is_derive_ext with (f := fun d => comb (weights5 od hd ((d - d0) / hd))
      (fun m p => comb (weights5 ot ht xt) (fun n q => D m n p q))).
  { intros s. rewrite interp5_tensor, comb_swap. reflexivity. }
  rewrite interp5_tensor, comb_swap. apply comb_derive; assumption.
Qed.

Lemma comb3_swap w w' (D : nat -> nat -> bool -> bool -> R) :
  comb3 w (fun n q => comb3 w' (fun m p => D m n p q)) =
  comb3 w' (fun m p => comb3 w (fun n q => D m n p q)).
Proof. unfold comb3. ring. Qed.
Lemma interp3_dt D od hd xd ht t0 t : ht <> 0 ->
  is_derive (fun t => interp3 D od 0 hd xd ht ((t - t0) / ht)) t
            (interp3 D od 1 hd xd ht ((t - t0) / ht)).
Proof.
  intros Hh.
  apply is_derive_ext with (f := fun t => comb3 (weights3 0 ht ((t - t0) / ht))
      (fun n q => comb3 (weights3 od hd xd) (fun m p => D m n p q))).
  { intros s. rewrite interp3_tensor. reflexivity. }
  rewrite interp3_tensor. apply comb3_derive; assumption.
Qed.
Lemma interp3_dd D ot hd ht xt d0 d : hd <> 0 ->
  is_derive (fun d => interp3 D 0 ot hd ((d - d0) / hd) ht xt) d
            (interp3 D 1 ot hd ((d - d0) / hd) ht xt).
Proof.
  intros Hh.
  apply is_derive_ext with (f := fun d => comb3 (weights3 0 hd ((d - d0) / hd))
      (fun m p => comb3 (weights3 ot ht xt) (fun n q => D m n p q))).
  { intros s. rewrite interp3_tensor, comb3_swap. reflexivity. }
  rewrite interp3_tensor, comb3_swap. apply comb3_derive; assumption.
Qed.
