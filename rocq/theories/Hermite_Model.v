(** Model of singularity-eos/base/hermite.hpp and of the cell interpolation in
    HelmElectrons::GetFromDensityTemperature (eos/eos_helmholtz.hpp:1024-1163) over exact reals. *)
From Coq Require Import Reals.
Local Open Scope R_scope.

(** hermite.hpp:25-33 *)
Definition psi0 (z : R) := z * z * z * (z * (-6 * z + 15) - 10) + 1.
Definition dpsi0 (z : R) := z * z * (z * (-30 * z + 60) - 30).
Definition ddpsi0 (z : R) := z * (z * (-120 * z + 180) - 60).
(** hermite.hpp:36-44 *)
Definition psi1 (z : R) := z * (z * z * (z * (-3 * z + 8) - 6) + 1).
Definition dpsi1 (z : R) := z * z * (z * (-15 * z + 32) - 18) + 1.
Definition ddpsi1 (z : R) := z * (z * (-60 * z + 96) - 36).
(** hermite.hpp:47-55 *)
Definition psi2 (z : R) := /2 * z * z * (z * (z * (-z + 3) - 3) + 1).
Definition dpsi2 (z : R) := /2 * z * (z * (z * (-5 * z + 12) - 9) + 2).
Definition ddpsi2 (z : R) := /2 * (z * (z * (-20 * z + 36) - 18) + 2).

(** hermite.hpp:58-74; fi is the array argument *)
Definition h5 (fi : nat -> R) (w0t w1t w2t w0mt w1mt w2mt w0d w1d w2d w0md w1md w2md : R) : R :=
  fi 0%nat * w0d * w0t + fi 1%nat * w0md * w0t + fi 2%nat * w0d * w0mt +
  fi 3%nat * w0md * w0mt + fi 4%nat * w0d * w1t + fi 5%nat * w0md * w1t +
  fi 6%nat * w0d * w1mt + fi 7%nat * w0md * w1mt + fi 8%nat * w0d * w2t +
  fi 9%nat * w0md * w2t + fi 10%nat * w0d * w2mt + fi 11%nat * w0md * w2mt +
  fi 12%nat * w1d * w0t + fi 13%nat * w1md * w0t + fi 14%nat * w1d * w0mt +
  fi 15%nat * w1md * w0mt + fi 16%nat * w2d * w0t + fi 17%nat * w2md * w0t +
  fi 18%nat * w2d * w0mt + fi 19%nat * w2md * w0mt + fi 20%nat * w1d * w1t +
  fi 21%nat * w1md * w1t + fi 22%nat * w1d * w1mt + fi 23%nat * w1md * w1mt +
  fi 24%nat * w2d * w1t + fi 25%nat * w2md * w1t + fi 26%nat * w2d * w1mt +
  fi 27%nat * w2md * w1mt + fi 28%nat * w1d * w2t + fi 29%nat * w1md * w2t +
  fi 30%nat * w1d * w2mt + fi 31%nat * w1md * w2mt + fi 32%nat * w2d * w2t +
  fi 33%nat * w2md * w2t + fi 34%nat * w2d * w2mt + fi 35%nat * w2md * w2mt.

(** hermite.hpp:78-85 *)
Definition xpsi0 (z : R) := z * z * (2 * z - 3) + 1.
Definition xdpsi0 (z : R) := z * (6 * z - 6).
Definition xpsi1 (z : R) := z * (z * (z - 2) + 1).
Definition xdpsi1 (z : R) := z * (3 * z - 4) + 1.

(** hermite.hpp:88-96 *)
Definition h3 (fi : nat -> R) (w0t w1t w0mt w1mt w0d w1d w0md w1md : R) : R :=
  fi 0%nat * w0d * w0t + fi 1%nat * w0md * w0t + fi 2%nat * w0d * w0mt +
  fi 3%nat * w0md * w0mt + fi 4%nat * w0d * w1t + fi 5%nat * w0md * w1t +
  fi 6%nat * w0d * w1mt + fi 7%nat * w0md * w1mt + fi 8%nat * w1d * w0t +
  fi 9%nat * w1md * w0t + fi 10%nat * w1d * w0mt + fi 11%nat * w1md * w0mt +
  fi 12%nat * w1d * w1t + fi 13%nat * w1md * w1t + fi 14%nat * w1d * w1mt +
  fi 15%nat * w1md * w1mt.

(** Nodal data: value of the (m-th density, n-th temperature) derivative at density node
    iat + (p ? 1 : 0) and temperature node jat + (q ? 1 : 0). *)
Definition nodal := nat -> nat -> bool -> bool -> R.

(** eos_helmholtz.hpp:1025-1061: how the table values are laid out in fi *)
Definition fi5 (D : nodal) (k : nat) : R :=
  let c m n := match Nat.modulo k 4 with
    | 0%nat => D m n false false | 1%nat => D m n true false
    | 2%nat => D m n false true | _ => D m n true true end in
  match Nat.div k 4 with
  | 0%nat => c 0%nat 0%nat        (* f    *)
  | 1%nat => c 0%nat 1%nat        (* ft   *)
  | 2%nat => c 0%nat 2%nat        (* ftt  *)
  | 3%nat => c 1%nat 0%nat        (* fd   *)
  | 4%nat => c 2%nat 0%nat        (* fdd  *)
  | 5%nat => c 1%nat 1%nat        (* fdt  *)
  | 6%nat => c 2%nat 1%nat        (* fddt *)
  | 7%nat => c 1%nat 2%nat        (* fdtt *)
  | _ => c 2%nat 2%nat            (* fddtt *)
  end.
(** eos_helmholtz.hpp:1166-1181 (bicubic tables: f, ft, fd, fdt) *)
Definition fi3 (D : nodal) (k : nat) : R :=
  let c m n := match Nat.modulo k 4 with
    | 0%nat => D m n false false | 1%nat => D m n true false
    | 2%nat => D m n false true | _ => D m n true true end in
  match Nat.div k 4 with
  | 0%nat => c 0%nat 0%nat
  | 1%nat => c 0%nat 1%nat
  | 2%nat => c 1%nat 0%nat
  | _ => c 1%nat 1%nat
  end.

(** Weight sextuples (w0,w1,w2,w0m,w1m,w2m) in one direction for cell width h and local abscissa x,
    eos_helmholtz.hpp:1069-1110 ([hi] = 1/h is what robust::ratio(1.0,h) yields, see C01).
    order 0: si*, order 1: dsi*, order 2: ddsi*. *)
Record W6 := mkW6 { w0 : R; w1 : R; w2 : R; w0m : R; w1m : R; w2m : R }.
Definition weights5 (order : nat) (h x : R) : W6 :=
  let hi := 1 / h in
  let mx := 1 - x in
  match order with
  | O => mkW6 (psi0 x) (psi1 x * h) (psi2 x * (h * h)) (psi0 mx) (- psi1 mx * h) (psi2 mx * (h * h))
  | S O => mkW6 (dpsi0 x * hi) (dpsi1 x) (dpsi2 x * h) (- dpsi0 mx * hi) (dpsi1 mx) (- dpsi2 mx * h)
  | _ => mkW6 (ddpsi0 x * (hi * hi)) (ddpsi1 x * hi) (ddpsi2 x)
              (ddpsi0 mx * (hi * hi)) (- ddpsi1 mx * hi) (ddpsi2 mx)
  end.
(** calls of h5 in eos_helmholtz.hpp:1113-1136: order od in density, ot in temperature *)
Definition interp5 (D : nodal) (od ot : nat) (hd xd ht xt : R) : R :=
  let a := weights5 ot ht xt in
  let b := weights5 od hd xd in
  h5 (fi5 D) (w0 a) (w1 a) (w2 a) (w0m a) (w1m a) (w2m a)
             (w0 b) (w1 b) (w2 b) (w0m b) (w1m b) (w2m b).

(** eos_helmholtz.hpp:1140-1163 *)
Record W4 := mkW4 { v0 : R; v1 : R; v0m : R; v1m : R }.
Definition weights3 (order : nat) (h x : R) : W4 :=
  let hi := 1 / h in
  let mx := 1 - x in
  match order with
  | O => mkW4 (xpsi0 x) (xpsi1 x * h) (xpsi0 mx) (- xpsi1 mx * h)
  | _ => mkW4 (xdpsi0 x * hi) (xdpsi1 x) (- xdpsi0 mx * hi) (xdpsi1 mx)
  end.
Definition interp3 (D : nodal) (od ot : nat) (hd xd ht xt : R) : R :=
  let a := weights3 ot ht xt in
  let b := weights3 od hd xd in
  h3 (fi3 D) (v0 a) (v1 a) (v0m a) (v1m a) (v0 b) (v1 b) (v0m b) (v1m b).
