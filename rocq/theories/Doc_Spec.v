(** The closed forms of doc/sphinx/src/models.rst, transcribed from the manual (not from the code) as plain functions of the constructor
    parameters and the state. Nothing here mentions the model of the code. Line numbers refer to models.rst. *)
From Coq Require Import Reals.
From Coquelicot Require Import Coquelicot.
Local Open Scope R_scope.

(** measure of compression used by the Hugoniot-based EOS, models.rst:846, 1147 *)
Definition compression (rho0 rho : R) : R := 1 - rho0 / rho.
(** Mie-Gruneisen form, models.rst:822, 1097, 1336, 1385 *)
Definition mie_gruneisen (P_ref e_ref Gamma rho e : R) : R := P_ref + rho * Gamma * (e - e_ref).

(** ** Ideal gas, models.rst:474-520 *)
Definition ideal_P (G rho e : R) : R := G * rho * e.
Definition ideal_e (Cv T : R) : R := Cv * T.
Definition ideal_S (G Cv rho0 T0 rho T : R) : R := Cv * ln (T / T0) + G * Cv * ln (rho0 / rho).
Definition ideal_rho0 (P0 G Cv T0 : R) : R := P0 / (G * Cv * T0).
(** defaults of the manual: T0 = 298 K, P0 = 1 bar = 10^6 microbar *)
Definition default_T0 : R := 298.
Definition default_P0 : R := 10 ^ 6.

(** ** Ideal electrons, models.rst:560-590 *)
Definition electron_P (mp kb Abar Z rho T : R) : R := rho / (mp * Abar) * Z * kb * T.
Definition electron_Cv (mp kb Abar Z : R) : R := Z * kb / (2 / 3 * mp * Abar).

(** ** Stiffened gas, models.rst:640-660 *)
Definition stiff_P (G Pinf q rho e : R) : R := G * rho * (e - q) - (G + 1) * Pinf.
Definition stiff_e (G Cv Pinf q P T : R) : R := (P + (G + 1) * Pinf) / (P + Pinf) * Cv * T + q.
Definition stiff_S (G Cv q' rho0 T0 rho T : R) : R := Cv * ln (T / T0) + G * Cv * ln (rho0 / rho) + q'.
Definition stiff_rho0 (P0 Pinf G Cv T0 : R) : R := (P0 + Pinf) / (G * Cv * T0).

(** ** Noble-Abel, models.rst:700-725 *)
Definition noble_P (G b q rho e : R) : R := rho * (e - q) * G / (1 - b * rho).
Definition noble_e (Cv q T : R) : R := Cv * T + q.
Definition noble_S (G Cv b q' rho0 T0 rho T : R) : R := Cv * ln (T / T0) + Cv * G * ln ((1 / rho - b) / (1 / rho0 - b)) + q'.
Definition noble_rho0 (P0 G Cv b T0 : R) : R := P0 / (Cv * T0 * G + b * P0).

(** ** Carnahan-Starling, models.rst:752-800 *)
Definition carnahan_Z (b rho : R) : R := let eta := b * rho in (1 + eta + eta ^ 2 - eta ^ 3) / (1 - eta) ^ 3.
Definition carnahan_P (G b q rho e : R) : R := carnahan_Z b rho * rho * (e - q) * G.
Definition carnahan_S_CS (b v v0 : R) : R := b * (4 * (1 / (v - b) - 1 / (v0 - b)) + b * (1 / (v - b) ^ 2 - 1 / (v0 - b) ^ 2)).
Definition carnahan_S (G Cv b q' rho0 T0 rho T : R) : R :=
  Cv * ln (T / T0) + Cv * G * (ln ((1 / rho) / (1 / rho0)) - carnahan_S_CS b (1 / rho) (1 / rho0)) + q'.

(** ** Gruneisen, models.rst:822-900 *)
Definition steinberg_Gamma (G0 b eta : R) : R := if Rle_dec eta 0 then G0 else G0 * (1 - eta) + b * eta.
Definition steinberg_P_H (c0 s1 s2 s3 rho0 P0 rho : R) : R :=
  let eta := compression rho0 rho in
  P0 + c0 ^ 2 * eta * (if Rlt_dec rho rho0 then rho else rho0 / (1 - s1 * eta - s2 * eta ^ 2 - s3 * eta ^ 3) ^ 2).
Definition steinberg_E_H (c0 s1 s2 s3 rho0 P0 rho : R) : R :=
  if Rlt_dec rho rho0 then 0 else compression rho0 rho * (steinberg_P_H c0 s1 s2 s3 rho0 P0 rho + P0) / (2 * rho0).
Definition steinberg_T (Cv T0 e : R) : R := e / Cv + T0.

(** ** Vinet, models.rst:960-1030. d_0 = 1, d_1 = 0, d_2 .. d_N from the user *)
Definition vinet_X (rho0 rho : R) : R := Rpower (rho0 / rho) (1 / 3).
Definition vinet_eta0 (BP0 : R) : R := 3 / 2 * (BP0 - 1).
Definition vinet_P (N : nat) (d : nat -> R) (B0 BP0 alpha0 Tref rho0 rho T : R) : R :=
  let X := vinet_X rho0 rho in let Z := 1 - X in
  3 * B0 / X ^ 2 * Z * exp (vinet_eta0 BP0 * Z) * (1 + sum_n_m (fun n => d n * Z ^ n) 2 N) + alpha0 * B0 * (T - Tref).
Definition vinet_S (S0 alpha0 B0 Cv0 Tref rho0 rho T : R) : R := S0 + alpha0 * B0 * (1 / rho - 1 / rho0) + Cv0 * ln (T / Tref).
(** the energy coefficients f_n, given the pressure coefficients d_n *)
Definition vinet_coefficients (N : nat) (eta0 : R) (d f : nat -> R) : Prop :=
  f N = d N /\ forall n, (n < N)%nat -> f n = d n - INR (n + 2) / eta0 * f (n + 1)%nat.
Definition vinet_E (N : nat) (f : nat -> R) (B0 BP0 alpha0 Cv0 E0 Tref rho0 rho T : R) : R :=
  let X := vinet_X rho0 rho in let Z := 1 - X in let eta0 := vinet_eta0 BP0 in let V0 := 1 / rho0 in
  9 * (B0 * V0 / eta0 ^ 2) * (f 0%nat - exp (eta0 * Z) * (f 0%nat - eta0 * Z * (f 0%nat + sum_n_m (fun n => f n * Z ^ n) 1 N)))
  - alpha0 * B0 * V0 * (1 - X ^ 3) * Tref + Cv0 * (T - Tref) + E0.

(** ** Linear Us-up, models.rst:1090-1200 *)
Definition usup_P_eta (Cs s rho0 eta : R) : R := Cs ^ 2 * rho0 * (eta / (1 - s * eta) ^ 2).
Definition usup_P_H (Cs s rho0 rho : R) : R := usup_P_eta Cs s rho0 (compression rho0 rho).
Definition usup_E_H (Cs s E0 rho0 rho : R) : R := usup_P_H Cs s rho0 rho * compression rho0 rho / (2 * rho0) + E0.
Definition usup_S (S0 G0 Cv T0 rho0 rho T : R) : R := S0 - G0 * Cv * compression rho0 rho + Cv * ln (T / T0).
(** the integral equation for the temperature on a Hugoniot P_H given as a function of eta (equation TH of the manual); [slope z] = d/dz (P_H / z) *)
Definition hugoniot_T (slope : R -> R) (T0 G0 Cv rho0 eta : R) : R :=
  T0 * exp (G0 * eta) + exp (G0 * eta) / (2 * Cv * rho0) * RInt (fun z => exp (- G0 * z) * z ^ 2 * slope z) 0 eta.
Definition is_hugoniot_slope (P_H slope : R -> R) (eta : R) : Prop := forall z, 0 < z < eta -> is_derive (fun y => P_H y / y) z (slope z).
(** the expansion for small s eta, models.rst:1190 *)
Definition usup_T_small (T0 G0 Cs Cv s eta : R) : R :=
  T0 * exp (G0 * eta) + Cs ^ 2 / (2 * Cv * s ^ 2) * (- 2 * ln (1 - s * eta) + s * eta / (1 - s * eta) ^ 2 * (3 * s * eta - 2)).

(** ** Power series, models.rst:1222-1290; K_0 .. K_M *)
Definition power_P_comp (M : nat) (K : nat -> R) (eta : R) : R := K 0%nat * eta * (1 + sum_n_m (fun n => K n * eta ^ n) 1 M).
Definition power_P_H (M : nat) (K : nat -> R) (Pmin eta : R) : R :=
  if Rle_dec 0 eta then power_P_comp M K eta
  else if Rle_dec (Pmin / K 0%nat) eta then K 0%nat * eta else Pmin.
Definition power_E_H (M : nat) (K : nat -> R) (Pmin rho0 E0 eta : R) : R :=
  let eta_min := Pmin / K 0%nat in
  if Rle_dec 0 eta then power_P_H M K Pmin eta * eta / (2 * rho0) + E0
  else if Rle_dec eta_min eta then K 0%nat * eta ^ 2 / (2 * rho0) + E0
  else K 0%nat * eta_min ^ 2 / (2 * rho0) + E0 + Pmin / rho0 * (eta - eta_min).
(** I_n *)
Definition power_I (G0 eta : R) (n : nat) : R := RInt (fun z => exp (- G0 * z) * z ^ (n - 1)) 0 eta.
Definition power_T_H (M : nat) (K : nat -> R) (T0 G0 Cv rho0 eta : R) : R :=
  if Rle_dec 0 eta then
    T0 * exp (G0 * eta) + exp (G0 * eta) / (2 * Cv * rho0) * K 0%nat * sum_n_m (fun n => INR n * K n * power_I G0 eta (n + 1)) 1 M
  else T0 * exp (G0 * eta).

(** ** JWL, models.rst:1336-1360 *)
Definition jwl_P_S (A B R1 R2 rho0 rho : R) : R := let eta := rho0 / rho in A * exp (- R1 * eta) + B * exp (- R2 * eta).
Definition jwl_e_S (A B R1 R2 rho0 rho : R) : R :=
  let eta := rho0 / rho in A / (rho0 * R1) * exp (- R1 * eta) + B / (rho0 * R2) * exp (- R2 * eta).

(** ** Davis reactants, models.rst:1400-1490 *)
Definition davisr_Gamma (G0 Z rho0 rho : R) : R := G0 + (if Rlt_dec rho rho0 then 0 else Z * compression rho0 rho).
Definition davisr_T_S (T0 G0 Z rho0 rho : R) : R :=
  if Rlt_dec rho rho0 then T0 * Rpower (rho / rho0) G0
  else T0 * exp (- Z * compression rho0 rho) * Rpower (rho / rho0) (G0 + Z).
Definition davisr_P_S (P0 A B C rho0 rho : R) : R :=
  let y := compression rho0 rho in
  P0 + rho0 * A ^ 2 / (4 * B) *
    (if Rlt_dec rho rho0 then exp (4 * B * y) - 1
     else sum_n_m (fun j => (4 * B * y) ^ j / INR (fact j)) 1 3 + C * (4 * B * y) ^ 4 / INR (fact 4) + y ^ 2 / (1 - y) ^ 4).
Definition davisr_e_S (e0 P0 A B C rho0 rho : R) : R := e0 + RInt (fun r => davisr_P_S P0 A B C rho0 r / r ^ 2) rho0 rho.
Definition davisr_e (e_S T_S Cv0 alpha T : R) : R := e_S + Cv0 * T_S / (1 + alpha) * (Rpower (T / T_S) (1 + alpha) - 1).
Definition davisr_S (Cv0 alpha T_S T : R) : R := Cv0 / alpha * Rpower (T / T_S) alpha.
(** the specific heat is linear in the entropy *)
Definition davisr_Cv (Cv0 alpha S S0 : R) : R := Cv0 + alpha * (S - S0).

(** ** Davis products, models.rst:1510-1580 *)
Definition davisp_F (a n vc rho : R) : R := 2 * a * Rpower (rho * vc) n / (Rpower (rho * vc) (- n) + Rpower (rho * vc) n).
Definition davisp_Gamma (a b k n vc rho : R) : R := k - 1 + (1 - b) * davisp_F a n vc rho.
Definition davisp_G (a k n vc rho : R) : R :=
  Rpower (1 / 2 * Rpower (rho * vc) (- n) + 1 / 2 * Rpower (rho * vc) n) (a / n) / Rpower (rho * vc) (- (k + a)).
Definition davisp_P_S (a k n vc pc rho : R) : R := pc * davisp_G a k n vc rho * ((k - 1 + davisp_F a n vc rho) / (k - 1 + a)).
Definition davisp_e_S (a k n vc pc rho : R) : R := pc * vc / (k - 1 + a) * davisp_G a k n vc rho * (1 / (rho * vc)).
Definition davisp_T_S (T_C a b k n vc rho : R) : R := T_C * davisp_G a k n vc rho * (1 / Rpower (rho * vc) (b * a + 1)).
