(** Model of singularity-eos/base/fast-math/logs.hpp.
    Portable variants: exact reals (rounding of the handful of operations is not modelled).
    Aliased variants: the int64 bit-pattern arithmetic exactly (on Z, with the int64 range proved), and
    the double operations with correct rounding (Flocq). *)
From Coq Require Import ZArith Reals.
From Flocq Require Import Core.
Local Open Scope R_scope.

Definition rnd (x : R) : R := round radix2 (FLT_exp (-1074) 53) ZnearestE x.

(** frexp (C standard): x = m * 2^e, m in [1/2,1) for x > 0 *)
Definition frexp_e (x : R) : Z := mag radix2 x.
Definition frexp_m (x : R) : R := x * bpow radix2 (- frexp_e x).

(** logs.hpp:134-140 *)
Definition lg_o1_portable (x : R) : R := 2 * (frexp_m x - 1) + IZR (frexp_e x).
(** logs.hpp:142-149; std::floor, ldexp(m,e) = m*2^e *)
Definition pow2_o1_portable (y : R) : R :=
  let flr := Zfloor y in
  let remainder := y - IZR flr in
  /2 * (remainder + 1) * bpow radix2 (flr + 1).
(** logs.hpp:172-179 *)
Definition lg_o2_portable (x : R) : R :=
  let m := frexp_m x in IZR (frexp_e x) - 4 / 3 * (m - 2) * (m - 1).
(** logs.hpp:182-190 *)
Definition pow2_o2_portable (y : R) : R :=
  let flr := Zfloor y in
  let lm := y - IZR flr - 1 in
  let mantissa := /2 * (3 - sqrt (1 - 3 * lm)) in
  mantissa * bpow radix2 (flr + 1).

(** logs.hpp:111-127 constants *)
Definition one_as_int : Z := 2^62 - 2^52.
(** the binary64 value of the literal 2.22044604925031e-16 (NOT 2^-52; see scale_down_literal) *)
Definition scale_down : R := IZR 4503599627370490 * bpow radix2 (-104).
Definition scale_up : R := IZR (2^52).
Definition mantissa_mask : Z := 2^52 - 1.
Definition low_mask : Z := 2^26 - 1.

(** logs.hpp:152-157 on the bit pattern b = as_int(x) *)
Definition lg_o1_int (b : Z) : Z := b - one_as_int.
Definition lg_o1_aliased (b : Z) : R := rnd (rnd (IZR (lg_o1_int b)) * scale_down).
(** logs.hpp:159-163; the result is the bit pattern handed to as_double *)
Definition to_int (x : R) : Z := Ztrunc (rnd (x * scale_up)).
Definition pow2_o1_aliased (x : R) : Z := (to_int x + one_as_int)%Z.

(** logs.hpp:193-205 *)
Definition frac_squared (frac : Z) : Z :=
  let hi := Z.shiftr frac 26 in
  let lo := Z.land frac low_mask in
  (hi * hi + Z.shiftr (hi * lo) 25)%Z.
Definition lg_o2_int (b : Z) : Z :=
  let x := (b - one_as_int)%Z in
  let frac := Z.land x mantissa_mask in
  (x + Z.quot (frac - frac_squared frac) 3)%Z.
Definition lg_o2_aliased (b : Z) : R := rnd (rnd (IZR (lg_o2_int b)) * scale_down).
(** logs.hpp:207-220, after x has been converted to the integer x_as_int *)
Definition frac_sqrt (frac : Z) : Z :=
  Ztrunc (rnd (IZR 67108864 * rnd (sqrt (rnd (IZR (18014398509481984 - 3 * frac)))))).
Definition pow2_o2_int (x_as_int : Z) : Z :=
  let frac := Z.land x_as_int mantissa_mask in
  (x_as_int + 9007199254740992 - frac_sqrt frac - frac + one_as_int)%Z.
Definition pow2_o2_aliased (x : R) : Z := pow2_o2_int (to_int x).

(** logs.hpp:287-297 (exact-real value of the literals) for a given lg/pow2 pair *)
Definition LOG2OLOG10 : R := 301029995663981195 / 1000000000000000000.
Definition LOG10OLOG2 : R := 3321928094887362626 / 1000000000000000000.
Definition fm_log10 (lg : R -> R) (x : R) : R := LOG2OLOG10 * lg x.
Definition fm_pow10 (pow2 : R -> R) (x : R) : R := pow2 (LOG10OLOG2 * x).

(** IEEE-754 value of the bit pattern b of a positive normal binary64 (logs.hpp:106-109 reinterpret) *)
Definition bits_value (b : Z) : R :=
  (1 + IZR (b mod 2^52) / IZR (2^52)) * bpow radix2 (b / 2^52 - 1023).
