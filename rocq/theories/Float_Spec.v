(** Specification of binary floating-point formats and of correct rounding,
    independent of the model.  A float is its bit pattern (a [Z]); its value is
    an integer number of units of 2^-1074 (the smallest positive binary64
    value), so every value of every format below is an integer and the
    specification needs no real numbers. *)
From Coq Require Import ZArith Bool.
Local Open Scope Z_scope.

(** IEEE 754 interchange format: 1 sign bit, [ebits] exponent bits, [mbits]
    mantissa bits. *)
Record fmt := { ebits : Z; mbits : Z }.
Definition binary16 := {| ebits := 5; mbits := 10 |}.
Definition bfloat16 := {| ebits := 8; mbits := 7 |}.
Definition binary32 := {| ebits := 8; mbits := 23 |}.
Definition binary64 := {| ebits := 11; mbits := 52 |}.

Definition bias (f : fmt) : Z := 2 ^ (ebits f - 1) - 1.
(** Number of bits, and the patterns of that width. *)
Definition fwidth (f : fmt) : Z := 1 + ebits f + mbits f.
Definition is_pattern (f : fmt) (b : Z) : Prop := 0 <= b < 2 ^ fwidth f.

(** Sign bit, and the remaining bits (exponent and mantissa). *)
Definition negative (f : fmt) (b : Z) : bool := 2 ^ (ebits f + mbits f) <=? b.
Definition magnitude (f : fmt) (b : Z) : Z := b mod 2 ^ (ebits f + mbits f).

(** The magnitude of infinity: exponent all ones, mantissa zero.  Finite values
    are below, NaNs above. *)
Definition inf_mag (f : fmt) : Z := (2 ^ ebits f - 1) * 2 ^ mbits f.
Definition is_nan (f : fmt) (b : Z) : Prop := inf_mag f < magnitude f b.
Definition is_inf (f : fmt) (b : Z) : Prop := magnitude f b = inf_mag f.

(** Absolute value denoted by a magnitude, in units of 2^-1074: exponent field
    [e], mantissa field [x]; (x / 2^mbits) * 2^(1 - bias) for e = 0, and
    (1 + x / 2^mbits) * 2^(e - bias) otherwise.  Applied to [inf_mag] it yields
    2^(bias + 1), the first power of two above the finite range. *)
Definition mag_value (f : fmt) (m : Z) : Z :=
  let e := m / 2 ^ mbits f in
  let x := m mod 2 ^ mbits f in
  if e =? 0 then x * 2 ^ (1074 + 1 - bias f - mbits f)
  else (2 ^ mbits f + x) * 2 ^ (1074 + e - bias f - mbits f).

(** Signed value of a non-NaN pattern, in units of 2^-1074. *)
Definition value (f : fmt) (b : Z) : Z :=
  if negative f b then - mag_value f (magnitude f b) else mag_value f (magnitude f b).

(** [r] is the magnitude that round-to-nearest, ties-to-even yields for the
    absolute value [v]: no other magnitude is closer, and if one is equally
    close then [r] is the even one.  Infinity takes part as 2^(bias + 1), which
    is how IEEE 754 (4.3.1) decides overflow: values from half an ulp below
    2^(bias + 1) on round to infinity. *)
Definition nearest_even (f : fmt) (v r : Z) : Prop :=
  0 <= r <= inf_mag f /\
  forall y, 0 <= y <= inf_mag f -> y <> r ->
    Z.abs (v - mag_value f r) < Z.abs (v - mag_value f y)
    \/ Z.abs (v - mag_value f r) = Z.abs (v - mag_value f y) /\ Z.even r = true.

(** [r] (format [g]) is the correctly rounded conversion of [b] (format [f]):
    the sign is kept, NaN goes to NaN, infinity to infinity, and a finite value
    to the nearest one, ties to even. *)
Definition correct_conversion (f g : fmt) (b r : Z) : Prop :=
  is_pattern g r /\
  negative g r = negative f b /\
  (is_nan f b -> is_nan g r) /\
  (is_inf f b -> is_inf g r) /\
  (magnitude f b < inf_mag f -> nearest_even g (mag_value f (magnitude f b)) (magnitude g r)).

(** [r] (format [g]) denotes exactly the same value as [b] (format [f]). *)
Definition exact_conversion (f g : fmt) (b r : Z) : Prop :=
  is_pattern g r /\
  negative g r = negative f b /\
  (is_nan f b -> is_nan g r) /\
  (is_inf f b -> is_inf g r) /\
  (magnitude f b < inf_mag f -> magnitude g r < inf_mag g /\ value g r = value f b).

(** [r] is the correctly rounded conversion of the integer [x] to [g]. *)
Definition correct_int_conversion (g : fmt) (x r : Z) : Prop :=
  is_pattern g r /\ negative g r = (x <? 0) /\
  nearest_even g (Z.abs x * 2 ^ 1074) (magnitude g r).

(** The order of float values: false if either operand is NaN; infinities are
    beyond every finite value; -0 equals +0. *)
Definition float_lt (f : fmt) (a b : Z) : Prop := ~ is_nan f a /\ ~ is_nan f b /\ value f a < value f b.
Definition float_eq (f : fmt) (a b : Z) : Prop := ~ is_nan f a /\ ~ is_nan f b /\ value f a = value f b.

(** The formats of float16_t, bfloat16_t, float and double. *)
Definition hwy_float (f : fmt) : Prop :=
  f = binary16 \/ f = bfloat16 \/ f = binary32 \/ f = binary64.
