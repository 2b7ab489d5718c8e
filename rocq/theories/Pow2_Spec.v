(** Specification of multiplication by a power of two (std::ldexp): the exact product, rounded once to nearest even. *)
From Coq Require Import ZArith Bool.
From Verif Require Import Float_Spec Rounding_Spec.
Open Scope Z_scope.
(** nearest_even (Float_Spec) of the value num * 2^-k *)
Definition nearest_even_scaled (f : fmt) (num k r : Z) : Prop :=
  0 <= r <= inf_mag f /\
  forall y, 0 <= y <= inf_mag f -> y <> r ->
    Z.abs (num - mag_value f r * 2 ^ k) < Z.abs (num - mag_value f y * 2 ^ k)
    \/ Z.abs (num - mag_value f r * 2 ^ k) = Z.abs (num - mag_value f y * 2 ^ k) /\ Z.even r = true.
(** magnitude [r] is that of the value of magnitude [x] times 2^e, rounded *)
Definition times_pow2 (f : fmt) (x e r : Z) : Prop := nearest_even_scaled f (mag_value f x * 2 ^ Z.max 0 e) (Z.max 0 (- e)) r.
(** [r] is std::ldexp(v, e) *)
Definition is_ldexp (f : fmt) (v e r : Z) : Prop :=
  is_pattern f r /\ (is_nan f v -> is_nan f r) /\ (is_inf f v -> r = v) /\
  (magnitude f v < inf_mag f -> negative f r = negative f v /\ times_pow2 f (magnitude f v) e (magnitude f r)).
(** formats with SIMD arithmetic *)
Definition simd_float (f : fmt) : Prop := f = binary16 \/ f = binary32 \/ f = binary64.
(** lane sizes used for Min, Max and for SaturatedSub, per target: at least as wide as needed (static_asserts, generic_ops 1282), dividing the lane size *)
Definition lanes_ok (f : fmt) (Lmm Lss : Z) : Prop :=
  (exists n : nat, fwidth f = Z.of_nat n * Lmm) /\ (exists n : nat, fwidth f = Z.of_nat n * Lss) /\ 3 * bias f < 2 ^ (Lmm - 1) /\ 0 < Lmm /\ ebits f <= Lss.
(** [r] is v * 2^floor(b) for floats [v], [b] *)
Definition is_floor_pow2 (f : fmt) (v b r : Z) : Prop :=
  is_pattern f r /\ (is_nan f v \/ is_nan f b -> is_nan f r) /\
  (is_inf f b -> negative f b = false -> (magnitude f v = 0 -> is_nan f r) /\ (0 < magnitude f v <= inf_mag f -> is_inf f r /\ negative f r = negative f v)) /\
  (is_inf f b -> negative f b = true -> (is_inf f v -> is_nan f r) /\ (magnitude f v < inf_mag f -> magnitude f r = 0 /\ negative f r = negative f v)) /\
  (magnitude f b < inf_mag f -> forall n, is_floor (value f b) n -> is_ldexp f v n r).
(** 2^e, in units of 2^-1074 *)
Definition pow2_value (e : Z) : Z := 2 ^ (1074 + e).
(** the exponent of v: 2^e <= |v| < 2^(e + 1) if v is normal; one less than the smallest and one more than the largest exponent for zero and subnormal, resp. infinity and NaN *)
Definition is_exponent (f : fmt) (v e : Z) : Prop :=
  let a := mag_value f (magnitude f v) in
  (a < pow2_value (1 - bias f) -> e = - bias f) /\ (inf_mag f <= magnitude f v -> e = bias f + 1) /\
  (pow2_value (1 - bias f) <= a -> magnitude f v < inf_mag f -> pow2_value e <= a < pow2_value (e + 1)).
