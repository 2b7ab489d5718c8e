(** Model of the scalar float conversions in hwy/base.h, on bit patterns
    ([BitCastScalar] between a float and the unsigned integer of the same size
    is the identity here).  Modelled are the portable bodies, used when the
    compiler has no native _Float16/__bf16 operators
    (HWY_HAVE_SCALAR_F16_OPERATORS = 0, HWY_HAVE_SCALAR_BF16_OPERATORS = 0). *)
From Coq Require Import ZArith Bool List.
From Verif Require Import Word Float_Spec.
Local Open Scope Z_scope.

(** IEEE 754 rounding of a non-negative value [v] (units of 2^-1074) to a
    magnitude of format [f], in round-to-nearest-even mode: what the hardware
    does for float arithmetic and conversions (the C++ built-in operations used
    by the modelled code; base.h assumes the default rounding mode).  The
    quantum has exponent max(floor(log2 v) - mbits, emin - mbits); the quotient
    is rounded, and the result clamped to infinity. *)
Definition ieee_round (f : fmt) (v : Z) : Z :=
  let s0 := 1074 + 1 - bias f - mbits f in
  let s := Z.max (Z.log2 v - mbits f) s0 in
  let q := v / 2 ^ s in
  let rem := v mod 2 ^ s in
  let up := (2 ^ s <? 2 * rem) || ((2 * rem =? 2 ^ s) && Z.odd q) in
  let q := if up then q + 1 else q in
  Z.min ((s - s0) * 2 ^ mbits f + q) (inf_mag f).

(** C++ built-in float multiplication restricted to non-negative finite
    operands (magnitudes): exact product, rounded.  The product of two binary32
    values is an integer multiple of 2^-298, so the division by 2^1074 is
    exact.  Used by F32FromF16 only. *)
Definition f32_mul_mag (a b : Z) : Z :=
  ieee_round binary32 (mag_value binary32 a * mag_value binary32 b / 2 ^ 1074).

(** [static_cast<float>(x)] for an unsigned integer. *)
Definition f32_of_uint (x : Z) : Z := ieee_round binary32 (x * 2 ^ 1074).

(** [static_cast<float>(double)]: IEEE 754 conversion in the default rounding
    mode.  Which NaN a NaN becomes is the hardware's choice: [nan] maps the
    binary64 pattern to the mantissa of the binary32 result. *)
Definition f32_of_f64 (nan : Z -> Z) (b : Z) : Z :=
  let sign := Z.shiftr b 63 in
  let m := wrap 63 b in
  Z.lor (Z.shiftl sign 31)
    (if inf_mag binary64 <? m then inf_mag binary32 + nan b
     else if inf_mag binary64 =? m then inf_mag binary32
     else ieee_round binary32 (mag_value binary64 m)).

(** hwy/base.h:1442-1468 F32FromF16 (portable body). 0x38800000 is 1.0f / 16384
    and 0x3A800000 is 1.0f / 1024 (both exact). *)
Definition f32_from_f16 (bits16 : Z) : Z :=
  let sign := Z.shiftr bits16 15 in
  let biased_exp := Z.land (Z.shiftr bits16 10) 0x1F in
  let mantissa := Z.land bits16 0x3FF in
  if biased_exp =? 0 then
    let subnormal := f32_mul_mag 0x38800000 (f32_mul_mag (f32_of_uint mantissa) 0x3A800000) in
    if negb (sign =? 0) then Z.lor subnormal (2 ^ 31) (* unary minus *) else subnormal
  else
    let biased_exp32 := if biased_exp =? 31 then 0xFF else wrap 32 (biased_exp + (127 - 15)) in
    let mantissa32 := wrap 32 (Z.shiftl mantissa (23 - 10)) in
    Z.lor (Z.lor (wrap 32 (Z.shiftl sign 31)) (wrap 32 (Z.shiftl biased_exp32 23))) mantissa32.

(** hwy/base.h:1511-1592 F16FromF32 (portable body).  [None]: one of the
    HWY_F16_FROM_F32_DASSERT fails (debug builds abort). *)
Definition f16_from_f32 (bits32 : Z) : option Z :=
  let sign := Z.shiftr bits32 31 in
  let biased_exp32 := Z.land (Z.shiftr bits32 23) 0xFF in
  let kMantissaMask := 0x7FFFFF in
  let mantissa32 := Z.land bits32 kMantissaMask in
  let f16_ulp_bit_idx := Z.min (Z.max (126 - biased_exp32) 13) 24 in
  let odd_bit := Z.land (Z.shiftr (Z.lor mantissa32 0x800000) f16_ulp_bit_idx) 1 in
  let rounded := wrap 32 (mantissa32 + odd_bit + Z.shiftl 1 (f16_ulp_bit_idx - 1) - 1) in
  let carry := 2 ^ 23 <=? rounded in
  let exp := biased_exp32 - 127 + (if carry then 1 else 0) in
  if exp <? -24 then Some (wrap 16 (Z.shiftl sign 15))
  else
    let is_nan := (biased_exp32 =? 255) && negb (mantissa32 =? 0) in
    let overflowed := 16 <=? exp in
    let biased_exp16 := Z.min (Z.max 0 (exp + 15)) 31 in
    let sub_exp := Z.max (-14 - exp) 0 in
    if negb (sub_exp <? 11) then None else
    let shifted_mantissa := Z.shiftr (Z.land rounded kMantissaMask) (23 - 10 + sub_exp) in
    let leading := if sub_exp =? 0 then 0 else Z.shiftr 1024 sub_exp in
    let mantissa16 := if is_nan then 0x3FF else if overflowed then 0 else leading + shifted_mantissa in
    if (exp <? -14) && negb ((biased_exp16 =? 0) && (1 <=? sub_exp)) then None else
    if negb (exp <? -14) && (exp <=? 15) && negb ((1 <=? biased_exp16) && (biased_exp16 <? 31) && (sub_exp =? 0)) then None else
    if negb (mantissa16 <? 1024) then None else
    let bits16 := Z.lor (Z.lor (wrap 32 (Z.shiftl sign 15)) (wrap 32 (Z.shiftl biased_exp16 10))) mantissa16 in
    if negb (bits16 <? 0x10000) then None else
    Some (wrap 16 bits16).

(** hwy/base.h:1594-1634 F16FromF64 (portable body). *)
Definition f16_round_to_odd (b : Z) : Z :=
  Z.lor (Z.land b 0xFFFFFFFFE0000000) (Z.land (wrap 64 (b + 0x1FFFFFFF)) 0x20000000).
Definition f16_from_f64 (nan : Z -> Z) (b : Z) : option Z :=
  f16_from_f32 (f32_of_f64 nan (f16_round_to_odd b)).

(** hwy/base.h:1932-1939 F32FromBF16 (portable body). *)
Definition f32_from_bf16 (b : Z) : Z := wrap 32 (Z.shiftl b 16).

(** hwy/base.h:1944-1950 F32BitsToBF16RoundIncr. *)
Definition f32_bits_to_bf16_round_incr (b : Z) : Z :=
  if Z.land b 0x7FFFFFFF <? 0x7F800000 then 0x7FFF + Z.land (Z.shiftr b 16) 1 else 0.

(** hwy/base.h:1952-1967 F32BitsToBF16Bits; 1971-1976 BF16FromF32. *)
Definition bf16_from_f32 (b : Z) : Z :=
  wrap 16 (Z.lor (Z.shiftr (wrap 32 (b + f32_bits_to_bf16_round_incr b)) 16)
                 (Z.shiftl (if 0x7F800000 <? Z.land b 0x7FFFFFFF then 1 else 0) 6)).

(** hwy/base.h:1978-2014 BF16FromF64. *)
Definition bf16_round_to_odd (b : Z) : Z :=
  Z.lor (Z.land b 0xFFFFFFC000000000) (Z.land (wrap 64 (b + 0x3FFFFFFFFF)) 0x4000000000).
Definition bf16_from_f64 (nan : Z -> Z) (b : Z) : Z :=
  bf16_from_f32 (f32_of_f64 nan (bf16_round_to_odd b)).

(** Built-in comparisons of binary32 operands (IEEE 754: false if either is
    NaN). *)
Definition f32_nan (b : Z) : bool := inf_mag binary32 <? magnitude binary32 b.
Definition f32_lt (a b : Z) : bool :=
  negb (f32_nan a) && negb (f32_nan b) && (value binary32 a <? value binary32 b).
Definition f32_eq (a b : Z) : bool :=
  negb (f32_nan a) && negb (f32_nan b) && (value binary32 a =? value binary32 b).

(** hwy/base.h:1638-1700 and 2018-2080: the comparison operators of float16_t
    and bfloat16_t convert both sides to float.  != is !(==), and >, <=, >=
    are the built-in float comparisons likewise. *)
Definition f16_lt (a b : Z) : bool := f32_lt (f32_from_f16 a) (f32_from_f16 b).
Definition f16_eq (a b : Z) : bool := f32_eq (f32_from_f16 a) (f32_from_f16 b).
Definition bf16_lt (a b : Z) : bool := f32_lt (f32_from_bf16 a) (f32_from_bf16 b).
Definition bf16_eq (a b : Z) : bool := f32_eq (f32_from_bf16 a) (f32_from_bf16 b).

(** hwy/base.h:2434-2437 SignMask, 2440-2444 ExponentMask, 2428-2431
    MaxExponentTimes2 (converted to unsigned by its user). *)
Definition sign_mask (f : fmt) : Z := Z.shiftl 1 (fwidth f - 1).
Definition bit_not (w x : Z) : Z := wrap w (Z.lnot x).
Definition exponent_mask (f : fmt) : Z :=
  Z.land (wrap (fwidth f) (bit_not (fwidth f) (Z.shiftl 1 (mbits f)) + 1)) (bit_not (fwidth f) (sign_mask f)).
Definition max_exponent_times2 (f : fmt) : Z := - Z.shiftl 1 (mbits f + 1).

(** hwy/base.h:3087-3098, 3115-3120 ScalarAbs for float types. *)
Definition scalar_abs (f : fmt) (b : Z) : Z := Z.land b (bit_not (fwidth f) (sign_mask f)).
(** hwy/base.h:3122-3127 ScalarIsNaN. *)
Definition scalar_is_nan (f : fmt) (b : Z) : bool := exponent_mask f <? scalar_abs f b.
(** hwy/base.h:3129-3135 ScalarIsInf. *)
Definition scalar_is_inf (f : fmt) (b : Z) : bool :=
  wrap (fwidth f) (Z.shiftl b 1) =? wrap (fwidth f) (max_exponent_times2 f).
(** hwy/base.h:3139-3144, 3155-3161 ScalarIsFinite for float types. *)
Definition scalar_is_finite (f : fmt) (b : Z) : bool := scalar_abs f b <? exponent_mask f.
(** hwy/base.h:3163-3171 ScalarCopySign. *)
Definition scalar_copy_sign (f : fmt) (magn sign : Z) : Z :=
  Z.lor (Z.land magn (bit_not (fwidth f) (sign_mask f))) (Z.land sign (sign_mask f)).
(** hwy/base.h:3173-3179 ScalarSignBit. *)
Definition scalar_sign_bit (f : fmt) (b : Z) : bool := negb (Z.land b (sign_mask f) =? 0).

(** hwy/base.h:2644-2649, 2659-2663 ConvertScalarTo<float16_t>(integer) and
    ConvertScalarTo<bfloat16_t>(integer): through [static_cast<float>].
    2650-2654 and 2664-2667: bfloat16_t <-> float16_t. *)
Definition f32_of_int (x : Z) : Z :=
  Z.lor (if x <? 0 then 2 ^ 31 else 0) (f32_of_uint (Z.abs x)).
Definition f16_of_int (x : Z) : option Z := f16_from_f32 (f32_of_int x).
Definition bf16_of_int (x : Z) : Z := bf16_from_f32 (f32_of_int x).
Definition f16_of_bf16 (b : Z) : option Z := f16_from_f32 (f32_from_bf16 b).
Definition bf16_of_f16 (b : Z) : Z := bf16_from_f32 (f32_from_f16 b).
