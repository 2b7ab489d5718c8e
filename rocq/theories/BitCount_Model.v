(** Model of LeadingZeroCount, TrailingZeroCount and HighestSetBitIndex,
    hwy/ops/generic_ops-inl.h 3876-4157 (targets without native instructions):
    they read the exponent of a conversion to float. A lane is its bits (a
    number below 2^w; signed lanes are BitCast). Simplification: splitting a
    vector in halves and putting it together again (Lower/UpperHalf,
    Ordered*2To) is left out, as every lane goes through the same conversion.
    [sse]: HWY_TARGET between SSE2 and AVX2 (conversion from int32_t,
    saturating demotions); [bytes]: SSE2/SSSE3 (Min and Max on bytes). *)
From Coq Require Import ZArith List Bool.
From Verif Require Import Word Ops_Model Float_Spec Float_Model.
Import ListNotations.
Local Open Scope Z_scope.

(** ConvertTo(df, u32) and ConvertTo(df, i32), as bits *)
Definition f32_of_int (x : Z) : Z := if x <? 0 then 2 ^ 31 + f32_of_uint (- x) else f32_of_uint x.
(** signed 16-bit Min of bit patterns *)
Definition min_i16 (x y : Z) : Z := wrap 16 (Z.min (swrap 16 x) (swrap 16 y)).
(** UIntToF32BiasedExp u32 3887-3913 *)
Definition exp_u32 (sse : bool) (v : Z) : Z :=
  if sse then
    let t := Z.shiftr (f32_of_int (swrap 32 v)) 23 in
    min_i16 (wrap 16 t) 158 + 2 ^ 16 * min_i16 (Z.shiftr t 16) 0
  else Z.shiftr (f32_of_uint v) 23.
(** I32RangeU32ToF32BiasedExp 3915-3928 *)
Definition exp_i32range (sse : bool) (v : Z) : Z := Z.shiftr (if sse then f32_of_int (swrap 32 v) else f32_of_uint v) 23.
(** u16 3930-3959: TruncateTo, or DemoteTo i16 (saturating) *)
Definition exp_u16 (sse : bool) (v : Z) : Z :=
  let e := exp_i32range sse v in
  if sse then wrap 16 (Z.min (Z.max (- 2 ^ 15) (swrap 32 e)) (2 ^ 15 - 1)) else wrap 16 e.
(** u8 3961-4033: truncation twice, or saturating demotion to i16, then to u8 *)
Definition exp_u8 (sse : bool) (v : Z) : Z :=
  let e := exp_i32range sse v in
  if sse then Z.min (Z.max 0 (Z.min (Z.max (- 2 ^ 15) (swrap 32 e)) (2 ^ 15 - 1))) 255 else wrap 8 (wrap 16 e).
(** Max / Min on the parts of [k] bits of a lane ([n] parts), F32ExpLzcntMinMaxRepartition 4037-4059 *)
Fixpoint parts (f : Z -> Z -> Z) (k : Z) (n : nat) (x y : Z) : Z :=
  match n with O => 0 | S n => f (wrap k x) (wrap k y) + 2 ^ k * parts f k n (Z.shiftr x k) (Z.shiftr y k) end.
Definition minmax (scalar bytes : bool) (f : Z -> Z -> Z) (w x y : Z) : Z :=
  let k := if scalar then w else if bytes then 8 else Z.min w 32 in parts f k (Z.to_nat (w / k)) x y.
(** u64 4061-4083; [scalar]: HWY_SCALAR *)
Definition exp_u64 (scalar sse bytes : bool) (v : Z) : Z :=
  if scalar then Z.shiftr (f32_of_uint v) 23 else
  let e_lo := exp_u32 sse (wrap 32 v) in
  let e_hi := exp_u32 sse (Z.shiftr v 32) in
  let adj_lo := if e_lo =? 0 then 0 else wrap 32 0x0000002000000000 in
  let adj_hi := if e_hi =? 0 then 0 else Z.shiftr 0x0000002000000000 32 in
  let lo := wrap 32 (e_lo + adj_lo) in
  let hi := wrap 32 (e_hi + adj_hi) in
  Z.shiftr (minmax scalar bytes Z.max 64 (lo + 2 ^ 32 * hi) (hi + 2 ^ 32 * lo)) 32.
Definition biased_exp (scalar sse bytes : bool) (w v : Z) : Z :=
  if w =? 8 then exp_u8 sse v else if w =? 16 then exp_u16 sse v else if w =? 32 then exp_u32 sse v else exp_u64 scalar sse bytes v.
(** NormalizeForUIntTruncConvToF32 4091-4108 *)
Definition normalize (w v : Z) : Z := if w <=? 16 then v else Z.land (Z.lnot (Z.shiftr v 24)) v.
(** HighestSetBitIndex 4112-4121 *)
Definition highest_set_bit (scalar sse bytes : bool) (w v : Z) : Z :=
  wrap w (biased_exp scalar sse bytes w (normalize w v) - 127).
(** LeadingZeroCount 4123-4137 *)
Definition leading_zero_count (scalar sse bytes : bool) (w v : Z) : Z :=
  let lz_count := wrap w (wrap w (w + 126) - biased_exp scalar sse bytes w (normalize w v)) in
  minmax scalar bytes Z.min w lz_count w.
(** TrailingZeroCount 4139-4156 *)
Definition trailing_zero_count (scalar sse bytes : bool) (w v : Z) : Z :=
  let vi := swrap w v in
  let lowest_bit := wrap w (Z.land vi (swrap w (0 - vi))) in
  let tz_count := wrap w (biased_exp scalar sse bytes w lowest_bit - 127) in
  minmax scalar bytes Z.min w tz_count w.
