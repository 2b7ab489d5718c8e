(** Model of floating-point rounding and float to integer conversion: hwy/ops/emu128-inl.h 1026-1218, 1758-1860, 1887-1915, 2104-2133,
    hwy/ops/scalar-inl.h 830-990, 1302-1400, 1425-1445, and hwy/ops/x86_128-inl.h 12044-12153 (SSE2, SSSE3). Each op is modelled on one lane of format [f];
    floats are bit patterns. None: undefined behavior (C++ cast of a float whose integral part does not fit).
    [nan a b]: what built-in arithmetic returns if an operand is not finite; [junk]: what ConvertInRangeTo returns out of range. *)
From Coq Require Import ZArith Bool.
From Verif Require Import Word Float_Spec Float_Model.
Open Scope Z_scope.

Definition one : Z := 2 ^ 1074.
Section Rounding.
Context (f : fmt) (nan : Z -> Z -> Z).
(** built-in operations *)
Definition mk (neg : bool) (m : Z) : Z := (if neg then 2 ^ (ebits f + mbits f) else 0) + m.
Definition is_fin (b : Z) : bool := magnitude f b <? inf_mag f.
Definition not_nan (b : Z) : bool := magnitude f b <=? inf_mag f.
Definition flt (a b : Z) : bool := not_nan a && not_nan b && (value f a <? value f b).
Definition fle (a b : Z) : bool := not_nan a && not_nan b && (value f a <=? value f b).
Definition feq (a b : Z) : bool := not_nan a && not_nan b && (value f a =? value f b).
Definition fneg (a : Z) : Z := if negative f a then a - 2 ^ (ebits f + mbits f) else a + 2 ^ (ebits f + mbits f).
Definition fadd (a b : Z) : Z :=
  if is_fin a && is_fin b then
    let s := value f a + value f b in
    mk (if s =? 0 then negative f a && negative f b else s <? 0) (ieee_round f (Z.abs s))
  else nan a b.
Definition fsub (a b : Z) : Z := fadd a (fneg b).
(** conversion of an integer (also of literals), 0.5 and -0.5, MantissaEnd base.h 2453-2475 *)
Definition of_int (z : Z) : Z := mk (z <? 0) (ieee_round f (Z.abs z * one)).
Definition half : Z := mk false (ieee_round f (2 ^ 1073)).
Definition mhalf : Z := mk true (ieee_round f (2 ^ 1073)).
Definition mantissa_end : Z := of_int (2 ^ mbits f).
Definition fzero : Z := mk false 0.
Definition mzero : Z := mk true 0.
(** static_cast to an integer type of [w] bits, signed or unsigned *)
Definition lowest (sg : bool) (w : Z) : Z := if sg then - 2 ^ (w - 1) else 0.
Definition highest (sg : bool) (w : Z) : Z := if sg then 2 ^ (w - 1) - 1 else 2 ^ w - 1.
Definition cast (sg : bool) (w b : Z) : option Z :=
  if is_fin b then let t := Z.quot (value f b) one in if (lowest sg w <=? t) && (t <=? highest sg w) then Some t else None else None.
Definition bind {X Y} (o : option X) (k : X -> option Y) : option Y := match o with Some x => k x | None => None end.
Notation "'do' x <- e ; k" := (bind e (fun x => k)) (at level 200, x pattern, e at level 100, k at level 200).
Definition wd : Z := fwidth f.

(** the common part of Round and NearestInt: emu128 1036-1038, 1045-1047 and so on: the integer before and the correction for ties *)
Definition bias_of (v : Z) : Z := if flt v fzero then mhalf else half.
Definition tie (v rounded : Z) : bool := Z.odd rounded && feq (scalar_abs f (fsub (of_int rounded) v)) half.

(** EMU128 Round 1028-1053. [ConvertScalarTo<T>(-0)] converts the integer 0 *)
Definition emu_round (v : Z) : option Z :=
  if negb (flt (scalar_abs f v) mantissa_end) then Some v else
  do rounded <- cast true wd (fadd v (bias_of v));
  if rounded =? 0 then Some (if flt v fzero then of_int (- 0) else fzero) else
  if tie v rounded then Some (of_int (rounded - (if flt v fzero then -1 else 1))) else Some (of_int rounded).
(** SCALAR Round 832-850; CopySignToAbs *)
Definition copy_sign_to_abs (a s : Z) : Z := Z.lor a (Z.land (sign_mask f) s).
Definition scalar_round (v : Z) : option Z :=
  if negb (flt (scalar_abs f v) mantissa_end) then Some v else
  do rounded <- cast true wd (fadd v (bias_of v));
  if rounded =? 0 then Some (copy_sign_to_abs fzero v) else
  let offset := if tie v rounded then (if flt v fzero then -1 else 1) else 0 in Some (of_int (rounded - offset)).
(** NearestInt: EMU128 1056-1091, SCALAR 853-878 (the same steps) *)
Definition nearest_small (w v : Z) : option Z :=
  do rounded <- cast true w (fadd v (bias_of v));
  if rounded =? 0 then Some 0 else
  if tie v rounded then Some (rounded - (if scalar_sign_bit f v then -1 else 1)) else Some rounded.
Definition nearest_int (v : Z) : option Z :=
  if negb (flt (scalar_abs f v) mantissa_end) then
    if negb (fle (scalar_abs f v) (of_int (highest true wd))) then Some (if scalar_sign_bit f v then lowest true wd else highest true wd) else cast true wd v
  else nearest_small wd v.
(** DemoteToNearestInt from double to int32_t: EMU128 1093-1129, SCALAR 881-909 *)
Definition demote_to_nearest_int (v : Z) : option Z :=
  if negb (fle (scalar_abs f v) (of_int (highest true 32))) then Some (if scalar_sign_bit f v then lowest true 32 else highest true 32) else nearest_small 32 v.
(** Trunc: EMU128 1131-1147, SCALAR 911-920 *)
Definition emu_trunc (v : Z) : option Z :=
  if negb (fle (scalar_abs f v) mantissa_end) then Some v else
  do truncated <- cast true wd v;
  if truncated =? 0 then Some (if flt v fzero then fneg fzero else fzero) else Some (of_int truncated).
Definition scalar_trunc (v : Z) : option Z :=
  if negb (fle (scalar_abs f v) mantissa_end) then Some v else
  do truncated <- cast true wd v;
  if truncated =? 0 then Some (copy_sign_to_abs fzero v) else Some (of_int truncated).
(** Ceil and Floor: EMU128 1149-1218, SCALAR 922-990. [exponent] is the difference as a signed int *)
Definition field (bits : Z) : Z := Z.land (Z.shiftr bits (mbits f)) (2 ^ ebits f - 1).
Definition kbias : Z := (2 ^ ebits f - 1) / 2.
Definition mantissa_mask (exponent : Z) : Z := Z.shiftr (2 ^ mbits f - 1) exponent.
Definition clear_fraction (round_away : bool) (exponent bits : Z) : Z :=
  let bits := if round_away then wrap wd (bits + Z.shiftr (2 ^ mbits f - 1 + 1) exponent) else bits in
  Z.land bits (bit_not wd (mantissa_mask exponent)).
Definition emu_ceil (v : Z) : Z :=
  let positive := flt fzero v in let exponent := field v - kbias in
  if mbits f <=? exponent then v else
  if exponent <? 0 then (if positive then of_int 1 else mzero) else
  if Z.land v (mantissa_mask exponent) =? 0 then v else clear_fraction positive exponent v.
Definition emu_floor (v : Z) : Z :=
  let negative := flt v fzero in let exponent := field v - kbias in
  if mbits f <=? exponent then v else
  if exponent <? 0 then (if negative then of_int (-1) else fzero) else
  if Z.land v (mantissa_mask exponent) =? 0 then v else clear_fraction negative exponent v.
(** CastValueForF2IConv and CastValueForInRangeF2IConv: EMU128 1763-1805, 1818-1858, SCALAR 1303-1345, 1363-1400; used by ConvertTo, DemoteTo (double to 32 bits), PromoteTo (float to 64 bits) *)
Definition min_out_of_range (sg : bool) (w : Z) : Z := Z.min ((2 ^ ebits f - 1) / 2 + w - (if sg then 1 else 0)) (2 ^ ebits f - 1).
Definition in_range (sg : bool) (w v : Z) : bool := Z.shiftr (if sg then scalar_abs f v else v) (mbits f) <? min_out_of_range sg w.
(** two's complement reading of [w] bits *)
Definition from_bits (sg : bool) (w x : Z) : Z := let u := wrap w x in if sg && (2 ^ (w - 1) <=? u) then u - 2 ^ w else u.
Definition cast_f2i (sg : bool) (w v : Z) : option Z :=
  if in_range sg w v then cast sg w v else Some (from_bits sg w (highest sg w + (if scalar_sign_bit f v then 1 else 0))).
Definition cast_in_range_f2i (sg : bool) (w v : Z) : option Z := if in_range sg w v then cast sg w v else Some (lowest sg w).

(** SSE2: Round 12049-12062 *)
Definition sse2_round (v : Z) : Z :=
  let large := copy_sign_to_abs mantissa_end v in let added := fadd large v in let rounded := fsub added large in
  if flt (scalar_abs f v) mantissa_end then rounded else v.
(** ConvertInRangeTo to the signed type of the same size *)
Definition convert_in_range (junk v : Z) : Z := match cast true wd v with Some t => t | None => junk end.
Definition use_int (v : Z) : bool := flt (scalar_abs f v) mantissa_end.
(** Trunc 12079-12089 (CopySign), Ceil 12092-12105, Floor 12127-12140. ConvertTo(df, VecFromMask(..)) is -1.0 or 0.0 *)
Definition sse2_trunc (junk v : Z) : Z := if use_int v then scalar_copy_sign f (of_int (convert_in_range junk v)) v else v.
Definition sse2_ceil (junk v : Z) : Z :=
  let int_f := of_int (convert_in_range junk v) in let neg1 := of_int (if flt int_f v then -1 else 0) in if use_int v then fsub int_f neg1 else v.
Definition sse2_floor (junk v : Z) : Z :=
  let int_f := of_int (convert_in_range junk v) in let neg1 := of_int (if flt v int_f then -1 else 0) in if use_int v then fadd int_f neg1 else v.
(** CeilInt 12113-12124, FloorInt 12142-12153; [conv] is ConvertTo, which saturates; integer lanes wrap *)
Definition sse2_ceil_int (conv : Z -> Z) (v : Z) : Z :=
  let integer := conv v in let int_f := of_int integer in from_bits true wd (integer - (if use_int v && flt int_f v then -1 else 0)).
Definition sse2_floor_int (conv : Z -> Z) (v : Z) : Z :=
  let integer := conv v in let int_f := of_int integer in from_bits true wd (integer + (if use_int v && flt v int_f then -1 else 0)).
(** generic CeilInt, FloorInt: generic_ops 1217-1229, ConvertTo after Ceil or Floor *)
Definition generic_ceil_int (v : Z) : option Z := cast_f2i true wd (emu_ceil v).
Definition generic_floor_int (v : Z) : option Z := cast_f2i true wd (emu_floor v).
End Rounding.

(** DemoteTo from double to float: EMU128 1891-1905, SCALAR 1428-1437 *)
Definition demote_f64_f32 (nan : Z -> Z) (b : Z) : Z :=
  let highest := inf_mag binary32 - 1 in (* HighestValue<float>; LowestValue is its negation *)
  if scalar_is_inf binary64 b || (inf_mag binary64 >=? scalar_abs binary64 b) && (mag_value binary32 highest <? value binary64 (scalar_abs binary64 b))
  then (if scalar_sign_bit binary64 b then 2 ^ 31 + highest else highest)
  else f32_of_f64 nan b.
