(** Model of the conversions between integers and floating point of hwy/ops/x86_128-inl.h on SSE2, SSSE3, SSE4 and AVX2: 7596-7605, 10375-10415, 10484-10621,
    10717-10830, 11193-11276, 11404-11412, 11520-11758.  One lane; integers and floats are bit patterns; float arithmetic as in Rounding_Model.
    [nan]: what arithmetic on non-finite operands returns. *)
From Coq Require Import ZArith Bool.
From Verif Require Import Word Float_Spec Float_Model Rounding_Model Pow2_Model.
Open Scope Z_scope.
Notation f32 := binary32.
Notation f64 := binary64.
(** the most significant bit of a [w]-bit pattern *)
Definition msb (w x : Z) : bool := Z.testbit x (w - 1).
Definition onesw (w : Z) (b : bool) : Z := if b then 2 ^ w - 1 else 0.

Section I2F.
Context (nan : Z -> Z -> Z).
(** fused multiply-add: the exact a * b + c (in units of 2^-2148), rounded once. Not used with non-finite operands *)
Definition fma (f : fmt) (a b c : Z) : Z :=
  let s := value f a * value f b + value f c * one in
  mk f (if s =? 0 then xorb (negative f a) (negative f b) && negative f c else s <? 0) (round_scaled f (Z.abs s) 1074).
(** MulAdd: FMA if [has_fma] (AVX2), otherwise a product and a sum *)
Definition mul_add (has_fma : bool) (f : fmt) (a b c : Z) : Z := if has_fma then fma f a b c else fadd f nan (fmul f nan a b) c.

(** 7598-7605 PromoteTo u32 -> f64; CVTDQ2PD is exact *)
Definition u32_to_f64 (v : Z) : Z :=
  let r := of_int f64 (swrap 32 v) in fadd f64 nan r (if msb 64 r then of_int f64 4294967296 else 0).
(** 11217-11230 ConvertTo u32 -> f32 *)
Definition u32_to_f32 (has_fma : bool) (v : Z) : Z :=
  let v_lo := Z.land v 0xFFFF in let v_hi := Z.shiftr v 16 in
  mul_add has_fma f32 (of_int f32 65536) (of_int f32 (swrap 32 v_hi)) (of_int f32 (swrap 32 v_lo)).
(** 11233-11248 ConvertTo i64 -> f64; OddEven takes the upper half from k52 *)
Definition i64_to_f64 (v : Z) : Z :=
  let v_upper := Z.lxor (Z.shiftr v 32) 0x4530000080000000 in
  let v_lower := 0x43300000 * 2 ^ 32 + wrap 32 v in
  fadd f64 nan (fsub f64 nan v_upper 0x4530000080100000) v_lower.
(** 11252-11259 U64ToF64VecFast *)
Definition u64_to_f64_fast (w : Z) : Z := let c := of_int f64 0x0010000000000000 in fsub f64 nan (Z.lor w c) c.
(** 11262-11276 ConvertTo u64 -> f64 *)
Definition u64_to_f64 (has_fma : bool) (v : Z) : Z :=
  let v_lo := Z.land v 0xFFFFFFFF in let v_hi := Z.shiftr v 32 in
  mul_add has_fma f64 (of_int f64 4294967296) (u64_to_f64_fast v_hi) (u64_to_f64_fast v_lo).
(** 10567-10594 DemoteTo i64 -> f32; [demote]: CVTPD2PS *)
Definition i64_to_f32 (demote : Z -> Z) (v : Z) : Z :=
  let k2p64_63 := of_int f64 27670116110564327424 in
  let hi52 := fsub f64 nan (Z.lxor (Z.shiftr v 12) k2p64_63) k2p64_63 in
  let lo12 := of_int f64 (swrap 32 (Z.land (wrap 32 v) 0x00000FFF)) in
  let sum := fadd f64 nan hi52 lo12 in
  let carry := fadd f64 nan (fsub f64 nan hi52 sum) lo12 in
  let inexact := Z.shiftr (onesw 64 (negb (feq f64 carry 0))) 63 in
  let decrement := Z.land (Z.shiftr (Z.lxor sum carry) 63) inexact in
  demote (Z.lor (wrap 64 (sum - decrement)) inexact).
(** 10598-10621 DemoteTo u64 -> f32 *)
Definition u64_to_f32 (demote : Z -> Z) (v : Z) : Z :=
  let k2p64 := of_int f64 18446744073709551616 in
  let hi52 := fsub f64 nan (Z.lor (Z.shiftr v 12) k2p64) k2p64 in
  let lo12 := of_int f64 (swrap 32 (Z.land (wrap 32 v) 0x00000FFF)) in
  let sum := fadd f64 nan hi52 lo12 in
  let carry := fadd f64 nan (fsub f64 nan hi52 sum) lo12 in
  let inexact := Z.shiftr (onesw 64 (negb (feq f64 carry 0))) 63 in
  demote (Z.lor (wrap 64 (sum - Z.shiftr carry 63)) inexact).

(** CVTTPS2DQ, CVTTPD2DQ, CVTTSD2SI: truncation to a signed integer of [w] bits; 10...0 if out of range, infinite or NaN *)
Definition cvtt (f : fmt) (w v : Z) : Z :=
  let t := Z.quot (value f v) one in
  if is_fin f v && ((- 2 ^ (w - 1) <=? t) && (t <=? 2 ^ (w - 1) - 1)) then wrap w t else 2 ^ (w - 1).
(** 10399-10414 what GCC >= 7 evaluates instead if [v] is a compile-time constant *)
Definition cvtt_constant (f : fmt) (w v : Z) : Z :=
  if flt f (scalar_abs f v) (of_int f (2 ^ (w - 1))) then wrap w (Z.quot (value f v) one) else 2 ^ (w - 1).
(** MINPD: the second operand unless the first is less *)
Definition minpd (f : fmt) (a b : Z) : Z := if flt f a b then a else b.
(** generic_ops-inl.h 282-284 ZeroIfNegative: looks at the sign bit only *)
Definition zero_if_neg (f : fmt) (v : Z) : Z := if msb (fwidth f) v then 0 else v.
(** shifts of 64-bit lanes by a count that may exceed 63 (PSRLQ, PSLLQ, VPSRLVQ, VPSLLVQ return zero then) *)
Definition shr64 (x k : Z) : Z := if 63 <? k then 0 else Z.shiftr x k.
Definition shl64 (x k : Z) : Z := if 63 <? k then 0 else wrap 64 (Z.shiftl x k).

(** 11407-11412 ConvertTo f32 -> i32, 11672-11680 f64 -> i64 of up to 128 bits on x86-64 (also 11445-11453) *)
Definition to_signed (f : fmt) (w v : Z) : Z := if fle f (of_int f (2 ^ (w - 1))) v then 2 ^ (w - 1) - 1 else cvtt f w v.
(** 10486-10490 DemoteTo f64 -> i32 *)
Definition f64_to_i32 (v : Z) : Z := cvtt f64 32 (minpd f64 v (of_int f64 2147483647)).
(** 10531-10545 DemoteInRangeTo f64 -> u32 and 10548-10552 DemoteTo *)
Definition f64_to_u32_in_range (v : Z) : Z :=
  let k2_31 := of_int f64 2147483648 in
  let ge := fle f64 k2_31 v in
  let lo31 := cvtt f64 32 (fsub f64 nan v (if ge then k2_31 else 0)) in
  Z.lor lo31 (wrap 32 (Z.shiftl (wrap 32 (onesw 64 ge)) 31)).
Definition f64_to_u32 (v : Z) : Z := f64_to_u32_in_range (minpd f64 (zero_if_neg f64 v) (of_int f64 4294967295)).
(** 11525-11541 ConvInRangeF32ToU32 (result and exp_diff), 11548-11554, 11559-11570 *)
Definition f32_to_u32_parts (v : Z) : Z * Z :=
  let exp_diff := wrap 32 (158 - Z.shiftr v 23) in
  let mask := onesw 32 (exp_diff =? 0) in
  let v_scaled := wrap 32 (v + wrap 32 (Z.shiftl mask 23)) in
  let r := cvtt f32 32 v_scaled in
  (wrap 32 (r + Z.land r mask), exp_diff).
Definition f32_to_u32_in_range (v : Z) : Z := fst (f32_to_u32_parts v).
Definition f32_to_u32 (v : Z) : Z := let '(r, exp_diff) := f32_to_u32_parts (zero_if_neg f32 v) in Z.lor r (onesw 32 (msb 32 exp_diff)).
(** 11574-11622 ConvAbsInRangeF64ToUI64 (result and biased_exp); the SaturatedSub of 16-bit lanes acts on the lowest of them, the others are zero *)
Definition f64_abs_parts (sg : bool) (v : Z) : Z * Z :=
  let e := Z.shiftr v 52 in
  let biased_exp := if sg then Z.land e 0x7FF else e in
  let shift_mnt := satsub 1075 biased_exp in let shift_int := satsub biased_exp 1075 in
  let mantissa := Z.land v (2 ^ 52 - 1) in
  let int53 := shr64 (Z.lor mantissa (2 ^ 52)) shift_mnt in
  (shl64 int53 shift_int, biased_exp).
(** 11684-11694 ConvertInRangeTo, 11698-11722 ConvertTo f64 -> i64 of wide vectors *)
Definition negate_if (neg : bool) (x : Z) : Z := let m := onesw 64 neg in wrap 64 (Z.lxor x m - m).
Definition f64_to_i64_wide_in_range (v : Z) : Z := negate_if (msb 64 v) (fst (f64_abs_parts true v)).
Definition f64_to_i64_wide (v : Z) : Z :=
  let '(shifted, biased_exp) := f64_abs_parts true v in
  let sign_mask := onesw 64 (msb 64 v) in
  let limit := wrap 64 (2 ^ 63 - 1 - sign_mask) in
  negate_if (msb 64 v) (if biased_exp <? 1086 then shifted else limit).
(** 11726-11731, 11734-11757 f64 -> u64 *)
Definition f64_to_u64_in_range (v : Z) : Z := fst (f64_abs_parts false v).
Definition f64_to_u64 (v : Z) : Z :=
  let '(shifted, biased_exp) := f64_abs_parts false (zero_if_neg f64 v) in Z.lor shifted (onesw 64 (1086 <? biased_exp)).
(** Min and SaturatedSub of the four bytes of a 32-bit lane; [lanes]: Pow2_Model *)
Definition bytes_min (a b : Z) : Z := lanes 4 8 Z.min a b.
Definition bytes_satsub (a b : Z) : Z := lanes 4 8 satsub a b.
(** 10727-10752 PromoteTo f32 -> i64 *)
Definition f32_to_i64 (v : Z) : Z :=
  let adj := bytes_min (bytes_satsub (Z.shiftr v 23) 157) 32 in
  let adj_v := wrap 32 (v - wrap 32 (Z.shiftl adj 23)) in
  let r := to_signed f32 32 adj_v in
  Z.lor (shl64 (wrap 64 (swrap 32 r)) adj) (onesw 32 (r =? 2 ^ 31 - 1)).
(** 10756-10774 PromoteInRangeTo f32 -> i64, u64 *)
Definition f32_to_ui64_in_range (sg : bool) (v : Z) : Z :=
  let adj := bytes_satsub (Z.shiftr v 23) 0xFFFFFF9D in
  let adj_v := wrap 32 (v - wrap 32 (Z.shiftl adj 23)) in
  let r := cvtt f32 32 adj_v in
  shl64 (wrap 64 (if sg then swrap 32 r else r)) adj.
(** 10797-10826 PromoteTo f32 -> u64 *)
Definition f32_to_u64 (v : Z) : Z :=
  let non_neg := zero_if_neg f32 v in
  let adj := bytes_min (bytes_satsub (Z.shiftr non_neg 23) 157) 33 in
  let adj_v := wrap 32 (non_neg - wrap 32 (Z.shiftl adj 23)) in
  let r := cvtt f32 32 adj_v in
  Z.lor (shl64 (wrap 64 r) adj) (onesw 64 (msb 32 r)).
End I2F.
