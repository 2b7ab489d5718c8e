(** Model of the portable integer operations of hwy/ops/generic_ops-inl.h
    (and the emu128-inl.h ones they build on). A lane of a type of w bits is
    its value: [sg] says whether the type is signed. BitCast between signed
    and unsigned lanes of the same width is [swrap w] / [wrap w]. Bitwise
    operations on negative values are those of two's complement (Z.land ...).
    Vectors are lists of lanes; all operations here are lane-wise, except the
    pairwise ones. *)
From Coq Require Import ZArith List Bool.
From Verif Require Import Word Ops_Model.
Import ListNotations.
Local Open Scope Z_scope.

Definition fit (sg : bool) (w x : Z) : Z := if sg then swrap w x else wrap w x.
Definition lowest (sg : bool) (w : Z) : Z := if sg then - 2 ^ (w - 1) else 0.
Definition highest (sg : bool) (w : Z) : Z := if sg then 2 ^ (w - 1) - 1 else 2 ^ w - 1.

(** ** lane primitives, emu128-inl.h *)
(** operator+ / operator- 578-621; Neg 781-786 *)
Definition add_ sg w a b := fit sg w (a + b).
Definition sub_ sg w a b := fit sg w (a - b).
Definition neg_ sg w v := sub_ sg w 0 v.
(** Not 249-260; AndNot(not_mask, mask) 279-283 *)
Definition not_ (sg : bool) w v := if sg then Z.lnot v else 2 ^ w - 1 - v.
Definition andnot_ (a b : Z) := Z.land (Z.lnot a) b.
(** ShiftRight: arithmetic for signed (ScalarShr) 499-511 *)
Definition shr_ (k v : Z) := Z.shiftr v k.
Definition shl_ sg w k v := fit sg w (Z.shiftl v k).
(** BroadcastSignBit 360-367 (signed lanes) *)
Definition broadcast_sign w v := shr_ (w - 1) v.
(** IfNegativeThenElse(v, yes, no) 434-446 (signed lanes) *)
Definition if_negative (v yes no : Z) := if v <? 0 then yes else no.
(** VecFromMask 389-397: all bits set if true *)
Definition vec_from_mask (sg : bool) w (b : bool) := if b then (if sg then -1 else 2 ^ w - 1) else 0.
(** SaturatedAdd / SaturatedSub of 8 and 16 bit lanes 643-671: computed in the wide type, then Min(Max()) *)
Definition sat_add_wide sg w a b := Z.min (Z.max (lowest sg w) (swrap (2 * w) (a + b))) (highest sg w).
Definition sat_sub_wide sg w a b := Z.min (Z.max (lowest sg w) (swrap (2 * w) (a - b))) (highest sg w).

(** ** generic_ops-inl.h *)
(** SaturatedAdd / SaturatedSub I32 3192-3212, I64 3222-3242 *)
Definition sat_add_s w a b :=
  let sum := add_ true w a b in
  let overflow_mask := andnot_ (Z.lxor a b) (Z.lxor a sum) in
  let overflow_result := Z.lxor (broadcast_sign w a) (highest true w) in
  if_negative overflow_mask overflow_result sum.
Definition sat_sub_s w a b :=
  let diff := sub_ true w a b in
  let overflow_mask := Z.land (Z.lxor a b) (Z.lxor a diff) in
  let overflow_result := Z.lxor (broadcast_sign w a) (highest true w) in
  if_negative overflow_mask overflow_result diff.
(** U32 3252-3260, U64 3270-3278 *)
Definition sat_add_u w a b := add_ false w a (Z.min b (not_ false w a)).
Definition sat_sub_u w a b := sub_ false w a (Z.min a b).
(** SaturatedAdd / SaturatedSub for each lane type *)
Definition sat_add sg w a b := if w <=? 16 then sat_add_wide sg w a b else if sg then sat_add_s w a b else sat_add_u w a b.
Definition sat_sub sg w a b := if w <=? 16 then sat_sub_wide sg w a b else if sg then sat_sub_s w a b else sat_sub_u w a b.
(** SaturatedNeg: 8/16 bits and native 837-842; I32 844-859; I64 870-880 *)
Definition sat_neg w v :=
  if w <=? 16 then sat_sub true w 0 v
  else if w =? 32 then sub_ true w (not_ true w v) (vec_from_mask true w (lowest true w <? v))
  else let neg_v := neg_ true w v in add_ true w neg_v (broadcast_sign w (Z.land v neg_v)).
(** SaturatedAbs 890-894 *)
Definition sat_abs w v := Z.max v (sat_neg w v).
(** AbsDiff 3158-3161 *)
Definition abs_diff sg w a b := sub_ sg w (Z.max a b) (Z.min a b).
(** AverageRound 5380-5401 and emu128-inl.h 686-696 *)
Definition average_round sg w a b := sub_ sg w (Z.lor a b) (shr_ 1 (Z.lxor a b)).
(** RoundingShiftRight<kShiftAmt> 5412-5432 *)
Definition rounding_shift_right sg w k v :=
  let kScaleDownShrAmt := Z.max (k - 1) 0 in
  let scaled_down_v := if 0 <? kScaleDownShrAmt then shr_ kScaleDownShrAmt v else v in
  if k =? 0 then scaled_down_v else average_round sg w scaled_down_v 0.
(** RoundingShiftRightSame 5434-5449; int is 32 bits *)
Definition rounding_shift_right_same sg w v shift_amt :=
  let shift_amt_is_zero_mask := - (if shift_amt =? 0 then 1 else 0) in
  let scaled_down_v := shr_ (swrap 32 (wrap 32 (wrap 32 shift_amt + wrap 32 (Z.lnot shift_amt_is_zero_mask)))) v in
  average_round sg w scaled_down_v (Z.land scaled_down_v (fit sg w shift_amt_is_zero_mask)).
(** RoundingShr 5451-5466 *)
Definition rounding_shr sg w v amt :=
  let unsigned_amt := wrap w amt in
  let scale_down_shr_amt := fit sg w (sat_sub false w unsigned_amt 1) in
  let scaled_down_v := shr_ scale_down_shr_amt v in
  average_round sg w scaled_down_v (if amt =? 0 then scaled_down_v else 0).

(** operator* of 8-bit lanes 4565-4594: promote to 16 bits, multiply (wrapping), keep the low byte *)
Definition mul8 sg a b :=
  let mul := fit sg 16 (a * b) in
  fit sg 8 (wrap 8 (wrap 16 mul)).
(** operator* of 64-bit lanes 4606-4635. Viewed as 32-bit lanes, a u64 lane is
    the pair (low, high); MulEven multiplies the low parts to a u64; Add is
    on the two 32-bit lanes separately. *)
Definition add32x2 x y := wrap 32 (wrap 32 x + wrap 32 y) + 2 ^ 32 * wrap 32 (Z.shiftr x 32 + Z.shiftr y 32).
Definition mul_even32 x y := wrap 32 x * wrap 32 y.
Definition mul64u x y :=
  let lolo := mul_even32 x y in
  let lohi := mul_even32 x (Z.shiftr y 32) in
  let hilo := mul_even32 (Z.shiftr x 32) y in
  let hi := wrap 64 (Z.shiftl (add32x2 lohi hilo) 32) in
  add32x2 lolo hi.
Definition mul64 (sg : bool) x y := if sg then swrap 64 (mul64u (wrap 64 x) (wrap 64 y)) else mul64u x y.
(** single lane 4606-4615 *)
Definition mul64_single sg x y := fit sg 64 (wrap 64 (wrap 64 x * wrap 64 y)).

(** DemoteTo of unsigned to narrower signed lanes 3284-3304; the signed to
    signed DemoteTo saturates (emu128-inl.h 1916-1931) *)
Definition demote_i2i n v := Z.min (Z.max (lowest true n) v) (highest true n).
Definition demote_u2i w n v :=
  let i2i_demote_result := demote_i2i n (swrap w v) in
  swrap n (Z.min (wrap n i2i_demote_result) (wrap n (highest true n))).

(** the EMU128 version, emu128-inl.h 1946-1960 *)
Definition demote_u2i_emu n v := swrap n (Z.min v (highest true n)).

(** ** pairwise products *)
(** SatWidenMulPairwiseAdd(u8, i8 -> i16) 5575-5583, per result lane *)
Definition sat_widen_mul_pairwise_add (a0 a1 b0 b1 : Z) :=
  sat_add true 16 (swrap 16 (swrap 16 a0 * b0)) (swrap 16 (swrap 16 a1 * b1)).
(** WidenMulPairwiseAdd(i16 -> i32): emu128-inl.h 2891-2895: MulAdd(even, even, Mul(odd, odd)), both wrap *)
Definition widen_mul_pairwise_add32 (a0 a1 b0 b1 : Z) := add_ true 32 (swrap 32 (a0 * b0)) (swrap 32 (a1 * b1)).
(** SatWidenMulPairwiseAccumulate 5598-5614 *)
Definition sat_widen_mul_pairwise_accumulate (a0 a1 b0 b1 sum : Z) :=
  let product := widen_mul_pairwise_add32 a0 a1 b0 b1 in
  let mul_overflow := vec_from_mask true 32 (product =? lowest true 32) in
  sat_add true 32 (sub_ true 32 sum (Z.land (broadcast_sign 32 sum) mul_overflow)) (add_ true 32 product mul_overflow).
(** SatWidenMulAccumFixedPoint 5629-5643: both factors duplicated *)
Definition sat_widen_mul_accum_fixed_point (a b sum : Z) := sat_widen_mul_pairwise_accumulate a a b b sum.
(** SumOfMulQuadAccumulate i8 5678-5693: lanes a[0..3] of a 32-bit lane *)
Definition sum_quad_i8 (a b : Z * Z * Z * Z) (sum : Z) :=
  let '(a0, a1, a2, a3) := a in let '(b0, b1, b2, b3) := b in
  add_ true 32 sum (add_ true 32 (widen_mul_pairwise_add32 a0 a2 b0 b2) (widen_mul_pairwise_add32 a1 a3 b1 b3)).
(** u8 5704-5723: as 16-bit lanes a[0] + 256 a[1], a[2] + 256 a[3] *)
Definition lo8 (x : Z) := Z.land x 0x00FF.
Definition pair8 (x y : Z) := x + 256 * y.
Definition sum_quad_u8 (a b : Z * Z * Z * Z) (sum : Z) :=
  let '(a0, a1, a2, a3) := a in let '(b0, b1, b2, b3) := b in
  let A0 := pair8 a0 a1 in let A1 := pair8 a2 a3 in let B0 := pair8 b0 b1 in let B1 := pair8 b2 b3 in
  let even := widen_mul_pairwise_add32 (lo8 (swrap 16 A0)) (lo8 (swrap 16 A1)) (lo8 (swrap 16 B0)) (lo8 (swrap 16 B1)) in
  let odd := widen_mul_pairwise_add32 (swrap 16 (shr_ 8 A0)) (swrap 16 (shr_ 8 A1)) (swrap 16 (shr_ 8 B0)) (swrap 16 (shr_ 8 B1)) in
  add_ false 32 sum (add_ false 32 (wrap 32 even) (wrap 32 odd)).
(** u8 x i8 5734-5758: b is i8; BitCast of two i8 lanes to one i16 lane *)
Definition sum_quad_u8i8 (a b : Z * Z * Z * Z) (sum : Z) :=
  let '(a0, a1, a2, a3) := a in let '(b0, b1, b2, b3) := b in
  let A0 := pair8 a0 a1 in let A1 := pair8 a2 a3 in
  let B0 := swrap 16 (pair8 (wrap 8 b0) (wrap 8 b1)) in let B1 := swrap 16 (pair8 (wrap 8 b2) (wrap 8 b3)) in
  let even := widen_mul_pairwise_add32 (lo8 (swrap 16 A0)) (lo8 (swrap 16 A1)) (shr_ 8 (shl_ true 16 8 B0)) (shr_ 8 (shl_ true 16 8 B1)) in
  let odd := widen_mul_pairwise_add32 (swrap 16 (shr_ 8 A0)) (swrap 16 (shr_ 8 A1)) (shr_ 8 B0) (shr_ 8 B1) in
  add_ true 32 sum (add_ true 32 even odd).
(** i16 -> i64 5771-5800: two i32 lanes (p, q) in a 64-bit lane *)
Definition bits64 (lo hi : Z) := swrap 64 (wrap 32 lo + 2 ^ 32 * wrap 32 hi).
Definition sum_quad_i16 (a b : Z * Z * Z * Z) (sum : Z) :=
  let '(a0, a1, a2, a3) := a in let '(b0, b1, b2, b3) := b in
  let p := widen_mul_pairwise_add32 a0 a1 b0 b1 in let q := widen_mul_pairwise_add32 a2 a3 b2 b3 in
  let overflow := bits64 (vec_from_mask true 32 (p =? lowest true 32)) (vec_from_mask true 32 (q =? lowest true 32)) in
  let hi32_mask := Z.lnot 0xFFFFFFFF in
  let p0_zero_out_mask := shl_ true 64 32 overflow in
  let p1_zero_out_mask := Z.land overflow hi32_mask in
  let p0 := andnot_ p0_zero_out_mask (shr_ 32 (shl_ true 64 32 (bits64 p q))) in
  let p1 := andnot_ p1_zero_out_mask (shr_ 32 (bits64 p q)) in
  add_ true 64 sum (add_ true 64 p0 p1).
(** u16 -> u64 5811-5826 *)
Definition sum_quad_u16 (a b : Z * Z * Z * Z) (sum : Z) :=
  let '(a0, a1, a2, a3) := a in let '(b0, b1, b2, b3) := b in
  let even0 := wrap 32 (a0 * b0) in let even1 := wrap 32 (a2 * b2) in
  let odd0 := wrap 32 (a1 * b1) in let odd1 := wrap 32 (a3 * b3) in
  let p0 := add_ false 64 even0 odd0 in
  let p1 := add_ false 64 even1 odd1 in
  add_ false 64 sum (add_ false 64 p0 p1).

(** ** whole vectors: a vector is the list of its lanes *)
(** result lane i from lanes 2i, 2i+1 of a and b (and lane i of sum) *)
Fixpoint pairwise (f : Z -> Z -> Z -> Z -> Z) (a b : list Z) : list Z :=
  match a, b with a0 :: a1 :: a', b0 :: b1 :: b' => f a0 a1 b0 b1 :: pairwise f a' b' | _, _ => [] end.
Fixpoint pairwise_acc (f : Z -> Z -> Z -> Z -> Z -> Z) (a b sum : list Z) : list Z :=
  match a, b, sum with a0 :: a1 :: a', b0 :: b1 :: b', s :: sum' => f a0 a1 b0 b1 s :: pairwise_acc f a' b' sum' | _, _, _ => [] end.
Fixpoint lanewise_acc (f : Z -> Z -> Z -> Z) (a b sum : list Z) : list Z :=
  match a, b, sum with a0 :: a', b0 :: b', s :: sum' => f a0 b0 s :: lanewise_acc f a' b' sum' | _, _, _ => [] end.
(** result lane i from lanes 4i .. 4i+3 of a and b and lane i of sum *)
Fixpoint quadwise (f : Z * Z * Z * Z -> Z * Z * Z * Z -> Z -> Z) (a b sum : list Z) : list Z :=
  match a, b, sum with a0 :: a1 :: a2 :: a3 :: a', b0 :: b1 :: b2 :: b3 :: b', s :: sum' => f (a0, a1, a2, a3) (b0, b1, b2, b3) s :: quadwise f a' b' sum' | _, _, _ => [] end.
