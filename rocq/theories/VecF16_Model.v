(** Model of the vector conversions between float16_t, bfloat16_t, float and double: hwy/ops/generic_ops-inl.h 3368-3680
    (targets without F16C or other native support: EMU128, SSE2-SSE4, WASM, PPC, LSX) and the lane selection around them.
    Floats are bit patterns, signed integers their two's complement pattern unless noted, vectors lists of lanes (lane 0 first), little endian. *)
From Coq Require Import ZArith Bool List.
From Verif Require Import Word Float_Spec Float_Model Rounding_Model Pow2_Model.
Import ListNotations.
Open Scope Z_scope.

(** built-in addition of any two floats (IEEE 754 6.1, 6.2): [Rounding_Model.fadd] for finite operands. [nan a b]: the NaN returned for NaN operands
    and for inf - inf *)
Definition fadd_ieee (f : fmt) (nan : Z -> Z -> Z) (a b : Z) : Z :=
  if negb (not_nan f a) || negb (not_nan f b) then nan a b else
  if is_fin f a && is_fin f b then fadd f nan a b else
  if is_fin f b then a else if is_fin f a then b else
  if Bool.eqb (negative f a) (negative f b) then a else nan a b.

Section F16.
Context (nan : Z -> Z -> Z).
(** 3378-3398 PromoteTo(f32, f16). 0x33800000 is 1.0f / 16384 / 1024. ConvertTo of the non-negative int32 mantissa *)
Definition promote_f16 (v : Z) : Z :=
  let bits16 := v in
  let sign := Z.shiftr bits16 15 in
  let biased_exp := Z.land (Z.shiftr bits16 10) 0x1F in
  let mantissa := Z.land bits16 0x3FF in
  let subnormal := fmul binary32 nan (of_int binary32 (swrap 32 mantissa)) 0x33800000 in
  let biased_exp32 := wrap 32 (biased_exp + (127 - 15)) in
  let mantissa32 := wrap 32 (Z.shiftl mantissa (23 - 10)) in
  let normal := Z.lor (wrap 32 (Z.shiftl biased_exp32 23)) mantissa32 in
  let bits32 := if biased_exp =? 0 then subnormal else normal in
  Z.lor (wrap 32 (Z.shiftl sign 31)) bits32.

(** SaturatedAdd of u8 lanes *)
Definition satadd8 (a b : Z) : Z := Z.min (a + b) 255.
(** BitwiseIfThenElse (generic_ops 286-299, emu128 and so on) *)
Definition bitwise_if (m yes no : Z) : Z := Z.lor (Z.land m yes) (Z.land (2 ^ 32 - 1 - m) no).
(** DemoteTo(i16, i32): saturates; the argument is signed *)
Definition demote_i32_i16 (x : Z) : Z := wrap 16 (Z.max (- 2 ^ 15) (Z.min x (2 ^ 15 - 1))).
(** 3400-3545 DemoteTo(f16, f32). [u8]: the branches for targets other than SCALAR and EMU128 *)
Definition demote_f16_incr (u8 : bool) (v : Z) : Z :=
  let hi9_bits := Z.shiftr v 23 in
  if u8 then lanes 4 8 Z.max (lanes 4 8 satadd8 hi9_bits 13) 126
  else bitwise_if 255 (Z.max (Z.min (wrap 32 (Z.land hi9_bits 255 + 13)) 255) 126) hi9_bits.
Definition demote_f16_exp (u8 : bool) (ri9 rv : Z) : Z * bool :=
  if u8 then
    let e := lanes 4 8 Z.min (lanes 4 8 satadd8 ri9 (Z.shiftr rv 10)) 157 in
    (wrap 32 (Z.shiftl e 10), e =? 157)
  else
    let e := Z.min (wrap 32 (wrap 32 (Z.shiftl (Z.land ri9 255) 10) + Z.land rv (Z.shiftl 0xFF 10))) (Z.shiftl 157 10) in
    (e, e =? Z.shiftl 157 10).
Definition demote_f16 (u8 : bool) (v : Z) : Z :=
  let round_incr_hi9_bits := demote_f16_incr u8 v in
  let round_incr := wrap 32 (Z.shiftl round_incr_hi9_bits 23) in
  let rounded_val := fadd_ieee binary32 nan v round_incr in
  let '(exp_bits, result_is_inf) := demote_f16_exp u8 round_incr_hi9_bits rounded_val in
  let f16_exp_bits := wrap 32 (exp_bits - Z.shiftl 126 10) in
  let unmasked_mant := Z.lor (if result_is_inf then 0 else rounded_val) (if f32_nan rounded_val then 2 ^ 32 - 1 else 0) in
  let exp_mant := Z.lor f16_exp_bits (Z.land unmasked_mant 0x03FF) in
  let as_i32 := Z.lor exp_mant (Z.land (wrap 32 (Z.shiftr (swrap 32 rounded_val) 16)) 0xFFFF8000) in
  demote_i32_i16 (swrap 32 as_i32).

(** 3557-3577 DemoteTo(f16, f64); [to_f32]: the target's DemoteTo(f32, f64) *)
Definition demote_f64_f16 (u8 : bool) (to_f32 : Z -> Z) (v : Z) : Z :=
  let vf64_rounded := Z.lor (Z.land v 0xFFFFFFFFE0000000) (Z.land (wrap 64 (v + 0x1FFFFFFF)) 0x20000000) in
  demote_f16 u8 (to_f32 vf64_rounded).
End F16.

(** 3589-3594 PromoteTo(f64, f16); the second step is the target's PromoteTo(f64, f32), an exact IEEE conversion: [to_f64] *)
Definition promote_f16_f64 (nan : Z -> Z -> Z) (to_f64 : Z -> Z) (v : Z) : Z := to_f64 (promote_f16 nan v).

(** 3613-3629 RoundF32ForDemoteToBF16 *)
Definition round_bf16 (v : Z) : Z :=
  let is_non_nan := negb (f32_nan v) in
  let round_incr := wrap 32 (Z.land (Z.shiftr v 16) 1 + 0x7FFF) in
  if is_non_nan then wrap 32 (v + round_incr) else Z.lor v 0x00400000.
(** BitCast of u32 lanes to u16 lanes *)
Definition halves (v : list Z) : list Z := flat_map (fun x => [wrap 16 x; Z.shiftr x 16]) v.
Fixpoint odd_lanes (v : list Z) : list Z := match v with _ :: y :: v' => y :: odd_lanes v' | _ => [] end.
(** ConcatOdd: the odd lanes of lo, then those of hi. OddEven: odd lanes of a, even lanes of b *)
Definition concat_odd (hi lo : list Z) : list Z := odd_lanes lo ++ odd_lanes hi.
Fixpoint odd_even (a b : list Z) : list Z := match a, b with _ :: a1 :: a', b0 :: _ :: b' => b0 :: a1 :: odd_even a' b' | _, _ => [] end.
(** 3633-3646 DemoteTo, 3648-3664 OrderedDemote2To, 3666-3678 ReorderDemote2To (bf16) *)
Definition demote_bf16 (v : list Z) : list Z :=
  let rounded_bits := halves (map round_bf16 v) in
  firstn (length v) (concat_odd rounded_bits rounded_bits).
Definition ordered_demote2_bf16 (a b : list Z) : list Z :=
  concat_odd (halves (map round_bf16 b)) (halves (map round_bf16 a)).
Definition reorder_demote2_bf16 (a b : list Z) : list Z :=
  let a_in_odd := map round_bf16 a in
  let b_in_even := map (fun x => Z.shiftr x 16) (map round_bf16 b) in
  odd_even (halves a_in_odd) (halves b_in_even).
(** PromoteTo(f32, bf16): emu128-inl.h 1673-1683 (F32FromBF16 per lane), x86_128-inl.h: ShiftLeft<16>(PromoteTo(u32)) *)
Definition promote_bf16 (v : list Z) : list Z := map (fun x => wrap 32 (Z.shiftl x 16)) v.
