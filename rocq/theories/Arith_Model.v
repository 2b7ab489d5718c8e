(** Model of the integer helpers in hwy/base.h (and ShiftCount). *)
From Coq Require Import ZArith List Lia Bool.
From Verif Require Import Word.
Import ListNotations.
Local Open Scope Z_scope.

(* ------------------------------------------------------------------ *)
(** ** DivCeil / RoundUpTo / RoundDownTo *)

(** base.h:2691-2697 DivCeil with T1 = T2 = size_t (64 bit): [a + b - 1] wraps,
    b = 0 is a division by zero (undefined behaviour): [None]. *)
Definition DivCeil (a b : Z) : option Z :=
  if b =? 0 then None
  else Some (wrap 64 (wrap 64 (a + b) - 1) / b).

(** base.h:2700-2702 *)
Definition RoundUpTo (what align : Z) : option Z :=
  match DivCeil what align with
  | None => None
  | Some q => Some (wrap 64 (q * align))
  end.

(** base.h:2705-2707; [what % 0] is undefined. *)
Definition RoundDownTo (what align : Z) : option Z :=
  if align =? 0 then None else Some (wrap 64 (what - what mod align)).

(* ------------------------------------------------------------------ *)
(** ** ScalarShr, base.h:2709-2746.  [w] is the width of T. *)

(** base.h:2713-2716, the branch chosen for unsigned T and for signed T whose
    [>>] is arithmetic.  Shift counts outside [0,w) are undefined (sub-int
    types are promoted, so really [0,32) there; we take the stricter bound). *)
Definition ScalarShr_native (w val s : Z) : option Z :=
  if (0 <=? s) && (s <? w) then Some (Z.shiftr val s) else None.

(** base.h:2719-2728, the branch for a non-arithmetic signed [>>]:
    val < 0 ? TU(~(TU(~TU(val)) >> s)) : TU(TU(val) >> s), converted to T. *)
Definition ScalarShr_portable (w val s : Z) : option Z :=
  if (0 <=? s) && (s <? w) then
    Some (swrap w
      (if val <? 0
       then wrap w (Z.lnot (Z.shiftr (wrap w (Z.lnot (wrap w val))) s))
       else wrap w (Z.shiftr (wrap w val) s)))
  else None.

(* ------------------------------------------------------------------ *)
(** ** Bit scans, base.h:2749-2819.  [None] = the undefined x == 0 case
    (HWY_DASSERT, intrinsic leaves index unspecified). *)

(** base.h:2750-2758 *)
Definition Num0BitsBelowLS1Bit_Nonzero32 (x : Z) : option Z :=
  if x =? 0 then None else Some (bsf x).

(** base.h:2761-2784, the branch without a 64-bit intrinsic (2769-2779). *)
Definition Num0BitsBelowLS1Bit_Nonzero64_fallback (x : Z) : option Z :=
  if x =? 0 then None else
  let lsb := wrap 32 (Z.land x 4294967295) in
  if lsb =? 0 then
    let msb := wrap 32 (Z.shiftr x 32) in
    Some (32 + bsf msb)
  else Some (bsf lsb).

(** base.h:2787-2796 *)
Definition Num0BitsAboveMS1Bit_Nonzero32 (x : Z) : option Z :=
  if x =? 0 then None else Some (wrap 32 (31 - bsr x)).

(** base.h:2798-2819 with a native 64-bit scan (2801-2804, 2818). *)
Definition Num0BitsAboveMS1Bit_Nonzero64 (x : Z) : option Z :=
  if x =? 0 then None else Some (wrap 64 (63 - bsr x)).

(** base.h:2805-2816, the branch without a 64-bit intrinsic. *)
Definition Num0BitsAboveMS1Bit_Nonzero64_fallback (x : Z) : option Z :=
  if x =? 0 then None else
  let msb := wrap 32 (Z.shiftr x 32) in
  if msb =? 0 then
    let lsb := wrap 32 (Z.land x 4294967295) in
    Some (wrap 32 (63 - bsr lsb))
  else Some (wrap 32 (31 - bsr msb)).

(* ------------------------------------------------------------------ *)
(** ** PopCount *)

(** base.h:2825-2841, portable branch (2834-2839), argument already converted
    to uint32_t. *)
Definition PopCount32 (x0 : Z) : Z :=
  let x1 := wrap 32 (x0 - Z.land (Z.shiftr x0 1) 0x55555555) in
  let x2 := wrap 32 (Z.land (Z.shiftr x1 2) 0x33333333 + Z.land x1 0x33333333) in
  let x3 := Z.land (wrap 32 (Z.shiftr x2 4 + x2)) 0x0F0F0F0F in
  let x4 := wrap 32 (x3 + Z.shiftr x3 8) in
  let x5 := wrap 32 (x4 + Z.shiftr x4 16) in
  Z.land x5 0x3F.

(** base.h:2845-2867, portable branch (2857-2865). *)
Definition PopCount64 (x0 : Z) : Z :=
  let x1 := wrap 64 (x0 - Z.land (Z.shiftr x0 1) 0x5555555555555555) in
  let x2 := wrap 64 (Z.land (Z.shiftr x1 2) 0x3333333333333333
                     + Z.land x1 0x3333333333333333) in
  let x3 := Z.land (wrap 64 (Z.shiftr x2 4 + x2)) 0x0F0F0F0F0F0F0F0F in
  let x4 := wrap 64 (x3 + Z.shiftr x3 8) in
  let x5 := wrap 64 (x4 + Z.shiftr x4 16) in
  let x6 := wrap 64 (x5 + Z.shiftr x5 32) in
  Z.land x6 0x7F.

(* ------------------------------------------------------------------ *)
(** ** Logarithms *)

(** base.h:2871-2876.  The C++ recursion does not end for x = 0; [fuel] is the
    recursion depth and [None] means "still recursing". *)
Fixpoint FloorLog2_fuel (fuel : nat) (x : Z) : option Z :=
  match fuel with
  | O => None
  | S f =>
    if x =? 1 then Some 0
    else match FloorLog2_fuel f (Z.shiftr x 1) with
         | None => None
         | Some r => Some (wrap 64 (r + 1))
         end
  end.

(** base.h:2878-2883, for an unsigned TI of width [w] ([x - 1] wraps). *)
Definition CeilLog2_fuel (w : Z) (fuel : nat) (x : Z) : option Z :=
  if x =? 1 then Some 0
  else match FloorLog2_fuel fuel (wrap w (x - 1)) with
       | None => None
       | Some r => Some (wrap 64 (r + 1))
       end.

(** aligned_allocator.h:178-180; recursion depth is fuel, ends since n/2 < n. *)
Fixpoint ShiftCount_fuel (fuel : nat) (n : Z) : option Z :=
  match fuel with
  | O => None
  | S f =>
    if n <=? 1 then Some 0
    else match ShiftCount_fuel f (n / 2) with
         | None => None
         | Some r => Some (1 + r)
         end
  end.
Definition ShiftCount (n : Z) : option Z := ShiftCount_fuel 65 n.

(* ------------------------------------------------------------------ *)
(** ** AddWithWraparound (integers), base.h:2896-2906.
    [w] = width of T, both operands converted to unsigned long long, masked
    with LimitsMax<TU>() and converted to TU, then to T. *)
Definition AddWithWraparound_u (w t n : Z) : Z :=
  wrap w (Z.land (wrap 64 (wrap 64 t + wrap 64 n)) (2 ^ w - 1)).
Definition AddWithWraparound_s (w t n : Z) : Z :=
  swrap w (wrap w (Z.land (wrap 64 (wrap 64 t + wrap 64 n)) (2 ^ w - 1))).

(** base.h:3100-3105 ScalarAbs for signed T of width w: TU{0} - TU(val).
    For sub-int TU the subtraction is done in int and converted back; the
    result modulo 2^w is the same. *)
Definition ScalarAbs_s (w val : Z) : Z :=
  if val <? 0 then swrap w (wrap w (0 - wrap w val)) else val.

(* ------------------------------------------------------------------ *)
(** ** Mul128 *)

(** base.h:2915-2932, portable branch (2922-2930): (upper, returned lower). *)
Definition Mul128_u (a b : Z) : Z * Z :=
  let kLo32 := 0xFFFFFFFF in
  let lo_lo := wrap 64 (Z.land a kLo32 * Z.land b kLo32) in
  let hi_lo := wrap 64 (Z.shiftr a 32 * Z.land b kLo32) in
  let lo_hi := wrap 64 (Z.land a kLo32 * Z.shiftr b 32) in
  let hi_hi := wrap 64 (Z.shiftr a 32 * Z.shiftr b 32) in
  let t := wrap 64 (wrap 64 (Z.shiftr lo_lo 32 + Z.land hi_lo kLo32) + lo_hi) in
  let upper := wrap 64 (wrap 64 (Z.shiftr hi_lo 32 + Z.shiftr t 32) + hi_hi) in
  (upper, Z.lor (wrap 64 (Z.shiftl t 32)) (Z.land lo_lo kLo32)).

(** base.h:2934-2951, portable branch (2942-2949).  ScalarShr(a, 63) is the
    modelled function; here its value with the native branch (equal to the
    portable one by C06). *)
Definition Mul128_s (a b : Z) : Z * Z :=
  let '(uupper, ulower) := Mul128_u (wrap 64 a) (wrap 64 b) in
  let sa := wrap 64 (Z.shiftr a 63) in
  let sb := wrap 64 (Z.shiftr b 63) in
  (swrap 64 (wrap 64 (wrap 64 (uupper - Z.land sa (wrap 64 b)) - Z.land sb (wrap 64 a))),
   swrap 64 ulower).

(* ------------------------------------------------------------------ *)
(** ** Divisor (32 bit), base.h:2955-2991 *)
Record Divisor := { d_divisor : Z; d_mul : Z; d_shift1 : Z; d_shift2 : Z }.

(** base.h:2957-2968 constructor; member initialisers 2988-2990. *)
Definition Divisor_ctor (divisor : Z) : Divisor :=
  if divisor <=? 1 then
    {| d_divisor := divisor; d_mul := 1; d_shift1 := 0; d_shift2 := 0 |}
  else
    let len := wrap 32 (31 - wrap 32 (31 - bsr (wrap 32 (divisor - 1)))) in
    let u_hi := wrap 64 (wrap 64 (Z.shiftl 2 len) - divisor) in
    let q := Z.land (wrap 64 (Z.shiftl u_hi 32) / divisor) 0xFFFFFFFF in
    {| d_divisor := divisor; d_mul := wrap 32 (q + 1);
       d_shift1 := 1; d_shift2 := len |}.

(** base.h:2973-2977 *)
Definition Divisor_Divide (d : Divisor) (n : Z) : Z :=
  let t := Z.land (Z.shiftr (wrap 64 (d_mul d * n)) 32) 0xFFFFFFFF in
  Z.shiftr (wrap 32 (t + Z.shiftr (wrap 32 (n - t)) (d_shift1 d))) (d_shift2 d).

(** base.h:2980 *)
Definition Divisor_Remainder (d : Divisor) (n : Z) : Z :=
  wrap 32 (n - wrap 32 (Divisor_Divide d n * d_divisor d)).

(* ------------------------------------------------------------------ *)
(** ** Divisor64 with HWY_HAVE_DIV128, base.h:3013-3066 *)
Record Divisor64 := { e_divisor : Z; e_mul : Z; e_shift1 : Z; e_shift2 : Z }.

(** base.h:3042-3051 Div128: the 128/64 quotient truncated to 64 bits.  The
    MSVC intrinsic faults unless hi < div; [None] marks that case (and div=0). *)
Definition Div128 (hi div : Z) : option Z :=
  if hi <? div then Some (wrap 64 (Z.shiftl hi 64 / div)) else None.

(** base.h:3053-3062 *)
Definition MulHigh (a b : Z) : Z := wrap 64 (Z.shiftr (a * b) 64).

(** base.h:3015-3026.  [2ULL << len] wraps to 0 for len = 63. *)
Definition Divisor64_ctor (divisor : Z) : option Divisor64 :=
  if divisor <=? 1 then
    Some {| e_divisor := divisor; e_mul := 1; e_shift1 := 0; e_shift2 := 0 |}
  else
    let len := wrap 64 (63 - wrap 64 (63 - bsr (wrap 64 (divisor - 1)))) in
    let u_hi := wrap 64 (wrap 64 (Z.shiftl 2 len) - divisor) in
    match Div128 u_hi divisor with
    | None => None
    | Some q =>
      Some {| e_divisor := divisor; e_mul := wrap 64 (q + 1);
              e_shift1 := 1; e_shift2 := len |}
    end.

(** base.h:3031-3034 *)
Definition Divisor64_Divide (d : Divisor64) (n : Z) : Z :=
  let t := MulHigh (e_mul d) n in
  Z.shiftr (wrap 64 (t + Z.shiftr (wrap 64 (n - t)) (e_shift1 d))) (e_shift2 d).

(** base.h:3037 *)
Definition Divisor64_Remainder (d : Divisor64) (n : Z) : Z :=
  wrap 64 (n - wrap 64 (Divisor64_Divide d n * e_divisor d)).

(** base.h:3070-3081, without Div128: built-in division ([None]: division by 0). *)
Definition Divisor64_plain_Divide (divisor n : Z) : option Z :=
  if divisor =? 0 then None else Some (n / divisor).
Definition Divisor64_plain_Remainder (divisor n : Z) : option Z :=
  if divisor =? 0 then None else Some (n mod divisor).
