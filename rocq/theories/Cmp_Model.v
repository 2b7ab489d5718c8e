(** Model of the integer comparisons, Min, Max, Abs, SaturatedAbs, IfNegativeThen* and 128-bit comparisons of hwy/ops/x86_128-inl.h
    (1854-1868, 2838-3076, 4636-4935, 5824-6000, 13752-13872), SSE2 to AVX2 (vector masks).  One lane, as a bit pattern (signed lanes too);
    operations on 32-bit halves of a 64-bit lane are spelled out. A true mask lane is all ones, a false one zero. *)
From Coq Require Import ZArith List Bool.
From Verif Require Import Word Ops_Model Shift_Model.
Import ListNotations.
Open Scope Z_scope.

Definition all_ones (w : Z) (b : bool) : Z := if b then 2 ^ w - 1 else 0.
Definition vnot1 (w x : Z) : Z := 2 ^ w - 1 - x.
(** instructions PCMPEQ, PCMPGT (signed), PSUB *)
Definition pcmpeq (w a b : Z) : Z := all_ones w (a =? b).
Definition pcmpgt (w a b : Z) : Z := all_ones w (swrap w b <? swrap w a).
Definition psub (w a b : Z) : Z := wrap w (a - b).
Definition padd (w a b : Z) : Z := wrap w (a + b).
Definition lo32 (x : Z) : Z := wrap 32 x.
Definition hi32 (x : Z) : Z := Z.shiftr x 32.
Definition join32 (l h : Z) : Z := l + 2 ^ 32 * h.
(** 2858-2870 operator== of 64-bit lanes up to SSSE3: 32-bit compare, Shuffle2301 *)
Definition eq64 (a b : Z) : Z :=
  let cl := pcmpeq 32 (lo32 a) (lo32 b) in let ch := pcmpeq 32 (hi32 a) (hi32 b) in
  join32 (Z.land cl ch) (Z.land ch cl).
Definition veq (native64 : bool) (w a b : Z) : Z := if (w =? 64) && negb native64 then eq64 a b else pcmpeq w a b.
(** 2906-2950 operator!= *)
Definition vne (native64 : bool) (w a b : Z) : Z := vnot1 w (veq native64 w a b).
(** 2984-3003 Gt of i64 up to SSSE3; _MM_SHUFFLE(3, 3, 1, 1) duplicates the upper half *)
Definition gt64 (a b : Z) : Z :=
  let eql := pcmpeq 32 (lo32 a) (lo32 b) in let eqh := pcmpeq 32 (hi32 a) (hi32 b) in
  let gtl := pcmpgt 32 (lo32 a) (lo32 b) in let gth := pcmpgt 32 (hi32 a) (hi32 b) in
  let m_eq32 := join32 eql eqh in let m_gt32 := join32 gtl gth in
  let upper := Z.lor m_gt32 (Z.land m_eq32 (psub 64 b a)) in
  join32 (hi32 upper) (hi32 upper).
Definition gt_i (native64 : bool) (w a b : Z) : Z := if (w =? 64) && negb native64 then gt64 a b else pcmpgt w a b.
(** 3005-3014 Gt of unsigned lanes *)
Definition gt_u (native64 : bool) (w a b : Z) : Z :=
  let msb := Z.shiftr (2 ^ w - 1) 1 + 1 in gt_i native64 w (Z.lxor a msb) (Z.lxor b msb).
(** 3035-3046 Ge; 3068-3076 reversed *)
Definition ge_i n64 w a b := vnot1 w (gt_i n64 w b a).
Definition ge_u n64 w a b := vnot1 w (gt_u n64 w b a).
Definition lt_i n64 w a b := gt_i n64 w b a.
Definition lt_u n64 w a b := gt_u n64 w b a.
Definition le_i n64 w a b := ge_i n64 w b a.
Definition le_u n64 w a b := ge_u n64 w b a.

(** 1854-1859 IfThenElse up to SSSE3 (bitwise); 1864-1868 BLENDVB: the top bit of each byte of the mask *)
Definition blend_bits (w m y n : Z) : Z := Z.lor (Z.land m y) (Z.land (vnot1 w m) n).
Fixpoint blend_bytes (bytes : nat) (m y n : Z) : Z :=
  match bytes with O => 0 | S b => (if Z.testbit m 7 then wrap 8 y else wrap 8 n) + 256 * blend_bytes b (Z.shiftr m 8) (Z.shiftr y 8) (Z.shiftr n 8) end.
(** BLENDVPS / BLENDVPD: the top bit of the lane *)
Definition blend_lane (w m y n : Z) : Z := if Z.testbit m (w - 1) then y else n.
Definition if_then_else (sse4 : bool) (w m y n : Z) : Z := if sse4 then blend_bytes (Z.to_nat (w / 8)) m y n else blend_bits w m y n.

(** 4638-4670 BroadcastSignBit *)
Definition bcast_sign (sse4 : bool) (w x : Z) : Z :=
  if w =? 8 then lt_i sse4 8 x 0 else if w =? 64 then broadcast_sign64 sse4 x else srai w (w - 1) x.
(** 4790-4851 IfNegativeThenElse *)
Definition if_negative_then_else (sse4 : bool) (w v y n : Z) : Z :=
  if w =? 8 then if_then_else sse4 8 (if sse4 then v else bcast_sign sse4 8 v) y n
  else if w =? 16 then if_then_else sse4 16 (bcast_sign sse4 16 v) y n
  else if sse4 then blend_lane w v y n else if_then_else sse4 w (bcast_sign sse4 w v) y n.
(** 4868-4890 IfNegativeThenElseZero, IfNegativeThenZeroElse on SSE4 / AVX2; generic_ops-inl.h 256-276 before, IsNegative is BroadcastSignBit's mask;
    ZeroIfNegative *)
Definition if_neg_then_else_zero (sse4 : bool) (w v y : Z) : Z :=
  if sse4 && negb (w =? 16) then if_negative_then_else sse4 w v y 0 else Z.land (bcast_sign sse4 w v) y.
Definition if_neg_then_zero_else (sse4 : bool) (w v n : Z) : Z :=
  if sse4 && negb (w =? 16) then if_negative_then_else sse4 w v 0 n else Z.land (vnot1 w (bcast_sign sse4 w v)) n.
Definition zero_if_negative (sse4 : bool) (w v : Z) : Z := if_neg_then_zero_else sse4 w v v.
(** 4903-4935: PSIGN (SSSE3 and later); otherwise and for 64 bits IfNegativeThenElse(mask, Neg(v), v) *)
Definition psign (w v m : Z) : Z := if swrap w m <? 0 then psub w 0 v else if swrap w m =? 0 then 0 else v.
Definition if_neg_then_neg (ssse3 sse4 : bool) (w m v : Z) : Z :=
  if ssse3 && negb (w =? 64) then psign w v m else if_negative_then_else sse4 w m (psub w 0 v) v.

(** 5828-5837 MinU, 5923-5932 MaxU *)
Definition min_gt (n64 sse4 : bool) (w a b : Z) : Z :=
  let msb := wrap w (Z.shiftl 1 (w - 1)) in if_then_else sse4 w (gt_i n64 w (Z.lxor a msb) (Z.lxor b msb)) b a.
Definition max_gt (n64 sse4 : bool) (w a b : Z) : Z :=
  let msb := wrap w (Z.shiftl 1 (w - 1)) in if_then_else sse4 w (gt_i n64 w (Z.lxor a msb) (Z.lxor b msb)) a b.
(** PSUBUSW: saturating unsigned subtraction; PMINUB *)
Definition psubus (a b : Z) : Z := Z.max 0 (a - b).
(** 5842-5872 Min unsigned, 5937-5967 Max unsigned (u8: PMINUB / PMAXUB) *)
Definition min_u (sse4 : bool) (w a b : Z) : Z :=
  if w =? 8 then Z.min a b else
  if w =? 16 then (if sse4 then Z.min a b else psub 16 a (psubus a b)) else
  if (w =? 32) && sse4 then Z.min a b else min_gt sse4 sse4 w a b.
Definition max_u (sse4 : bool) (w a b : Z) : Z :=
  if w =? 8 then Z.max a b else
  if w =? 16 then (if sse4 then Z.max a b else padd 16 a (psubus b a)) else
  if (w =? 32) && sse4 then Z.max a b else max_gt sse4 sse4 w a b.
(** PMINSB etc.: minimum of the signed lanes *)
Definition pmins (w a b : Z) : Z := if swrap w b <? swrap w a then b else a.
Definition pmaxs (w a b : Z) : Z := if swrap w a <? swrap w b then b else a.
(** 5875-5901 Min signed, 5970-5996 Max signed *)
Definition min_i (sse4 : bool) (w a b : Z) : Z :=
  if (w =? 16) || (sse4 && negb (w =? 64)) then pmins w a b else if_then_else sse4 w (lt_i sse4 w a b) a b.
Definition max_i (sse4 : bool) (w a b : Z) : Z :=
  if (w =? 16) || (sse4 && negb (w =? 64)) then pmaxs w a b else if_then_else sse4 w (lt_i sse4 w a b) b a.

(** 4674-4722 Abs: [ssse3]: PABS (not for 64-bit lanes) *)
Definition pabs (w x : Z) : Z := wrap w (Z.abs (swrap w x)).
Definition vabs (ssse3 sse4 : bool) (w x : Z) : Z :=
  if w =? 64 then if_negative_then_else sse4 64 x (psub 64 0 x) x else
  if ssse3 then pabs w x else
  if w =? 8 then min_u sse4 8 x (psub 8 0 x) else
  if w =? 16 then max_i sse4 16 x (psub 16 0 x) else
  if_then_else sse4 32 (bcast_sign sse4 32 x) (psub 32 0 x) x.
(** PSUBSB, PSUBSW *)
Definition psubs (w a b : Z) : Z := wrap w (Z.max (- 2 ^ (w - 1)) (Z.min (swrap w a - swrap w b) (2 ^ (w - 1) - 1))).
(** 4730-4766 SaturatedAbs *)
Definition sat_abs (ssse3 sse4 : bool) (w x : Z) : Z :=
  if w =? 8 then min_u sse4 8 x (psubs 8 0 x) else
  if w =? 16 then max_i sse4 16 x (psubs 16 0 x) else
  let abs_v := vabs ssse3 sse4 w x in
  if (w =? 32) && sse4 then min_u sse4 32 abs_v (2 ^ 31 - 1) else padd w abs_v (bcast_sign sse4 w abs_v).

(** 13757-13818: pairs of u64 lanes (lower, upper).  ShiftLeftLanes<1>: the lower lane moves up, zero below; InterleaveUpper(v, v) duplicates the upper lane *)
Definition lane2 : Type := (Z * Z)%type.
Definition map_lanes (f : Z -> Z -> Z) (a b : lane2) : lane2 := (f (fst a) (fst b), f (snd a) (snd b)).
Definition dup_upper (v : lane2) : lane2 := (snd v, snd v).
Definition lt128 (sse4 : bool) (a b : lane2) : lane2 :=
  let eqHL := map_lanes (veq sse4 64) a b in
  let ltHL := map_lanes (lt_u sse4 64) a b in
  let ltLX := (0, fst ltHL) in
  let vecHx := (if_then_else sse4 64 (fst eqHL) (fst ltLX) (fst ltHL), if_then_else sse4 64 (snd eqHL) (snd ltLX) (snd ltHL)) in
  dup_upper vecHx.
Definition eq128 (sse4 : bool) (a b : lane2) : lane2 :=
  let eqHL := map_lanes (veq sse4 64) a b in let eqLH := (snd eqHL, fst eqHL) in map_lanes Z.land eqHL eqLH.
Definition ne128 (sse4 : bool) (a b : lane2) : lane2 :=
  let neHL := map_lanes (vne sse4 64) a b in let neLH := (snd neHL, fst neHL) in map_lanes Z.lor neHL neLH.
Definition lt128_upper (sse4 : bool) (a b : lane2) : lane2 := dup_upper (map_lanes (lt_u sse4 64) a b).
Definition eq128_upper (sse4 : bool) (a b : lane2) : lane2 := dup_upper (map_lanes (veq sse4 64) a b).
Definition ne128_upper (sse4 : bool) (a b : lane2) : lane2 := dup_upper (map_lanes (vne sse4 64) a b).
(** 13852-13872 Min128, Max128, Min128Upper, Max128Upper *)
Definition select2 (sse4 : bool) (m y n : lane2) : lane2 := (if_then_else sse4 64 (fst m) (fst y) (fst n), if_then_else sse4 64 (snd m) (snd y) (snd n)).
Definition min128 sse4 a b := select2 sse4 (lt128 sse4 a b) a b.
Definition max128 sse4 a b := select2 sse4 (lt128 sse4 b a) a b.
Definition min128_upper sse4 a b := select2 sse4 (lt128_upper sse4 a b) a b.
Definition max128_upper sse4 a b := select2 sse4 (lt128_upper sse4 b a) a b.
