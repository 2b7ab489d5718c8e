(** Model of the shifts and rotates of hwy/ops/x86_128-inl.h (1934-2030, 4477-4790, 4937-5105, 9029-9580), x86_avx3-inl.h 47-104 (GFNI)
    and inside-inl.h 148-430 (generic Rol, Ror, RotateLeftSame, RotateRightSame), generic_ops-inl.h 457-466 (RotateLeft).
    A vector is the list of its lanes, lane 0 first; lanes are bit patterns (signed lanes too). *)
From Coq Require Import ZArith List Bool.
From Verif Require Import Word Float_Spec AES_Spec Ops_Model.
Import ListNotations.
Open Scope Z_scope.

(** x86 shift instructions on one lane: counts >= w yield zero (or the sign) *)
Definition slli (w k x : Z) : Z := if k <? w then wrap w (Z.shiftl x k) else 0.
Definition srli (w k x : Z) : Z := if k <? w then Z.shiftr x k else 0.
Definition srai (w k x : Z) : Z := wrap w (Z.shiftr (swrap w x) (Z.min k (w - 1))).

(** BitCast between u8 and u16 lanes (little endian) *)
Fixpoint to16 (v : list Z) : list Z := match v with a :: b :: r => a + 2 ^ 8 * b :: to16 r | _ => [] end.
Definition to8 (v : list Z) : list Z := flat_map (fun x => [wrap 8 x; Z.shiftr x 8]) v.
Definition vand1 (m : Z) (v : list Z) : list Z := map (fun x => Z.land x m) v.

(** 1977-1986 ShiftLeft<kBits> of 8-bit lanes (not AVX3_DL); the 16-bit ones etc. are slli *)
Definition shift_left8 (k : Z) (v : list Z) : list Z :=
  let shifted := to8 (map (slli 16 k) (to16 v)) in
  if k =? 1 then map (fun x => wrap 8 (x + x)) v else vand1 (Z.land (Z.shiftl 0xFF k) 0xFF) shifted.
(** 2016-2023 ShiftRight u8, 2025-2033 ShiftRight i8 *)
Definition shift_right_u8 (k : Z) (v : list Z) : list Z := vand1 (Z.shiftr 0xFF k) (to8 (map (srli 16 k) (to16 v))).
Definition shift_right_i8 (k : Z) (v : list Z) : list Z :=
  let shifted := shift_right_u8 k v in
  let shifted_sign := Z.shiftr 0x80 k in
  map (fun s => wrap 8 (Z.lxor s shifted_sign - shifted_sign)) shifted.
(** 4654-4670 BroadcastSignBit i64: [cmp]: SSE4 and AVX2 (v < 0); otherwise a 32-bit shift and shuffle of the upper halves *)
Definition broadcast_sign64 (cmp : bool) (x : Z) : Z :=
  if cmp then (if swrap 64 x <? 0 then 2 ^ 64 - 1 else 0)
  else let s := srai 32 31 (Z.shiftr x 32) in s + 2 ^ 32 * s.
(** 4776-4788 ShiftRight i64 (up to AVX2); 5076-5094 ShiftRightSame i64 is the same with a runtime count *)
Definition shift_right_i64 (cmp : bool) (k x : Z) : Z := Z.lor (srli 64 k x) (slli 64 (64 - k) (broadcast_sign64 cmp x)).
(** 5003-5010 ShiftLeftSame, 5045-5053, 5096-5104 ShiftRightSame of 8-bit lanes *)
Definition shift_left_same8 (k : Z) (v : list Z) : list Z :=
  vand1 (wrap 8 (Z.land (Z.shiftl 0xFF k) 0xFF)) (to8 (map (slli 16 k) (to16 v))).
Definition shift_right_same_u8 (k : Z) (v : list Z) : list Z := vand1 (wrap 8 (Z.shiftr 0xFF k)) (to8 (map (srli 16 k) (to16 v))).
Definition shift_right_same_i8 (k : Z) (v : list Z) : list Z :=
  let shifted := shift_right_same_u8 k v in
  let shifted_sign := wrap 8 (Z.shiftr 0x80 k) in
  map (fun s => wrap 8 (Z.lxor s shifted_sign - shifted_sign)) shifted.

(** GF2P8AFFINEQB with imm8 = 0 (Intel SDM): bit j of the result is the parity of (byte 7 - j of the matrix) & source *)
Definition parity8 (x : Z) : bool := fold_left xorb (map (fun i => Z.testbit x (Z.of_nat i)) (seq 0 8)) false.
Definition gf_affine (m x : Z) : Z :=
  fold_left Z.add (map (fun j => if parity8 (Z.land (Z.shiftr m (8 * (7 - Z.of_nat j))) x) then 2 ^ Z.of_nat j else 0) (seq 0 8)) 0.
(** x86_avx3-inl.h 49-57, 62-70, 73-83, 89-104 *)
Definition shl_matrix (k : Z) : Z := Z.land (Z.shiftr 0x0102040810204080 k) (0x0101010101010101 * Z.shiftr 0xFF k).
Definition shr_matrix (k : Z) : Z := Z.land (wrap 64 (Z.shiftl 0x0102040810204080 k)) (0x0101010101010101 * Z.land (Z.shiftl 0xFF k) 0xFF).
Definition gf_shift_left (k x : Z) : Z := if k =? 0 then x else if k =? 1 then wrap 8 (x + x) else gf_affine (shl_matrix k) x.
Definition gf_shift_right_u8 (k x : Z) : Z := if k =? 0 then x else gf_affine (shr_matrix k) x.
Definition gf_shift_right_i8 (k x : Z) : Z :=
  if k =? 0 then x else
  let kSign := if k =? 0 then 0 else Z.shiftr 0x8080808080808080 (64 - 8 * k) in
  gf_affine (Z.lor (shr_matrix k) kSign) x.
Definition gf_rotate_right (k x : Z) : Z :=
  if k =? 0 then x else gf_affine (Z.lor (shr_matrix k) (shl_matrix (Z.land (- k) 7))) x.
(** x86_512-inl.h 2931-2935 BroadcastSignBit of i8; 4250-4254 ReverseBits of 8-bit lanes *)
Definition gf_broadcast_sign8 (x : Z) : Z := gf_affine 0x8080808080808080 x.
Definition gf_reverse_bits8 (x : Z) : Z := gf_affine 0x8040201008040201 x.

(** 4483-4532 RotateRight<kBits>: [shr], [shl] are the target's ShiftRight and ShiftLeft for unsigned lanes of [w] bits *)
Definition rotate_right (w : Z) (shr shl : Z -> list Z -> list Z) (k : Z) (v : list Z) : list Z :=
  if k =? 0 then v else vor (shr k v) (shl (Z.min (w - 1) (w - k)) v).
(** generic_ops-inl.h 458-466 *)
Definition rotate_left (w : Z) (shr shl : Z -> list Z -> list Z) (k : Z) (v : list Z) : list Z :=
  rotate_right w shr shl (if k =? 0 then 0 else w - k) v.
(** inside-inl.h 148-290: Rol, Ror; [shl], [shr]: the target's variable shifts. Neg of a signed lane wraps *)
Definition rol (w : Z) (shl shr : list Z -> list Z -> list Z) (a b : list Z) : list Z :=
  let shl_amt := vand1 (w - 1) b in
  let shr_amt := vand1 (w - 1) (map (fun x => wrap w (- swrap w x)) b) in
  vor (shl a shl_amt) (shr a shr_amt).
Definition ror (w : Z) (shl shr : list Z -> list Z -> list Z) (a b : list Z) : list Z :=
  let shr_amt := vand1 (w - 1) b in
  let shl_amt := vand1 (w - 1) (map (fun x => wrap w (- swrap w x)) b) in
  vor (shl a shl_amt) (shr a shr_amt).
(** inside-inl.h 293-430; [bits] is a (signed) int, 0u - unsigned *)
Definition rotate_left_same (w : Z) (shl shr : Z -> list Z -> list Z) (v : list Z) (bits : Z) : list Z :=
  let shl_amt := Z.land bits (w - 1) in
  let shr_amt := swrap 32 (Z.land (wrap 32 (0 - wrap 32 bits)) (w - 1)) in
  vor (shl shl_amt v) (shr shr_amt v).
Definition rotate_right_same (w : Z) (shl shr : Z -> list Z -> list Z) (v : list Z) (bits : Z) : list Z :=
  let shr_amt := Z.land bits (w - 1) in
  let shl_amt := swrap 32 (Z.land (wrap 32 (0 - wrap 32 bits)) (w - 1)) in
  vor (shl shl_amt v) (shr shr_amt v).

(** ** Variable shifts, SSE2 to SSE4 *)
(** CVTPS2DQ / CVTTPS2DQ: [rnd] rounds a value given in units of 2^-1074 to an integer (nearest or truncating); out of range gives 0x80000000 *)
Definition cvt_i32 (rnd : Z -> Z) (p : Z) : Z :=
  if inf_mag binary32 <? magnitude binary32 p then 0x80000000 else
  let i := rnd (value binary32 p) in
  if (- 2 ^ 31 <=? i) && (i <? 2 ^ 31) then wrap 32 i else 0x80000000.
(** _mm_packus_epi32: signed 32-bit to unsigned 16-bit with saturation; _mm_packs_epi32 to signed 16-bit *)
Definition packus32 (x : Z) : Z := Z.max 0 (Z.min (swrap 32 x) 65535).
Definition packs32 (x : Z) : Z := wrap 16 (Z.max (- 2 ^ 15) (Z.min (swrap 32 x) (2 ^ 15 - 1))).
(** even u16 lanes of u32 lanes *)
Definition low16 (v : list Z) : list Z := map (wrap 16) v.
Inductive sse := SSE4 | SSSE3 | SSE2.
(** 9056-9078 Pow2 of 8 16-bit lanes: ZipLower / ZipUpper with zero below, convert, pack (ConcatEven: lower half from bits0) *)
Definition pow2_16_full (t : sse) (rnd : Z -> Z) (v : list Z) : list Z :=
  let upper := map (fun e => wrap 16 (slli 16 (23 - 16) e + 0x3F80)) v in
  let f0 := map (fun u => 0 + 2 ^ 16 * u) (firstn 4 upper) in
  let f1 := map (fun u => 0 + 2 ^ 16 * u) (skipn 4 upper) in
  let bits0 := map (cvt_i32 rnd) f0 in
  let bits1 := map (cvt_i32 rnd) f1 in
  match t with SSE4 => map packus32 bits0 ++ map packus32 bits1 | _ => low16 bits0 ++ low16 bits1 end.
(** 9080-9107 Pow2 of up to 4 16-bit lanes *)
Definition pow2_16_part (t : sse) (rnd : Z -> Z) (v : list Z) : list Z :=
  let upper := map (fun e => wrap 16 (slli 16 (23 - 16) e + 0x3F80)) v in
  let bits0 := map (cvt_i32 rnd) (map (fun u => 0 + 2 ^ 16 * u) upper) in
  match t with
  | SSE4 => map packus32 bits0
  | SSSE3 => low16 bits0 (* TableLookupBytes with kCompactEvenU16 *)
  | SSE2 => map packs32 (map (srai 32 16) (map (slli 32 16) bits0))
  end.
Definition pow2_16 (t : sse) (rnd : Z -> Z) (v : list Z) : list Z :=
  if Nat.leb (length v) 4 then pow2_16_part t rnd v else pow2_16_full t rnd v.
(** 9109-9118 Pow2 of 32-bit lanes *)
Definition pow2_32 (rnd : Z -> Z) (v : list Z) : list Z :=
  map (fun e => cvt_i32 rnd (wrap 32 (slli 32 23 e + 0x3F800000))) v.
(** 9122-9132 Shl u16; 9342-9356 Shr u16 (MulHigh; bits = 0 fixed afterwards) *)
Definition shl_16 (t : sse) (rnd : Z -> Z) (v bits : list Z) : list Z := map2 (fun x p => wrap 16 (x * p)) v (pow2_16 t rnd bits).
Definition shr_16 (t : sse) (rnd : Z -> Z) (v bits : list Z) : list Z :=
  let out := map2 (fun x p => Z.shiftr (x * p) 16) v (pow2_16 t rnd (map (fun b => wrap 16 (16 - b)) bits)) in
  map2 (fun b p => if b =? 0 then fst p else snd p) bits (combine v out).
(** OddEven on u8 lanes: odd lanes of a, even lanes of b *)
Fixpoint odd_even8 (a b : list Z) : list Z := match a, b with _ :: a1 :: a', b0 :: _ :: b' => b0 :: a1 :: odd_even8 a' b' | _, _ => [] end.
(** 9196-9211 Shl u8; 9371-9388 Shr u8 *)
Definition shl_8 (t : sse) (rnd : Z -> Z) (v bits : list Z) : list Z :=
  let vw := to16 v in let bits16 := to16 bits in
  let evens := shl_16 t rnd vw (vand1 0x00FF bits16) in
  let odds := shl_16 t rnd (vand1 0xFF00 vw) (map (srli 16 8) bits16) in
  odd_even8 (to8 odds) (to8 evens).
Definition shr_8 (t : sse) (rnd : Z -> Z) (v bits : list Z) : list Z :=
  let vw := to16 v in let bits16 := to16 bits in
  let evens := shr_16 t rnd (vand1 0x00FF vw) (vand1 0x00FF bits16) in
  let odds := shr_16 t rnd vw (map (srli 16 8) bits16) in
  odd_even8 (to8 odds) (to8 evens).
(** 9213-9222, 9389-9400: one 8-bit lane; [g], [gb]: the other byte of the 16-bit register lane *)
Definition shl_8_1 (x g b gb : Z) : Z := wrap 8 (slli 16 (Z.land (b + 2 ^ 8 * gb) 0xFF) (x + 2 ^ 8 * g)).
Definition shr_8_1 (x g b gb : Z) : Z := wrap 8 (srli 16 (Z.land (b + 2 ^ 8 * gb) 0xFF) (Z.land (x + 2 ^ 8 * g) 0xFF)).
(** 9134-9144, 9358-9368 one 16-bit lane: the count register is zero-extended *)
Definition shl_16_1 (x b : Z) : Z := slli 16 b x.
Definition shr_16_1 (x b : Z) : Z := srli 16 b x.
(** 9224-9232 Shl u32; 9402-9423 Shr u32 on a register of four lanes: shuffle 0x31, MulEven, OddEven *)
Definition shl_32 (rnd : Z -> Z) (v bits : list Z) : list Z := map2 (fun x p => wrap 32 (x * p)) v (pow2_32 rnd bits).
Definition shuffle31 (v : list Z) : list Z := [nth 1 v 0; nth 0 v 0; nth 3 v 0; nth 0 v 0].
Definition mul_even32 (a b : list Z) : list Z := [nth 0 a 0 * nth 0 b 0; nth 2 a 0 * nth 2 b 0].
Definition cast64_32 (v : list Z) : list Z := flat_map (fun x => [wrap 32 x; Z.shiftr x 32]) v.
Definition shr_32 (rnd : Z -> Z) (v bits : list Z) : list Z :=
  let in31 := shuffle31 v in
  let mul := pow2_32 rnd (map (fun b => wrap 32 (32 - b)) bits) in
  let out20 := map (srli 64 32) (mul_even32 v mul) in
  let mul31 := shuffle31 mul in
  let out31 := cast64_32 (mul_even32 in31 mul31) in
  let out := odd_even8 out31 (cast64_32 out20) in
  map2 (fun b p => if b =? 0 then fst p else snd p) bits (combine v out).
(** 9247-9264, 9438-9454: two u64 lanes; the shift instruction takes one count for both lanes *)
Definition shl_64 (v bits : list Z) : list Z :=
  let out0 := map (slli 64 (nth 0 bits 0)) v in
  let out1 := map (slli 64 (nth 1 bits 0)) v in
  [nth 0 out0 0; nth 1 out1 0].
Definition shr_64 (v bits : list Z) : list Z :=
  let out0 := map (srli 64 (nth 0 bits 0)) v in
  let out1 := map (srli 64 (nth 1 bits 0)) v in
  [nth 0 out0 0; nth 1 out1 0].
(** 9496-9507 SignedShr: [shr]: Shr of unsigned lanes; BroadcastSignBit: all ones if negative *)
Definition broadcast_sign (w x : Z) : Z := if swrap w x <? 0 then 2 ^ w - 1 else 0.
Definition signed_shr (w : Z) (shr : list Z -> list Z -> list Z) (v count : list Z) : list Z :=
  let sign := map (broadcast_sign w) v in
  let abs := vxor v sign in
  vxor (shr abs count) sign.
(** ** Variable shifts, AVX2 and AVX3_DL *)
(** DemoteTo with saturation to unsigned / signed lanes of [w] bits, from the signed value [x] *)
Definition demote_u (w x : Z) : Z := Z.max 0 (Z.min x (2 ^ w - 1)).
Definition demote_s (w x : Z) : Z := wrap w (Z.max (- 2 ^ (w - 1)) (Z.min x (2 ^ (w - 1) - 1))).
(** 9033-9038, 9146-9177 u8 / u16: PromoteTo u32, variable shift, TruncateTo; [W]: bits of the wide lane *)
Definition avx2_shl (w W : Z) (v bits : list Z) : list Z := map2 (fun x b => wrap w (slli W b x)) v bits.
(** 9291-9336 Shr unsigned: DemoteTo from the signed wide lane *)
Definition avx2_shr_u (w W : Z) (v bits : list Z) : list Z := map2 (fun x b => demote_u w (swrap W (srli W b x))) v bits.
(** 16 u8 lanes: demoted first to 16, then to 8 bits *)
Definition avx2_shr_u8_full (v bits : list Z) : list Z :=
  map (fun x => demote_u 8 (swrap 16 x)) (map2 (fun x b => demote_u 16 (swrap 32 (srli 32 b x))) v bits).
(** 9458-9493 Shr signed *)
Definition avx2_shr_i (w W : Z) (v bits : list Z) : list Z := map2 (fun x b => demote_s w (swrap W (srai W b (wrap W (swrap w x))))) v bits.
Definition avx2_shr_i8_full (v bits : list Z) : list Z :=
  map (fun x => demote_s 8 (swrap 16 x)) (map2 (fun x b => demote_s 16 (swrap 32 (srai 32 b (wrap 32 (swrap 8 x))))) v bits).
(** 9183-9195 AVX3_DL u8: masks and multipliers from tables, GF2P8MULB (multiplication in the AES field) *)
Definition kMasks : list Z := [0xFF; 0x7F; 0x3F; 0x1F; 0x0F; 0x07; 0x03; 0x01; 0; 0; 0; 0; 0; 0; 0; 0].
Definition kShl : list Z := [1; 2; 4; 8; 0x10; 0x20; 0x40; 0x80; 0; 0; 0; 0; 0; 0; 0; 0].
Definition gf_shl_8 (v bits : list Z) : list Z :=
  map2 gmul (vand v (tbl_lookup kMasks bits)) (tbl_lookup kShl bits).
