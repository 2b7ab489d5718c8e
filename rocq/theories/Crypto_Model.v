(** Model of the portable crypto operations and PopulationCount in
    hwy/ops/generic_ops-inl.h (4172-4554), used on targets without native
    instructions. AES works on each 128-bit block separately: a state is the
    list of its 16 bytes. *)
From Coq Require Import ZArith List Bool.
From Verif Require Import Word Ops_Model.
Import ListNotations.
Local Open Scope Z_scope.

(** SubBytesMulInverseAndAffineLookup 4189-4229 *)
Definition basisL := [0x00; 0x70; 0x2A; 0x5A; 0x98; 0xE8; 0xB2; 0xC2; 0x08; 0x78; 0x22; 0x52; 0x90; 0xE0; 0xBA; 0xCA].
Definition basisU := [0x00; 0x4D; 0x7C; 0x31; 0x7D; 0x30; 0x01; 0x4C; 0x81; 0xCC; 0xFD; 0xB0; 0xFC; 0xB1; 0x80; 0xCD].
Definition zetaInv := [0x80; 7; 11; 15; 6; 10; 4; 1; 9; 8; 5; 2; 12; 14; 13; 3].
Definition tblInv := [0x80; 1; 8; 13; 15; 6; 5; 14; 2; 12; 11; 10; 9; 3; 7; 4].
Definition sub_bytes_mul_inverse (state affine_tblL affine_tblU : list Z) : list Z :=
  let mask := vset (length state) 0xF in
  let state :=
    let sL := vand state mask in
    let sU := vshr 4 state in
    vxor (tbl_lookup basisL sL) (tbl_lookup basisU sU) in
  let sL := vand state mask in
  let sU := vshr 4 state in
  let sX := vxor sU sL in
  let invL := tbl_lookup zetaInv sL in
  let invU := tbl_lookup tblInv sU in
  let invX := tbl_lookup tblInv sX in
  let outL := vxor sX (tbl_lookup_or0 tblInv (vxor invL invU)) in
  let outU := vxor sU (tbl_lookup_or0 tblInv (vxor invL invX)) in
  vxor (tbl_lookup_or0 affine_tblL outL) (tbl_lookup_or0 affine_tblU outU).
(** SubBytes 4231-4244 *)
Definition affineL := [0x00; 0xC7; 0xBD; 0x6F; 0x17; 0x6D; 0xD2; 0xD0; 0x78; 0xA8; 0x02; 0xC5; 0x7A; 0xBF; 0xAA; 0x15].
Definition affineU := [0x00; 0x6A; 0xBB; 0x5F; 0xA5; 0x74; 0xE4; 0xCF; 0xFA; 0x35; 0x2B; 0x41; 0xD1; 0x90; 0x1E; 0x8E].
Definition sub_bytes (state : list Z) : list Z := vxor (sub_bytes_mul_inverse state affineL affineU) (vset (length state) 0x63).
(** InvSubBytes 4246-4272 *)
Definition inv_tblL := [0x00; 0x40; 0xF9; 0x7E; 0x53; 0xEA; 0x87; 0x13; 0x2D; 0x3E; 0x94; 0xD4; 0xB9; 0x6D; 0xAA; 0xC7].
Definition inv_tblU := [0x00; 0x1D; 0x44; 0x93; 0x0F; 0x56; 0xD7; 0x12; 0x9C; 0x8E; 0xC5; 0xD8; 0x59; 0x81; 0x4B; 0xCA].
Definition inv_sub_bytes (state : list Z) : list Z :=
  let rot k := vor (vshl 8 k state) (vshr (8 - k) state) in
  let b := vxor (vxor (rot 1) (vxor (rot 3) (rot 6))) (vset (length state) 0x05) in
  sub_bytes_mul_inverse b inv_tblL inv_tblU.
(** ShiftRows, InvShiftRows 4290-4306 *)
Definition shift_rows (state : list Z) : list Z := tbl_lookup state [0; 5; 10; 15; 4; 9; 14; 3; 8; 13; 2; 7; 12; 1; 6; 11].
Definition inv_shift_rows (state : list Z) : list Z := tbl_lookup state [0; 13; 10; 7; 4; 1; 14; 11; 8; 5; 2; 15; 12; 9; 6; 3].
(** GF2P8Mod11BMulBy2 4308-4315 *)
Definition gf_mul2 (v : list Z) : list Z := vxor (vaddw 8 v v) (if_negative_then_set8 0x1B v).
(** MixColumns 4317-4335 *)
Definition v2301 := [2; 3; 0; 1; 6; 7; 4; 5; 10; 11; 8; 9; 14; 15; 12; 13].
Definition v1230 := [1; 2; 3; 0; 5; 6; 7; 4; 9; 10; 11; 8; 13; 14; 15; 12].
Definition mix_columns (state : list Z) : list Z :=
  let d := gf_mul2 state in
  let s2301 := tbl_lookup state v2301 in
  let d_s2301 := vxor d s2301 in
  let t_s2301 := vxor state d_s2301 in
  let t1230_s3012 := tbl_lookup t_s2301 v1230 in
  vxor d_s2301 t1230_s3012.
(** InvMixColumns 4337-4363 *)
Definition inv_mix_columns (state : list Z) : list Z :=
  let sx2 := gf_mul2 state in
  let sx4 := gf_mul2 sx2 in
  let sx8 := gf_mul2 sx4 in
  let sx9 := vxor sx8 state in
  let sx11 := vxor sx9 sx2 in
  let sx13 := vxor sx9 sx4 in
  let sx14 := vxor sx8 (vxor sx4 sx2) in
  let sx13_0123_sx9_1230 := vxor sx13 (tbl_lookup sx9 v1230) in
  let sx14_0123_sx11_1230 := vxor sx14 (tbl_lookup sx11 v1230) in
  let sx13_2301_sx9_3012 := tbl_lookup sx13_0123_sx9_1230 v2301 in
  vxor sx14_0123_sx11_1230 sx13_2301_sx9_3012.
(** AESRound 4367-4376, AESLastRound 4378-4385, AESInvMixColumns 4387-4390, AESRoundInv 4392-4399, AESLastRoundInv 4401-4408 *)
Definition aes_round (state key : list Z) : list Z := vxor (mix_columns (shift_rows (sub_bytes state))) key.
Definition aes_last_round (state key : list Z) : list Z := vxor (shift_rows (sub_bytes state)) key.
Definition aes_inv_mix_columns (state : list Z) : list Z := inv_mix_columns state.
Definition aes_round_inv (state key : list Z) : list Z := vxor (inv_mix_columns (inv_shift_rows (inv_sub_bytes state))) key.
Definition aes_last_round_inv (state key : list Z) : list Z := vxor (inv_shift_rows (inv_sub_bytes state)) key.
(** AESKeyGenAssist<kRcon> 4410-4421 *)
Definition aes_keygen_assist (rcon : Z) (v : list Z) : list Z :=
  let rconXorMask := [0; 0; 0; 0; rcon; 0; 0; 0; 0; 0; 0; 0; rcon; 0; 0; 0] in
  let rotWordShuffle := [4; 5; 6; 7; 5; 6; 7; 4; 12; 13; 14; 15; 13; 14; 15; 12] in
  vxor (tbl_lookup (sub_bytes v) rotWordShuffle) rconXorMask.

(** CLMulLower 4426-4452, CLMulUpper 4454-4480 on u64 lanes *)
Definition k1_ := 0x1111111111111111. Definition k2_ := 0x2222222222222222.
Definition k4_ := 0x4444444444444444. Definition k8_ := 0x8888888888888888.
Definition clmul_with (mul : list Z -> list Z -> list Z) (a b : list Z) : list Z :=
  let k1 := vset (length a) k1_ in let k2 := vset (length a) k2_ in let k4 := vset (length a) k4_ in let k8 := vset (length a) k8_ in
  let a0 := vand a k1 in let a1 := vand a k2 in let a2 := vand a k4 in let a3 := vand a k8 in
  let b0 := vand b k1 in let b1 := vand b k2 in let b2 := vand b k4 in let b3 := vand b k8 in
  let m0 := vxor (mul a0 b0) (mul a1 b3) in
  let m1 := vxor (mul a0 b1) (mul a1 b0) in
  let m2 := vxor (mul a0 b2) (mul a1 b1) in
  let m3 := vxor (mul a0 b3) (mul a1 b2) in
  let m0 := vxor m0 (vxor (mul a2 b2) (mul a3 b1)) in
  let m1 := vxor m1 (vxor (mul a2 b3) (mul a3 b2)) in
  let m2 := vxor m2 (vxor (mul a2 b0) (mul a3 b3)) in
  let m3 := vxor m3 (vxor (mul a2 b1) (mul a3 b0)) in
  vor (vor (vand m0 k1) (vand m1 k2)) (vor (vand m2 k4) (vand m3 k8)).
Definition clmul_lower : list Z -> list Z -> list Z := clmul_with mul_even64.
Definition clmul_upper : list Z -> list Z -> list Z := clmul_with mul_odd64.

(** PopulationCount: u8 with table (4505-4515) and without (4517-4529); wider
    lanes (4531-4554): BitCast to lanes of half the width is [split] below *)
Definition popcnt8_tbl (v : list Z) : list Z :=
  let lookup := [0; 1; 1; 2; 1; 2; 2; 3; 1; 2; 2; 3; 2; 3; 3; 4] in
  vaddw 8 (tbl_lookup lookup (vshr 4 v)) (tbl_lookup lookup (vand v (vset (length v) 0xF))).
Definition popcnt8_small (v : list Z) : list Z :=
  let n := length v in
  let k33 := vset n 0x33 in
  let v := vsubw 8 v (vand (vshr 1 v) (vset n 0x55)) in
  let v := vaddw 8 (vand (vshr 2 v) k33) (vand v k33) in
  vand (vaddw 8 v (vshr 4 v)) (vset n 0x0F).
(** BitCast of lanes of [2 * w] bits to [w] bits and back, little-endian *)
Fixpoint bitcast_half (w : Z) (v : list Z) : list Z := match v with [] => [] | x :: t => wrap w x :: Z.shiftr x w :: bitcast_half w t end.
Fixpoint bitcast_twice (w : Z) (v : list Z) : list Z := match v with l :: h :: t => (l + Z.shiftl h w) :: bitcast_twice w t | _ => [] end.
Definition popcnt_twice (w : Z) (pc : list Z -> list Z) (v : list Z) : list Z :=
  let vals := bitcast_twice w (pc (bitcast_half w v)) in
  vaddw (2 * w) (vshr w vals) (vand vals (vset (length v) 0xFF)).
Definition popcnt16 (pc8 : list Z -> list Z) := popcnt_twice 8 pc8.
Definition popcnt32 (pc8 : list Z -> list Z) := popcnt_twice 16 (popcnt16 pc8).
Definition popcnt64 (pc8 : list Z -> list Z) := popcnt_twice 32 (popcnt32 pc8).
