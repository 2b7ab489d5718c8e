(** Model of the conversions between integer types of hwy/ops/x86_128-inl.h (7386-7527 PromoteTo, 9952-10103, 10204-10352, 10983-11180 DemoteTo and *Demote2To,
    10868-10957 TruncateTo, 8300-8525 ConcatOdd / ConcatEven, 8168-8180 Combine), hwy/ops/x86_256-inl.h (6536-6604, 6707-6822, 6938-7037, 5046-5258)
    and generic_ops-inl.h (3282-3330, 3868-3873) on SSE2, SSSE3, SSE4 and AVX2.
    A register is its bytes, 16 or 32. A vector of [n] lanes of [s] bytes is the first n * s bytes of a register; the others are arbitrary.
    BitCast, LowerHalf, ResizeBitCast and _mm256_castsi256_si128 do nothing. AVX-512 has native instructions for most of these and is not modelled.
    Min of unsigned lanes is an instruction here (SSE2 emulates it for 16 and 32 bit lanes). *)
From Coq Require Import ZArith List Bool.
From Verif Require Import Word.
Import ListNotations.
Open Scope Z_scope.
Inductive target := SSE2 | SSSE3 | SSE4.
Definition reg := list Z.
(** little-endian *)
Fixpoint le (bs : list Z) : Z := match bs with [] => 0 | b :: t => b + 256 * le t end.
Fixpoint bytes (s : nat) (x : Z) : list Z := match s with O => [] | S k => wrap 8 x :: bytes k (x / 256) end.
Definition lane_bytes (s i : nat) (r : reg) : list Z := firstn s (skipn (i * s) r).
(** the bit patterns of the lanes of [s] bytes *)
Definition lanes (s : nat) (r : reg) : list Z := map (fun i => le (lane_bytes s i r)) (seq 0 (length r / s)).
Definition of_lanes (s : nat) (l : list Z) : reg := flat_map (bytes s) l.
Definition bits (s : nat) : Z := 8 * Z.of_nat s.

(** ** instructions *)
Definition map1 (s : nat) (f : Z -> Z) (r : reg) : reg := of_lanes s (map f (lanes s r)).
(** PACKSSDW, PACKSSWB ([sg]), PACKUSDW, PACKUSWB: signed lanes of [s] bytes to half of that *)
Definition sat (sg : bool) (w x : Z) : Z :=
  let lo := if sg then - 2 ^ (w - 1) else 0 in let hi := if sg then 2 ^ (w - 1) - 1 else 2 ^ w - 1 in
  if x <? lo then lo else if hi <? x then hi else x.
Definition pack (s : nat) (sg : bool) (a b : reg) : reg :=
  of_lanes (s / 2) (map (fun x => sat sg (bits (s / 2)) (swrap (bits s) x)) (lanes s a ++ lanes s b)).
(** PUNPCKL*: interleaves the lower halves *)
Definition unpacklo (s : nat) (a b : reg) : reg := flat_map (fun i => lane_bytes s i a ++ lane_bytes s i b) (seq 0 (8 / s)).
Definition unpackhi (s : nat) (a b : reg) : reg := flat_map (fun i => lane_bytes s i a ++ lane_bytes s i b) (seq (8 / s) (8 / s)).
(** PSHUFD, PSHUFLW, VPERMQ: the selected lanes, lowest first (_MM_SHUFFLE lists them highest first) *)
Definition select (s : nat) (idx : list nat) (r : reg) : reg := flat_map (fun i => lane_bytes s i r) idx.
Definition shufflelo16 (idx : list nat) (r : reg) : reg := select 2 (idx ++ [4; 5; 6; 7]%nat) r.
(** SHUFPS *)
Definition shuffle_ps (i0 i1 i2 i3 : nat) (a b : reg) : reg := select 4 [i0; i1] a ++ select 4 [i2; i3] b.
(** PSHUFB *)
Definition pshufb (r : reg) (idx : list Z) : reg := map (fun i => if 128 <=? i then 0 else nth (Z.to_nat (i mod 16)) r 0) idx.
(** Load of [nb] bytes zeroes the others *)
Definition load (nb : nat) (l : list Z) : reg := firstn nb l ++ repeat 0 (16 - nb).
(** shift by one byte count within the register, used by UpperHalf *)
Definition srl_bytes (k : nat) (r : reg) : reg := skipn k r ++ repeat 0 k.
Definition zero : reg := repeat 0 16.

(** ** operations on one lane of [w] bits *)
Definition shr_s (w k x : Z) : Z := wrap w (Z.shiftr (swrap w x) k).
Definition shr_u (k x : Z) : Z := Z.shiftr x k.
Definition shl (w k x : Z) : Z := wrap w (Z.shiftl x k).
Definition gt (w x y : Z) : Z := if swrap w y <? swrap w x then 2 ^ w - 1 else 0.
Definition andnot (a b : Z) : Z := Z.land (Z.lnot a) b.
(** Min of the bytes of a lane *)
Definition min_bytes (s : nat) (x y : Z) : Z := le (map (fun p => Z.min (fst p) (snd p)) (combine (bytes s x) (bytes s y))).

(** ** x86_128-inl.h *)
(** 8168-8180 Combine of two halves of [h] bytes *)
Definition combine_halves (h : nat) (hi lo : reg) : reg := unpacklo h lo hi.
(** 8300-8402 ConcatOdd of vectors of [nb] bytes, lanes of [s] bytes; the last case is InterleaveUpper of two lanes (7326-7345, 6371-6374) *)
Definition concat_odd (t : target) (nb s : nat) (hi lo : reg) : reg :=
  match s, nb with
  | 1, 16 => pack 2 false (map1 2 (shr_u 8) lo) (map1 2 (shr_u 8) hi)
  | 1, 8 => match t with
            | SSE2 => select 4 [0; 2; 0; 2]%nat (pack 2 false (map1 2 (shr_u 8) lo) (map1 2 (shr_u 8) hi))
            | _ => let shuf := load 8 [1; 3; 5; 7; 0; 0; 0; 0]%Z in unpacklo 4 (pshufb lo shuf) (pshufb hi shuf)
            end
  | 1, 4 => match t with
            | SSE2 => let uhl := combine_halves 4 (map1 2 (shr_u 8) hi) (map1 2 (shr_u 8) lo) in pack 2 false uhl uhl
            | _ => let shuf := load 4 [1; 3; 0; 0]%Z in unpacklo 2 (pshufb lo shuf) (pshufb hi shuf)
            end
  | 2, 16 => pack 4 true (map1 4 (shr_s 32 16) lo) (map1 4 (shr_s 32 16) hi)
  | 2, 8 => match t with
            | SSE2 => select 4 [0; 2; 0; 2]%nat (pack 4 true (map1 4 (shr_s 32 16) lo) (map1 4 (shr_s 32 16) hi))
            | _ => let shuf := load 8 [2; 3; 6; 7; 0; 0; 0; 0]%Z in unpacklo 4 (pshufb lo shuf) (pshufb hi shuf)
            end
  | 4, 16 => shuffle_ps 1 3 1 3 lo hi
  | 8, _ => unpackhi 8 lo hi
  | _, _ => unpacklo s (srl_bytes s lo) (srl_bytes s hi)
  end%nat.
(** 8404-8525 ConcatEven *)
Definition concat_even (t : target) (nb s : nat) (hi lo : reg) : reg :=
  match s, nb with
  | 1, 16 => pack 2 false (map1 2 (Z.land 0xFF) lo) (map1 2 (Z.land 0xFF) hi)
  | 1, 8 => match t with
            | SSE2 => select 4 [0; 2; 0; 2]%nat (pack 2 false (map1 2 (Z.land 0xFF) lo) (map1 2 (Z.land 0xFF) hi))
            | _ => let shuf := load 8 [0; 2; 4; 6; 0; 0; 0; 0]%Z in unpacklo 4 (pshufb lo shuf) (pshufb hi shuf)
            end
  | 1, 4 => match t with
            | SSE2 => let uhl := combine_halves 4 (map1 2 (Z.land 0xFF) hi) (map1 2 (Z.land 0xFF) lo) in pack 2 false uhl uhl
            | _ => let shuf := load 4 [0; 2; 0; 0]%Z in unpacklo 2 (pshufb lo shuf) (pshufb hi shuf)
            end
  | 2, 16 => match t with
             | SSE4 => pack 4 false (map1 4 (Z.land 0xFFFF) lo) (map1 4 (Z.land 0xFFFF) hi)
             | SSE2 => concat_odd t nb s (map1 4 (shl 32 16) hi) (map1 4 (shl 32 16) lo)
             | SSSE3 => let shuf := [0; 1; 4; 5; 8; 9; 12; 13; 0; 0; 0; 0; 0; 0; 0; 0]%Z in unpacklo 8 (pshufb lo shuf) (pshufb hi shuf)
             end
  | 2, 8 => match t with
            | SSE2 => concat_odd t nb s (map1 4 (shl 32 16) hi) (map1 4 (shl 32 16) lo)
            | _ => let shuf := load 8 [0; 1; 4; 5; 0; 0; 0; 0]%Z in unpacklo 4 (pshufb lo shuf) (pshufb hi shuf)
            end
  | 4, 16 => shuffle_ps 0 2 0 2 lo hi
  | _, _ => unpacklo s lo hi
  end%nat.

(** 7386-7458 PromoteTo unsigned, from [s] to [s'] bytes; the native instructions of SSE4 extend the lower lanes *)
Definition widen (sg : bool) (s s' : nat) (v : reg) : reg :=
  of_lanes s' (map (fun x => if sg then swrap (bits s) x else x) (firstn (16 / s') (lanes s v))).
Definition promote_u_half (t : target) (s : nat) (v : reg) : reg := match t with SSE4 => widen false s (2 * s) v | _ => unpacklo s v zero end.
Definition promote_u (t : target) (s s' : nat) (v : reg) : reg :=
  match s, s' with
  | 1, 4 => match t with SSE4 => widen false 1 4 v | _ => unpacklo 2 (unpacklo 1 v zero) zero end
  | 1, 8 => match t with
            | SSE2 => promote_u_half t 4 (unpacklo 2 (unpacklo 1 v zero) zero)
            | SSSE3 => pshufb v [0; 255; 255; 255; 255; 255; 255; 255; 1; 255; 255; 255; 255; 255; 255; 255]%Z
            | SSE4 => widen false 1 8 v
            end
  | 2, 8 => match t with
            | SSE2 => promote_u_half t 4 (promote_u_half t 2 v)
            | SSSE3 => pshufb v [0; 1; 255; 255; 255; 255; 255; 255; 2; 3; 255; 255; 255; 255; 255; 255]%Z
            | SSE4 => widen false 2 8 v
            end
  | _, _ => promote_u_half t s v
  end%nat.
(** 7469-7527 PromoteTo signed *)
Definition promote_s (t : target) (s s' : nat) (v : reg) : reg :=
  match t with
  | SSE4 => widen true s s' v
  | _ =>
    match s, s' with
    | 1, 2 => map1 2 (shr_s 16 8) (unpacklo 1 v v)
    | 2, 4 => map1 4 (shr_s 32 16) (unpacklo 2 v v)
    | 4, 8 => map1 8 (shr_s 64 32) (unpacklo 4 v v)
    | 1, 4 => let x2 := unpacklo 1 v v in map1 4 (shr_s 32 24) (unpacklo 2 x2 x2)
    | 1, 8 => let x2 := unpacklo 1 v v in let x4 := map1 4 (shr_s 32 24) (unpacklo 2 x2 x2) in
              unpacklo 4 x4 (shufflelo16 [1; 1; 3; 3]%nat x4)
    | _, _ => let x2 := map1 4 (shr_s 32 16) (unpacklo 2 v v) in unpacklo 4 x2 (shufflelo16 [1; 1; 3; 3]%nat x2)
    end%nat
  end.
(** 7460-7467 unsigned to signed is the same as to unsigned *)
Definition promote_to (t : target) (sg : bool) (s s' : nat) (v : reg) : reg := if sg then promote_s t s s' v else promote_u t s s' v.

(** 9954-9957, 10076-10079 etc.: signed to signed or unsigned by PACK* where it exists *)
Definition demote_i32_i16 (v : reg) : reg := pack 4 true v v.
Definition clamp_i32_u16 (x : Z) : Z := let zero_if_neg := andnot (shr_s 32 31 x) x in Z.lor zero_if_neg (gt 32 x 0xFFFF).
Definition clamp_u32_u16 (x : Z) : Z := let too_big := gt 32 (shr_u 16 x) 0 in Z.lor x too_big.
Definition kLower2Bytes : list Z := [0; 1; 4; 5; 8; 9; 12; 13; 128; 128; 128; 128; 128; 128; 128; 128].
(** the low 16 bits of each of [n] 32-bit lanes: 9969, 9974-9979 *)
Definition low16 (t : target) (n : nat) (v : reg) : reg :=
  match t with SSE2 => demote_i32_i16 (map1 4 (fun x => shr_s 32 16 (shl 32 16 x)) v) | _ => pshufb v (load (4 * n) kLower2Bytes) end.
(** 9959-9984 *)
Definition demote_i32_u16 (t : target) (n : nat) (v : reg) : reg :=
  match t with SSE4 => pack 4 false v v | _ => low16 t n (map1 4 clamp_i32_u16 v) end.
(** 9986-10008 *)
Definition demote_u32_u16 (t : target) (n : nat) (v : reg) : reg :=
  match t with SSE4 => demote_i32_u16 t n (map1 4 (Z.min 0x7FFFFFFF) v) | _ => low16 t n (map1 4 clamp_u32_u16 v) end.
(** 10010-10014, 10021-10025: i32 to 8 bits *)
Definition demote_i32_8 (sg' : bool) (v : reg) : reg := let i16 := pack 4 true v v in pack 2 sg' i16 i16.
(** 10016-10019, 10027-10030 *)
Definition demote_i16_8 (sg' : bool) (v : reg) : reg := pack 2 sg' v v.
(** 10032-10071 u32 to u8; 10073-10103 u16 to u8 *)
Definition min_signed (t : target) (s : nat) (v : reg) : reg :=
  let m := 2 ^ (bits s - 1) - 1 in map1 s (fun x => match t with SSE4 => Z.min x m | _ => min_bytes s x m end) v.
Definition demote_u32_u8 (t : target) (v : reg) : reg := demote_i32_8 false (min_signed t 4 v).
Definition demote_u16_u8 (t : target) (v : reg) : reg := demote_i16_8 false (min_signed t 2 v).

(** 10868-10957 TruncateTo of [n] lanes *)
Definition truncate_to (t : target) (s s' n : nat) (v : reg) : reg :=
  if (n =? 1)%nat then v
  else match s, s' with
  | 8, 1 => match t with SSE2 => combine_halves 1 (unpackhi 8 v v) v | _ => pshufb v [0; 8; 0; 8; 0; 8; 0; 8; 0; 8; 0; 8; 0; 8; 0; 8]%Z end
  | 8, 2 => match t with SSE2 => combine_halves 2 (unpackhi 8 v v) v | _ => pshufb v [0; 1; 8; 9; 0; 1; 8; 9; 0; 1; 8; 9; 0; 1; 8; 9]%Z end
  | 8, _ => select 4 [0; 2; 0; 2]%nat v
  | 4, 1 => match t with
            | SSE2 => demote_i32_8 false (map1 4 (fun x => shr_u 24 (shl 32 24 x)) v)
            | _ => pshufb v (load (4 * n) [0; 4; 8; 12; 0; 4; 8; 12; 0; 4; 8; 12; 0; 4; 8; 12]%Z)
            end
  | 4, _ => match t with SSE2 => demote_i32_i16 (map1 4 (fun x => shr_s 32 16 (shl 32 16 x)) v) | _ => concat_even t (4 * n) 2 v v end
  | _, _ => match t with SSE2 => demote_i16_8 true (map1 2 (fun x => shr_s 16 8 (shl 16 8 x)) v) | _ => concat_even t (2 * n) 1 v v end
  end%nat.

(** 11019-11046 DemoteFromU64Saturate, to lanes of [s'] bytes *)
Definition highest (sg : bool) (w : Z) : Z := if sg then 2 ^ (w - 1) - 1 else 2 ^ w - 1.
Definition u64_saturate (sg' : bool) (s' : nat) (x : Z) : Z :=
  let shift_amt := bits s' - (if sg' then 1 else 0) in
  let too_big := gt 64 (shr_u shift_amt x) 0 in
  let r := Z.lor x too_big in
  if sg' then Z.land r (highest true (bits s')) else r.
(** BroadcastSignBit *)
Definition sign64 (x : Z) : Z := shr_s 64 63 x.
(** 11055-11070 *)
Definition i64_saturate_s (s' : nat) (x : Z) : Z := let invert_mask := sign64 x in Z.lxor invert_mask (u64_saturate true s' (Z.lxor invert_mask x)).
(** 11072-11081 *)
Definition i64_saturate_u (s' : nat) (x : Z) : Z := u64_saturate false s' (andnot (sign64 x) x).
Definition saturate64 (sg sg' : bool) (s' : nat) (x : Z) : Z :=
  if sg then (if sg' then i64_saturate_s s' x else i64_saturate_u s' x) else u64_saturate sg' s' x.
(** generic_ops-inl.h 3284-3304: u32 and u16 to signed, after the signed demotion: Min of unsigned lanes *)
Definition u2i (s' : nat) (v : reg) : reg := map1 s' (Z.min (highest true (bits s'))) v.
Definition demote_signed (s s' : nat) (v : reg) : reg :=
  match s, s' with 4, 2 => demote_i32_i16 v | 4, _ => demote_i32_8 true v | _, _ => demote_i16_8 true v end%nat.
(** DemoteTo for all lane types; 64-bit: 11048-11110 *)
Definition demote_to (t : target) (sg : bool) (s : nat) (sg' : bool) (s' n : nat) (v : reg) : reg :=
  match s with
  | 8 =>
    match t, sg, sg', s' with
    | SSE2, false, true, 1 | SSE2, false, true, 2 => demote_signed 4 s' (truncate_to t 8 4 n (map1 8 (saturate64 false true 4) v))
    | _, _, _, _ => truncate_to t 8 s' n (map1 8 (saturate64 sg sg' s') v)
    end
  | _ =>
    match sg, sg' with
    | true, true => demote_signed s s' v
    | false, true => u2i s' (demote_signed s s' v)
    | true, false => match s, s' with 4, 2 => demote_i32_u16 t n v | 4, _ => demote_i32_8 false v | _, _ => demote_i16_8 false v end
    | false, false => match s, s' with 4, 2 => demote_u32_u16 t n v | 4, _ => demote_u32_u8 t v | _, _ => demote_u16_u8 t v end
    end
  end%nat.

(** 10204-10352 ReorderDemote2To of vectors of [n] lanes of [s] bytes; 11112-11180 for 64-bit lanes, except 128-bit ones on AVX2 (below); OrderedDemote2To is the same *)
Definition demote2_signed_src (t : target) (s : nat) (sg' : bool) (n : nat) (a b : reg) : reg :=
  let nb := (s * n)%nat in
  let generic := demote_to t true s sg' (s / 2) (2 * n) (combine_halves nb b a) in
  match t, s, sg' with
  | SSE2, 4%nat, false | SSSE3, 4%nat, false =>
    if (nb =? 16)%nat then combine_halves 8 (demote_i32_u16 t n b) (demote_i32_u16 t n a) else generic
  | _, _, _ =>
    if (nb =? 16)%nat then pack s sg' a b
    else if (nb =? 8)%nat then select 4 [0; 2; 0; 2]%nat (pack s sg' a b)
    else generic
  end.
Definition demote2_to (t : target) (sg : bool) (s : nat) (sg' : bool) (n : nat) (a b : reg) : reg :=
  let nb := (s * n)%nat in
  match s with
  | 8 => if (nb =? 16)%nat then concat_even t 16 4 (map1 8 (saturate64 sg sg' 4) b) (map1 8 (saturate64 sg sg' 4) a)
         else demote_to t sg 8 sg' 4 (2 * n) (combine_halves nb b a)
  | _ =>
    match sg, sg' with
    | true, _ => demote2_signed_src t s sg' n a b
    | false, true => u2i (s / 2) (demote2_signed_src t s true n a b)
    | false, false => if (nb =? 16)%nat then demote2_signed_src t s false n (min_signed t s a) (min_signed t s b)
                      else demote_to t false s false (s / 2) (2 * n) (combine_halves nb b a)
    end
  end%nat.
(** generic_ops-inl.h 3868-3873 OrderedTruncate2To *)
Definition truncate2_to (t : target) (s n : nat) (a b : reg) : reg := concat_even t (s * n) (s / 2) b a.

(** ** x86_256-inl.h, AVX2 *)
(** instructions that work on each block of 16 bytes *)
Definition lo128 (r : reg) : reg := firstn 16 r.
Definition hi128 (r : reg) : reg := skipn 16 r.
Definition pack256 (s : nat) (sg : bool) (a b : reg) : reg := pack s sg (lo128 a) (lo128 b) ++ pack s sg (hi128 a) (hi128 b).
Definition pshufb256 (r : reg) (idx : list Z) : reg := pshufb (lo128 r) (firstn 16 idx) ++ pshufb (hi128 r) (skipn 16 idx).
Definition shuffle_ps256 (i0 i1 i2 i3 : nat) (a b : reg) : reg := shuffle_ps i0 i1 i2 i3 (lo128 a) (lo128 b) ++ shuffle_ps i0 i1 i2 i3 (hi128 a) (hi128 b).
(** VPERMQ: [select 8]; VPERMD: [select 4] *)
Definition or_bytes (a b : reg) : reg := map (fun p => Z.lor (fst p) (snd p)) (combine a b).
Definition u32s (l : list Z) : list Z := of_lanes 4 l.
Definition u16s (l : list Z) : list Z := of_lanes 2 l.
(** VSHUFPD: element [i] of each block of both *)
Definition shuffle_pd256 (i : nat) (a b : reg) : reg := (select 8 [i] (lo128 a) ++ select 8 [i] (lo128 b)) ++ (select 8 [i] (hi128 a) ++ select 8 [i] (hi128 b)).
(** 5046-5148 ConcatOdd *)
Definition concat_odd256 (s : nat) (hi lo : reg) : reg :=
  select 8 [0; 2; 1; 3]%nat
    match s with
    | 1 => pack256 2 false (map1 2 (shr_u 8) lo) (map1 2 (shr_u 8) hi)
    | 2 => pack256 4 false (map1 4 (shr_u 16) lo) (map1 4 (shr_u 16) hi)
    | 4 => shuffle_ps256 1 3 1 3 lo hi
    | _ => shuffle_pd256 1 lo hi
    end%nat.
(** 5151-5258 ConcatEven *)
Definition concat_even256 (s : nat) (hi lo : reg) : reg :=
  select 8 [0; 2; 1; 3]%nat
    match s with
    | 1 => pack256 2 false (map1 2 (Z.land 0xFF) lo) (map1 2 (Z.land 0xFF) hi)
    | 2 => pack256 4 false (map1 4 (Z.land 0xFFFF) lo) (map1 4 (Z.land 0xFFFF) hi)
    | 4 => shuffle_ps256 0 2 0 2 lo hi
    | _ => shuffle_pd256 0 lo hi
    end%nat.
(** generic_ops-inl.h 3868-3873 OrderedTruncate2To of 256 bits *)
Definition truncate2_256 (s : nat) (a b : reg) : reg := concat_even256 (s / 2) b a.
(** 6942-6963 LookupAndConcatHalves, 6966-6984 LookupAndConcatQuarters *)
Definition ones32 : Z := 0xFFFFFFFF.
Definition ff16 : Z := 0xFFFF.
Definition lookup_halves (lo hi : Z) (v : reg) : reg := lo128 (select 8 [0; 3; 0; 3]%nat (pshufb256 v (u32s [lo; hi; ones32; ones32; ones32; ones32; lo; hi]%Z))).
Definition lookup_quarters (lo hi : Z) (v : reg) : reg :=
  let quad := pshufb256 v (u16s [lo; ff16; hi; ff16; ff16; ff16; ff16; ff16; ff16; ff16; ff16; ff16; lo; ff16; hi; ff16]%Z) in
  let half := lo128 (select 8 [0; 3; 0; 3]%nat quad) in pack 4 false half half.
(** 6988-7037 TruncateTo *)
Definition truncate256 (s s' : nat) (v : reg) : reg :=
  match s, s' with
  | 8, 1 => let quad := pshufb256 v (u32s [0xFFFF0800; ones32; ones32; ones32; 0x0800FFFF; ones32; ones32; ones32]%Z) in or_bytes (lo128 quad) (hi128 quad)
  | 8, 2 => lookup_quarters 0x100 0x908 v
  | 8, _ => lo128 (select 4 [0; 2; 4; 6; 0; 2; 4; 6]%nat v)
  | 4, 1 => lookup_quarters 0x400 0xC08 v
  | 4, _ => lookup_halves 0x05040100 0x0D0C0908 v
  | _, _ => lookup_halves 0x06040200 0x0E0C0A08 v
  end%nat.
(** 6536-6604; 64-bit: x86_128-inl.h 11048-11110 with TruncateTo of 256 bits *)
Definition pack_self256 (s : nat) (sg : bool) (v : reg) : reg := lo128 (select 8 [0; 2; 0; 2]%nat (pack256 s sg v v)).
Definition demote256_signed_src (s : nat) (sg' : bool) (s' : nat) (v : reg) : reg :=
  match s, s' with
  | 4, 1 => let i16 := pack_self256 4 true v in pack 2 sg' i16 i16
  | _, _ => pack_self256 s sg' v
  end%nat.
Definition demote256_to (sg : bool) (s : nat) (sg' : bool) (s' : nat) (v : reg) : reg :=
  match s with
  | 8 => truncate256 8 s' (map1 8 (saturate64 sg sg' s') v)
  | _ =>
    match sg, sg' with
    | true, _ => demote256_signed_src s sg' s' v
    | false, true => u2i s' (demote256_signed_src s true s' v)
    | false, false => demote256_signed_src s false s' (min_signed SSE4 s v)
    end
  end%nat.
(** 6707-6815 ReorderDemote2To *)
Definition demote2_256_reorder (sg : bool) (s : nat) (sg' : bool) (a b : reg) : reg :=
  match s with
  | 8 => shuffle_ps256 0 2 0 2 (map1 8 (saturate64 sg sg' 4) a) (map1 8 (saturate64 sg sg' 4) b)
  | _ =>
    match sg, sg' with
    | true, _ => pack256 s sg' a b
    | false, true => u2i (s / 2) (pack256 s true a b)
    | false, false => pack256 s false (min_signed SSE4 s a) (min_signed SSE4 s b)
    end
  end%nat.
(** 6817-6822 OrderedDemote2To *)
Definition demote2_256_ordered (sg : bool) (s : nat) (sg' : bool) (a b : reg) : reg := select 8 [0; 2; 1; 3]%nat (demote2_256_reorder sg s sg' a b).
(** x86_128-inl.h 11112-11137 on AVX2: 64-bit lanes x2, by Combine and DemoteTo of 256 bits *)
Definition demote2_to_avx2 (sg sg' : bool) (a b : reg) : reg := demote256_to sg 8 sg' 4 (a ++ b).
