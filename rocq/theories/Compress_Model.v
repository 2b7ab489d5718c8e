(** Model of Compress*, Expand, LoadExpand, LoadMaskBits, StoreMaskBits, CountTrue, Find*True for vectors of up to 128 bits:
    hwy/ops/emu128-inl.h 2600-2826, hwy/ops/x86_128-inl.h 12420-12500 and 12694-13345 (SSE2 to AVX2), hwy/ops/generic_ops-inl.h 5888-6745.
    Vectors are lists of lanes or of bytes ([B], little-endian), masks lists of bool. [junk]: result of a byte shuffle whose index exceeds the vector.
    Stores: None if a lane is written outside the buffer. *)
From Coq Require Import ZArith List Arith Bool.
From Verif Require Import Word Compress_Tables.
Import ListNotations.
Open Scope Z_scope.
(** BitsFromMask (x86: movemask of the sign bits, then OnlyActive) *)
Fixpoint bits_from_mask (m : list bool) : Z := match m with [] => 0 | b :: m' => (if b then 1 else 0) + 2 * bits_from_mask m' end.
(** PopCount: C04 *)
Fixpoint popcount_fuel (n : nat) (x : Z) : nat := match n with O => O | S n' => ((if Z.odd x then 1 else 0) + popcount_fuel n' (x / 2))%nat end.
Definition popcount (x : Z) : nat := popcount_fuel 64 x.
(** EMU128 LoadMaskBits 2618-2626, StoreMaskBits 2640-2652 *)
Definition emu_load_mask_bits (n : nat) (bits : list Z) : list bool :=
  map (fun i => negb (Z.land (nth (i / 8) bits 0) (Z.shiftl 1 (Z.of_nat (i mod 8))) =? 0)) (seq 0 n).
Fixpoint set_nth {A} (k : nat) (x : A) (l : list A) : list A := match l, k with [], _ => [] | _ :: l', O => x :: l' | y :: l', S k' => y :: set_nth k' x l' end.
Fixpoint emu_store_loop (i : nat) (m : list bool) (bits : list Z) : list Z :=
  match m with [] => bits | b :: m' => emu_store_loop (S i) m' (if b then set_nth (i / 8) (wrap 8 (Z.lor (nth (i / 8) bits 0) (Z.shiftl 1 (Z.of_nat (i mod 8))))) bits else bits) end.
Definition emu_store_mask_bits (m : list bool) : list Z := emu_store_loop 0 m (if (8 <? length m)%nat then [0; 0] else [0]).
(** x86 StoreMaskBits 12740-12746: CopyBytes of the lowest (N + 7) / 8 bytes; LoadMaskBits 12478-12500 and LoadMaskBits128 12421-12474: TestBit of the replicated bits.
    For bytes, lane i gets byte i / 8 (unpack or kRep8) and bit 2^(i mod 8); otherwise all lanes get all bits and lane i bit 2^i *)
Definition num_bytes (n : nat) : nat := ((n + 7) / 8)%nat.
Definition x86_store_mask_bits (m : list bool) : list Z := map (fun k => wrap 8 (Z.shiftr (bits_from_mask m) (8 * Z.of_nat k))) (seq 0 (num_bytes (length m))).
Fixpoint from_bytes (bs : list Z) : Z := match bs with [] => 0 | b :: bs' => b + 256 * from_bytes bs' end.
Definition copy_mask_bits (n : nat) (bits : list Z) : Z :=
  let mb := from_bytes (firstn (num_bytes n) bits) in if (n <? 8)%nat then Z.land mb (Z.shiftl 1 (Z.of_nat n) - 1) else mb.
Definition test_bit (v bit : Z) : bool := Z.land v bit =? bit.
Definition x86_load_mask_bits (sz n : nat) (bits : list Z) : list bool :=
  let mb := copy_mask_bits n bits in
  if (sz =? 1)%nat then map (fun i => test_bit (wrap 8 (Z.shiftr mb (8 * Z.of_nat (i / 8)))) (Z.shiftl 1 (Z.of_nat (i mod 8)))) (seq 0 n)
  else map (fun i => test_bit mb (Z.shiftl 1 (Z.of_nat i))) (seq 0 n).
(** AllFalse, AllTrue: EMU128 2599-2616 (or and and of the lanes' bits), x86 12750-12759 *)
Definition emu_all_false (m : list bool) : bool := negb (fold_left orb m false).
Definition emu_all_true (m : list bool) : bool := fold_left andb m true.
Definition x86_all_false (m : list bool) : bool := bits_from_mask m =? 0.
Definition x86_all_true (m : list bool) : bool := bits_from_mask m =? Z.shiftl 1 (Z.of_nat (length m)) - 1.
(** CountTrue, FindFirstTrue, FindLastTrue: EMU128 2654-2695 (loops), x86 12766-12795 (bit scans of BitsFromMask) *)
Definition emu_count_true (m : list bool) : nat := fold_left (fun (c : nat) (b : bool) => if b then S c else c) m O.
Fixpoint emu_find_first_from (i : nat) (m : list bool) : Z := match m with [] => -1 | b :: m' => if b then Z.of_nat i else emu_find_first_from (S i) m' end.
Definition emu_find_first_true (m : list bool) : Z := emu_find_first_from 0 m.
Fixpoint emu_find_last_from (i : nat) (m : list bool) : Z := match i with O => -1 | S i' => if nth i' m false then Z.of_nat i' else emu_find_last_from i' m end.
Definition emu_find_last_true (m : list bool) : Z := emu_find_last_from (length m) m.
Definition x86_count_true (m : list bool) : nat := popcount (bits_from_mask m).
Definition x86_find_first_true (m : list bool) : Z := let b := wrap 32 (bits_from_mask m) in if b =? 0 then -1 else bsf b.
Definition x86_find_last_true (m : list bool) : Z := let b := wrap 32 (bits_from_mask m) in if b =? 0 then -1 else 31 - (31 - bsr b).

(** StoreU of [vals] at [pos] *)
Definition storeu {A} (buf : list A) (pos : nat) (vals : list A) : option (list A) :=
  if (pos + length vals <=? length buf)%nat then Some (firstn pos buf ++ vals ++ skipn (pos + length vals) buf) else None.
Section V.
Context {B : Type} (b0 : B) (junk : Z -> B).
(** TableLookupBytes, TableLookupBytesOr0; Load of [n] bytes at [p] *)
Definition look (v : list B) (i : Z) : B := if (0 <=? i) && (i <? Z.of_nat (length v)) then nth (Z.to_nat i) v b0 else junk i.
Definition table_lookup_bytes (v : list B) (idx : list Z) : list B := map (look v) idx.
Definition table_lookup_bytes_or0 (v : list B) (idx : list Z) : list B := map (fun i => if 128 <=? i then b0 else look v i) idx.
Definition load (n : nat) (t : list Z) (p : Z) : list Z := firstn n (skipn (Z.to_nat p) t).
(** EMU128 Compress 2704-2720, CompressNot 2766-2782: two loops appending lanes *)
Section Lanes.
Context {A : Type} (zero : A).
Definition emu_append (sel : nat -> bool) (v ret : list A) : list A := fold_left (fun r i => if sel i then r ++ [nth i v zero] else r) (seq 0 (length v)) ret.
Definition emu_compress (m : list bool) (v : list A) : list A := emu_append (fun i => negb (nth i m false)) v (emu_append (fun i => nth i m false) v []).
Definition emu_compress_not (m : list bool) (v : list A) : list A := emu_append (fun i => nth i m false) v (emu_append (fun i => negb (nth i m false)) v []).
Definition emu_compress_bits (v : list A) (bits : list Z) : list A := emu_compress (emu_load_mask_bits (length v) bits) v.
(** EMU128 CompressStore and CompressBlendedStore 2798-2817, CompressBitsStore 2820-2826 *)
Fixpoint emu_store_lanes (m : list bool) (v : list A) (cnt : nat) (buf : list A) : option (list A * nat) :=
  match m, v with
  | b :: m', x :: v' => if b then match storeu buf cnt [x] with Some buf' => emu_store_lanes m' v' (S cnt) buf' | None => None end else emu_store_lanes m' v' cnt buf
  | _, _ => Some (buf, cnt)
  end.
Definition emu_compress_store (m : list bool) (v buf : list A) := emu_store_lanes m v O buf.
Definition emu_compress_bits_store (v : list A) (bits : list Z) (buf : list A) : option (list A * nat) :=
  let m := emu_load_mask_bits (length v) bits in option_map (fun b => (b, emu_count_true m)) (storeu buf O (emu_compress m v)).
(** EMU128 Expand 2734-2746, LoadExpand 2750-2763. None: read outside the array *)
Fixpoint emu_expand_from (m : list bool) (v : list A) (in_pos : nat) : option (list A) :=
  match m with
  | [] => Some []
  | true :: m' => match nth_error v in_pos with Some x => option_map (cons x) (emu_expand_from m' v (S in_pos)) | None => None end
  | false :: m' => option_map (cons zero) (emu_expand_from m' v in_pos)
  end.
Definition emu_expand (m : list bool) (v : list A) := emu_expand_from m v O.
(** IfThenElse with a lane mask; BlendedStore of the lanes FirstN(count) *)
Definition if_then_else_zero (m : list bool) (v : list A) : list A := map (fun p => if fst p : bool then snd p else zero) (combine m v).
Definition blended_store (v : list A) (n : nat) (buf : list A) : option (list A) := storeu buf O (firstn n v).
(** x86 Compress of one lane 13209, CompressNot of one lane 13236, and of two 64-bit lanes 13214-13224, 13241-13251: conditional swap *)
Definition x86_compress1 (m : list bool) (v : list A) : list A := v.
Definition shuffle01 (v : list A) : list A := match v with [x; y] => [y; x] | _ => v end.
Definition x86_compress64 (m : list bool) (v : list A) : list A :=
  let maskL := nth 0 m false in let maskH := nth 1 m false in if andb (negb maskL) maskH then shuffle01 v else v.
Definition x86_compress_not64 (m : list bool) (v : list A) : list A :=
  let maskL := nth 0 m false in let maskH := nth 1 m false in if andb (negb maskH) maskL then shuffle01 v else v.
(** generic Expand of 64-bit lanes 6724-6728, of one lane 6731-6734 *)
Definition gen_expand64 (m : list bool) (v : list A) : list A := if_then_else_zero m (x86_compress64 m v).
Definition gen_expand1 (m : list bool) (v : list A) : list A := if_then_else_zero m v.
(** generic Expand of 32-bit lanes 6698-6722; TableLookupLanes with indices below N *)
Definition gen_expand32 (m : list bool) (v : list A) : list A :=
  let packed := nth (Z.to_nat (bits_from_mask m)) packed_expand32 0 in
  let idx := map (fun s => Z.land (Z.shiftr packed s) (Z.of_nat (length m) - 1)) (firstn (length m) [0; 4; 8; 12]) in
  if_then_else_zero m (map (fun i => nth (Z.to_nat i) v zero) idx).
End Lanes.

(** x86 detail::IndicesFromBits128 and IndicesFromNotBits128 12795-13182. 16-bit lanes: ZipLower of the byte indices with themselves, plus 0x0100 *)
Definition zip_lower (idx : list Z) : list Z := flat_map (fun i => let u := wrap 16 (i + Z.shiftl i 8 + 0x100) in [wrap 8 u; Z.shiftr u 8]) idx.
Definition indices16 (tab : list Z) (n : nat) (bits : Z) : list Z := zip_lower (load n tab (bits * 8)).
Definition indices_bytes (tab : list Z) (bytes : nat) (bits : Z) : list Z := load bytes tab (16 * bits).
Definition indices_from_bits (sz n : nat) (bits : Z) : list Z :=
  match sz with 2%nat => indices16 table_compress16 n bits | 4%nat => indices_bytes table_compress32 (4 * n) bits | _ => indices_bytes table_compress64 (8 * n) bits end.
Definition indices_from_not_bits (sz n : nat) (bits : Z) : list Z :=
  match sz with 2%nat => indices16 table_compress_not16 n bits | 4%nat => indices_bytes table_compress_not32 (4 * n) bits | _ => indices_bytes table_compress_not64 (8 * n) bits end.
(** detail::CompressBits, CompressNotBits 13185-13203; Compress and CompressNot of 2 or 4 byte lanes 13226-13230, 13253-13261; CompressBits from a pointer 13269-13280.
    [n]: lanes, [sz]: bytes per lane *)
Definition x86_compress_bits (sz n : nat) (v : list B) (bits : Z) : list B := table_lookup_bytes v (indices_from_bits sz n bits).
Definition x86_compress (sz n : nat) (m : list bool) (v : list B) : list B := x86_compress_bits sz n v (bits_from_mask m).
Definition x86_compress_not (sz n : nat) (m : list bool) (v : list B) : list B :=
  if (n <? 16 / sz)%nat then x86_compress_bits sz n v (bits_from_mask (map negb m)) else table_lookup_bytes v (indices_from_not_bits sz n (bits_from_mask m)).
Definition x86_compress_bits_ptr (sz n : nat) (v : list B) (bits : list Z) : list B := x86_compress_bits sz n v (copy_mask_bits n bits).
(** CompressStore 13284-13299, CompressBlendedStore 13301-13316, CompressBitsStore 13318-13340. The buffer is a list of lanes; [split]: bytes to lanes *)
Definition split (sz n : nat) (bs : list B) : list (list B) := map (fun i => firstn sz (skipn (i * sz) bs)) (seq 0 n).
Definition x86_compress_store (sz n : nat) (m : list bool) (v : list B) (buf : list (list B)) : option (list (list B) * nat) :=
  let bits := bits_from_mask m in option_map (fun b => (b, popcount bits)) (storeu buf O (split sz n (x86_compress_bits sz n v bits))).
Definition x86_compress_blended_store (sz n : nat) (m : list bool) (v : list B) (buf : list (list B)) : option (list (list B) * nat) :=
  let bits := bits_from_mask m in option_map (fun b => (b, popcount bits)) (blended_store (split sz n (x86_compress_bits sz n v bits)) (popcount bits) buf).
Definition x86_compress_bits_store (sz n : nat) (v : list B) (bits : list Z) (buf : list (list B)) : option (list (list B) * nat) :=
  let mb := copy_mask_bits n bits in option_map (fun b => (b, popcount mb)) (storeu buf O (split sz n (x86_compress_bits sz n v mb))).

(** generic CompressBitsStore of bytes 5897-6046: one table lookup and one store per 8 lanes *)
Fixpoint gen_blocks8 (blocks i n : nat) (v : list B) (bits : list Z) (pos : nat) (buf : list B) : option (list B * nat) :=
  match blocks with
  | O => Some (buf, pos)
  | S blocks' =>
      let bits8 := nth (i / 8) bits 0 in
      let d8 := Nat.min n 8 in
      let indices := load d8 table_compress8 (bits8 * 8) in
      let compressed := table_lookup_bytes (firstn d8 (skipn i v)) indices in
      match storeu buf pos compressed with Some buf' => gen_blocks8 blocks' (i + 8) n v bits (pos + popcount bits8) buf' | None => None end
  end.
Definition gen_compress_bits_store8 (n : nat) (v : list B) (bits : list Z) (buf : list B) : option (list B * nat) := gen_blocks8 (num_bytes n) 0 n v bits 0 buf.
(** CompressStore 6048-6053 (with either StoreMaskBits), CompressBlendedStore 6055-6062, Compress 6065-6071, CompressBits 6073-6079, CompressNot 6081-6084; [fresh]: the uninitialized local array *)
Definition gen_compress_store8 (n : nat) (smb : list bool -> list Z) (m : list bool) (v buf : list B) := gen_compress_bits_store8 n v (smb m) buf.
Definition gen_compress_blended_store8 (n : nat) (smb : list bool -> list Z) (fresh : list B) (m : list bool) (v buf : list B) : option (list B * nat) :=
  match gen_compress_store8 n smb m v fresh with Some (tmp, bytes) => option_map (fun b => (b, bytes)) (blended_store tmp bytes buf) | None => None end.
Definition gen_compress8 (n : nat) (smb : list bool -> list Z) (fresh : list B) (m : list bool) (v : list B) : option (list B) := option_map fst (gen_compress_store8 n smb m v fresh).
Definition gen_compress_bits8 (n : nat) (fresh : list B) (v : list B) (bits : list Z) : option (list B) := option_map fst (gen_compress_bits_store8 n v bits fresh).
Definition gen_compress_not8 (n : nat) (smb : list bool -> list Z) (fresh : list B) (m : list bool) (v : list B) : option (list B) := gen_compress8 n smb fresh (map negb m) v.

(** generic Expand: half vector of bytes 6370-6378, full vector of bytes 6381-6412, 16-bit lanes 6415-6696 *)
Definition indices_for_expand (n : nat) (bits : Z) : list Z := load n table_expand8 (bits * 8).
Definition gen_expand8_half (n : nat) (m : list bool) (v : list B) : list B := table_lookup_bytes_or0 v (indices_for_expand n (bits_from_mask m)).
Definition iota32 : list Z := map Z.of_nat (seq 0 16) ++ repeat 128 16.
Definition gen_expand8_full (m : list bool) (v : list B) : list B :=
  let bits := bits_from_mask m in
  let maskL := Z.land bits 0xFF in let maskH := Z.shiftr bits 8 in
  let shift := load 16 iota32 (Z.of_nat (popcount maskL)) in
  let vL := firstn 8 v in
  let vH := firstn 8 (table_lookup_bytes_or0 v shift) in
  table_lookup_bytes_or0 vL (indices_for_expand 8 maskL) ++ table_lookup_bytes_or0 vH (indices_for_expand 8 maskH).
(** LoadExpand 6737-6741: LoadU of [n] lanes, then Expand. None: read outside the array *)
Definition gen_load_expand {A R} (expand : list bool -> list A -> R) (n : nat) (m : list bool) (arr : list A) : option R :=
  if (n <=? length arr)%nat then Some (expand m (firstn n arr)) else None.
Definition gen_expand16 (n : nat) (m : list bool) (v : list B) : list B := table_lookup_bytes_or0 v (zip_lower (load n table_expand16 (bits_from_mask m * 8))).
End V.
