(** Model of hwy/ops/generic_ops-inl.h 6760-6931 (8-bit Reverse2/4/8, ReverseLaneBytes, ReverseBits), 7830-7886 (BitShuffle) and
    7920-8058 (MultiRotateRight), little endian, and the x86 Reverse2 of 16-bit lanes they use (x86_128-inl.h 7213-7246).
    Vectors are lists of lanes, lane 0 first; byte vectors of whole registers have a multiple of 16 lanes. *)
From Coq Require Import ZArith List Bool.
From Verif Require Import Word Ops_Model Shift_Model.
Import ListNotations.
Open Scope Z_scope.

(** BitCast between lanes of [w] and 2 [w] bits *)
Fixpoint pair_up (w : Z) (v : list Z) : list Z := match v with a :: b :: r => a + 2 ^ w * b :: pair_up w r | _ => [] end.
Definition split_up (w : Z) (v : list Z) : list Z := flat_map (fun x => [wrap w x; Z.shiftr x w]) v.
(** BitCast of lanes of [n] bytes to bytes and back *)
Definition le_bytes (n : nat) (x : Z) : list Z := map (fun j => wrap 8 (Z.shiftr x (8 * Z.of_nat j))) (seq 0 n).
Fixpoint of_bytes (bs : list Z) : Z := match bs with [] => 0 | b :: r => b + 256 * of_bytes r end.
(** consecutive groups of [k] lanes *)
Fixpoint groups (k n : nat) (v : list Z) : list (list Z) := match n with O => [] | S n' => firstn k v :: groups k n' (skipn k v) end.
(** TableLookupBytes with a constant per 16-byte block (Dup128VecFromValues) *)
Definition lookup_blocks (n : nat) (shuffle v : list Z) : list Z := concat (map (fun b => tbl_lookup b shuffle) (groups 16 n v)).
(** exchange of neighbours: Shuffle2301, _mm_shufflelo/hi_epi16(2, 3, 0, 1) *)
Fixpoint swap_pairs (v : list Z) : list Z := match v with a :: b :: r => b :: a :: swap_pairs r | _ => [] end.
(** RotateRight<w>(BitCast to 2 w bits) *)
Definition rotate_pairs (w : Z) (v : list Z) : list Z :=
  split_up w (rotate_right (2 * w) (fun k => map (srli (2 * w) k)) (fun k => map (slli (2 * w) k)) w (pair_up w v)).
(** 6780-6792 Reverse2, 6794-6805 Reverse4, 6807-6818 Reverse8 of 8-bit lanes. [rot8]: Reverse2 rotates; [prefer]: HWY_PREFER_ROTATE;
    [rot16]: the 16-bit Reverse2 rotates; [n]: number of 16-byte blocks *)
Definition kRev2 : list Z := [1; 0; 3; 2; 5; 4; 7; 6; 9; 8; 11; 10; 13; 12; 15; 14].
Definition kRev4 : list Z := [3; 2; 1; 0; 7; 6; 5; 4; 11; 10; 9; 8; 15; 14; 13; 12].
Definition kRev8 : list Z := [7; 6; 5; 4; 3; 2; 1; 0; 15; 14; 13; 12; 11; 10; 9; 8].
Definition reverse2_8 (rot8 : bool) (n : nat) (v : list Z) : list Z := if rot8 then rotate_pairs 8 v else lookup_blocks n kRev2 v.
Definition reverse2_16 (rot16 : bool) (v : list Z) : list Z := if rot16 then rotate_pairs 16 v else swap_pairs v.
Definition reverse4_8 (prefer rot8 rot16 : bool) (n : nat) (v : list Z) : list Z :=
  if prefer then split_up 8 (reverse2_16 rot16 (pair_up 8 (reverse2_8 rot8 n v))) else lookup_blocks n kRev4 v.
Definition reverse8_8 (prefer rot8 rot16 : bool) (n : nat) (v : list Z) : list Z :=
  if prefer then split_up 8 (split_up 16 (swap_pairs (pair_up 16 (pair_up 8 (reverse4_8 prefer rot8 rot16 n v))))) else lookup_blocks n kRev8 v.
(** 6830-6850 ReverseLaneBytes: lanes of 2, 4, 8 bytes. [lanes]: number of lanes *)
Definition reverse_lane_bytes (bytes lanes : nat) (rev8 : list Z -> list Z) (v : list Z) : list Z :=
  map of_bytes (groups bytes lanes (rev8 (concat (map (le_bytes bytes) v)))).
(** 6880-6902 UI8ReverseBitsStep; [w16]: HWY_REVERSE_BITS_MIN_BYTES == 2 (16-bit shifts; a single byte is the lowest of a register, 6904-6911) *)
Definition rev_step (w16 : bool) (k m : Z) (v : list Z) : list Z :=
  let shl_result := if w16 then to8 (map (slli 16 k) (to16 v)) else map (slli 8 k) v in
  let shr_result := if w16 then to8 (map (srli 16 k) (to16 v)) else map (srli 8 k) v in
  vor (vand1 m shr_result) (vand1 (255 - m) shl_result).
(** 6915-6921, 6932-6938 ReverseBits *)
Definition reverse_bits8 (w16 : bool) (v : list Z) : list Z := rev_step w16 4 0x0F (rev_step w16 2 0x33 (rev_step w16 1 0x55 v)).
Definition reverse_bits_wide (rb8 : list Z -> list Z) (bytes lanes : nat) (rev8 : list Z -> list Z) (v : list Z) : list Z :=
  reverse_lane_bytes bytes lanes rev8 (map of_bytes (groups bytes lanes (rb8 (concat (map (le_bytes bytes) v))))).

(** 7838-7884 BitShuffle on one 128-bit block: two 64-bit lanes [x0], [x1] and 16 index bytes; [base]: 16 times the number of the block (Iota).
    [w16]: the indices are shifted as 16-bit lanes. [rol8]: the target's Rol of 8-bit lanes. Signed indices are their patterns *)
Definition kExtractedBitsMask : Z := 0x8040201008040201.
Definition bit_shuffle_block (w16 : bool) (rol8 : list Z -> list Z -> list Z) (base : Z) (x0 x1 : Z) (idx : list Z) : Z * Z :=
  let unmasked_byte_idx := if w16 then to8 (map (srli 16 3) (to16 idx)) else map (srli 8 3) idx in
  let byte_idx := map2 (fun u c => Z.lor (Z.land 7 u) (Z.land (255 - 7) c)) unmasked_byte_idx (le_bytes 8 0 ++ le_bytes 8 0x0808080808080808) in
  let rotate_left_bits := map2 (fun i x => wrap 8 (i - x)) (map (fun i => wrap 8 (base + Z.of_nat i)) (seq 0 16)) idx in
  let v := le_bytes 8 x0 ++ le_bytes 8 x1 in
  let extracted_bits := vand (rol8 (tbl_lookup v byte_idx) rotate_left_bits) (le_bytes 8 kExtractedBitsMask ++ le_bytes 8 kExtractedBitsMask) in
  (fold_right Z.add 0 (firstn 8 extracted_bits), fold_right Z.add 0 (skipn 8 extracted_bits)).
Fixpoint bit_shuffle (w16 : bool) (rol8 : list Z -> list Z -> list Z) (base : Z) (v : list (Z * Z)) (idx : list (list Z)) : list (Z * Z) :=
  match v, idx with
  | (x0, x1) :: v', i :: idx' => bit_shuffle_block w16 rol8 base x0 x1 i :: bit_shuffle w16 rol8 (base + 16) v' idx'
  | _, _ => []
  end.

(** 7968-8058 MultiRotateRight, vectors of at least 16 bytes: [v] has one pair of 64-bit lanes per block, [idx] 16 bytes per block.
    [shr3]: ShiftRight<3> of u8 lanes, [shr16]: Shr of u16 lanes of the target *)
Fixpoint interleave (a b : list Z) : list Z := match a, b with x :: a', y :: b' => x :: y :: interleave a' b' | _, _ => [] end.
Fixpoint even_lanes (v : list Z) : list Z := match v with x :: _ :: v' => x :: even_lanes v' | [x] => [x] | [] => [] end.
Definition multi_rotate_right (shr3 : list Z -> list Z) (shr16 : list Z -> list Z -> list Z) (v : list (Z * Z)) (idx : list (list Z)) : list Z :=
  let masked_idx := map (vand1 0x3F) idx in
  let byte_idx := map shr3 masked_idx in
  let hi_byte_idx := map (map (fun x => wrap 8 (x + 1))) byte_idx in
  let idx_shift := map (vand1 0x07) masked_idx in
  let even_src := map (fun p => le_bytes 8 (fst p) ++ le_bytes 8 (fst p)) v in
  let even_idx := map2 (fun a b => interleave (firstn 8 a) (firstn 8 b)) byte_idx hi_byte_idx in
  let even_segments := concat (map2 tbl_lookup even_src even_idx) in
  let even_idx_shift := to16 (concat (map (fun s => interleave (firstn 8 s) (repeat 0 8)) idx_shift)) in
  let extracted_even_bytes := shr16 (to16 even_segments) even_idx_shift in
  let odd_src := map (fun p => le_bytes 8 (snd p) ++ le_bytes 8 (snd p)) v in
  let odd_idx := map2 (fun a b => interleave (skipn 8 a) (skipn 8 b)) byte_idx hi_byte_idx in
  let odd_segments := concat (map2 tbl_lookup odd_src odd_idx) in
  let odd_idx_shift := to16 (concat (map (fun s => interleave (skipn 8 s) (repeat 0 8)) idx_shift)) in
  let extracted_odd_bytes := shr16 (to16 odd_segments) odd_idx_shift in
  let half := length v in
  let even := map of_bytes (groups 8 (2 * half) (even_lanes (to8 extracted_even_bytes) ++ repeat 0 (8 * half))) in
  let odd := map of_bytes (groups 8 (2 * half) (even_lanes (to8 extracted_odd_bytes) ++ repeat 0 (8 * half))) in
  interleave (firstn half even) (firstn half odd).
(** 7927-7966: one 64-bit lane *)
Definition multi_rotate_right_1 (shr3 : list Z -> list Z) (shr16 : list Z -> list Z -> list Z) (x : Z) (idx : list Z) : Z :=
  let masked_idx := vand1 0x3F idx in
  let byte_idx := shr3 masked_idx in
  let hi_byte_idx := map (fun x => wrap 8 (x + 1)) byte_idx in
  let idx_shift := vand1 0x07 masked_idx in
  let even_segments := tbl_lookup (le_bytes 8 x ++ le_bytes 8 x) (interleave byte_idx hi_byte_idx) in
  let extracted := shr16 (to16 even_segments) idx_shift in
  of_bytes (firstn 8 (even_lanes (to8 extracted) ++ repeat 0 8)).
