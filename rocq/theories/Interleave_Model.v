(** Model of LoadInterleaved2/3/4 and StoreInterleaved2/3/4, hwy/ops/generic_ops-inl.h
    1427-2299, with the block transpositions of x86_256-inl.h 8626-8745 (also
    wasm_256-inl.h 2213-2330) and x86_512-inl.h 7164-7336.
    Memory and vectors are bytes. A vector is a list of [K] blocks of [nb] bytes: nb = 16 and
    K = 1, 2, 4 for 128, 256, 512 bits, or K = 1 and nb = 1, 2, 4, 8 for partial vectors; [s] is
    the lane size in bytes. *)
From Coq Require Import ZArith List Bool.
From Verif Require Import Word Vec_Model.
Import ListNotations.
Local Open Scope nat_scope.

Definition block := list Z.
Definition vec := list block.
Definition lane (s i : nat) (b : block) : block := firstn s (skipn (i * s) b).
Definition lanes_of (s : nat) (b : block) : nat := length b / s.
(** ** operations on one block *)
(** InterleaveLower / InterleaveUpper: of the lower / upper halves, [a] first *)
Definition interleave_lower (s : nat) (a b : block) : block := flat_map (fun i => lane s i a ++ lane s i b) (seq 0 (lanes_of s a / 2)).
Definition interleave_upper (s : nat) (a b : block) : block := flat_map (fun i => lane s i a ++ lane s i b) (seq (lanes_of s a / 2) (lanes_of s a / 2)).
(** OddEven(a, b): odd lanes of a, even lanes of b *)
Definition odd_even (s : nat) (a b : block) : block := flat_map (fun i => lane s i (if Nat.even i then b else a)) (seq 0 (lanes_of s a)).
(** ShuffleTwo1230 etc. (four lanes): digits are the source lanes, most significant first; the lower two are from a *)
Definition shuffle_two (s d3 d2 d1 d0 : nat) (a b : block) : block := lane s d0 a ++ lane s d1 a ++ lane s d2 b ++ lane s d3 b.
(** ShiftRightLanes<k> *)
Definition shift_right_lanes (s k : nat) (v : block) : block := skipn (k * s) v ++ repeat 0%Z (k * s).
(** CombineShiftRightBytes<k>(hi, lo) *)
Definition combine_shr (k : nat) (hi lo : block) : block := firstn (length lo) (skipn k (lo ++ hi)).
(** TableLookupBytesOr0; an index below 0x80 but outside the vector gives an arbitrary value, here -1 *)
Definition tbl (bytes : block) (idx : list Z) : block := map (fun i => if (128 <=? i)%Z then 0%Z else nth (Z.to_nat i) bytes (-1)%Z) idx.
Definition map2 {A B C} (f : A -> B -> C) (a : list A) (b : list B) : list C := map (fun p => f (fst p) (snd p)) (combine a b).
Definition xor3 (a b c : block) : block := map2 Z.lxor (map2 Z.lxor a b) c.
Definition or3 (a b c : block) : block := map2 Z.lor (map2 Z.lor a b) c.
(** addition of a constant to index bytes *)
Definition addb (k : Z) (v : list Z) : list Z := map (fun x => wrap 8 (x + k)) v.
Notation Z80 := 128%Z (only parsing).

(** ** the shuffles of LoadInterleaved3 *)
(** 1485-1528: 16 lanes per block *)
Definition li3_16 (A B C : block) : block * block * block :=
  (xor3 (tbl A [0; 3; 6; 9; 12; 15; Z80; Z80; Z80; Z80; Z80; Z80; Z80; Z80; Z80; Z80]%Z) (tbl B [Z80; Z80; Z80; Z80; Z80; Z80; 2; 5; 8; 11; 14; Z80; Z80; Z80; Z80; Z80]%Z) (tbl C [Z80; Z80; Z80; Z80; Z80; Z80; Z80; Z80; Z80; Z80; Z80; 1; 4; 7; 10; 13]%Z),
   xor3 (tbl A [1; 4; 7; 10; 13; Z80; Z80; Z80; Z80; Z80; Z80; Z80; Z80; Z80; Z80; Z80]%Z) (tbl B [Z80; Z80; Z80; Z80; Z80; 0; 3; 6; 9; 12; 15; Z80; Z80; Z80; Z80; Z80]%Z) (tbl C [Z80; Z80; Z80; Z80; Z80; Z80; Z80; Z80; Z80; Z80; Z80; 2; 5; 8; 11; 14]%Z),
   xor3 (tbl A [2; 5; 8; 11; 14; Z80; Z80; Z80; Z80; Z80; Z80; Z80; Z80; Z80; Z80; Z80]%Z) (tbl B [Z80; Z80; Z80; Z80; Z80; 1; 4; 7; 10; 13; Z80; Z80; Z80; Z80; Z80; Z80]%Z) (tbl C [Z80; Z80; Z80; Z80; Z80; Z80; Z80; Z80; Z80; Z80; 0; 3; 6; 9; 12; 15]%Z)).
(** 1530-1573: 8-bit lanes x8 (the first eight index bytes) *)
Definition li3_8x1 (A B C : block) : block * block * block :=
  (xor3 (tbl A [0; 3; 6; Z80; Z80; Z80; Z80; Z80]%Z) (tbl B [Z80; Z80; Z80; 1; 4; 7; Z80; Z80]%Z) (tbl C [Z80; Z80; Z80; Z80; Z80; Z80; 2; 5]%Z),
   xor3 (tbl A [1; 4; 7; Z80; Z80; Z80; Z80; Z80]%Z) (tbl B [Z80; Z80; Z80; 2; 5; Z80; Z80; Z80]%Z) (tbl C [Z80; Z80; Z80; Z80; Z80; 0; 3; 6]%Z),
   xor3 (tbl A [2; 5; Z80; Z80; Z80; Z80; Z80; Z80]%Z) (tbl B [Z80; Z80; 0; 3; 6; Z80; Z80; Z80]%Z) (tbl C [Z80; Z80; Z80; Z80; Z80; 1; 4; 7]%Z)).
(** 1575-1620: 16-bit lanes x8 *)
Definition li3_8x2 (A B C : block) : block * block * block :=
  (xor3 (tbl A [0; 1; 6; 7; 12; 13; Z80; Z80; Z80; Z80; Z80; Z80; Z80; Z80; Z80; Z80]%Z) (tbl B [Z80; Z80; Z80; Z80; Z80; Z80; 2; 3; 8; 9; 14; 15; Z80; Z80; Z80; Z80]%Z) (tbl C [Z80; Z80; Z80; Z80; Z80; Z80; Z80; Z80; Z80; Z80; Z80; Z80; 4; 5; 10; 11]%Z),
   xor3 (tbl A [2; 3; 8; 9; 14; 15; Z80; Z80; Z80; Z80; Z80; Z80; Z80; Z80; Z80; Z80]%Z) (tbl B [Z80; Z80; Z80; Z80; Z80; Z80; 4; 5; 10; 11; Z80; Z80; Z80; Z80; Z80; Z80]%Z) (tbl C [Z80; Z80; Z80; Z80; Z80; Z80; Z80; Z80; Z80; Z80; 0; 1; 6; 7; 12; 13]%Z),
   xor3 (tbl A [4; 5; 10; 11; Z80; Z80; Z80; Z80; Z80; Z80; Z80; Z80; Z80; Z80; Z80; Z80]%Z) (tbl B [Z80; Z80; Z80; Z80; 0; 1; 6; 7; 12; 13; Z80; Z80; Z80; Z80; Z80; Z80]%Z) (tbl C [Z80; Z80; Z80; Z80; Z80; Z80; Z80; Z80; Z80; Z80; 2; 3; 8; 9; 14; 15]%Z)).
(** 1622-1644: four lanes per block *)
Definition li3_4 (s : nat) (A B C : block) : block * block * block :=
  let vxx_02_03_xx := odd_even s C B in
  let v0 := shuffle_two s 1 2 3 0 A vxx_02_03_xx in
  let vxx_xx_10_11 := odd_even s A B in
  let v12_13_xx_xx := odd_even s B C in
  let v1 := shuffle_two s 2 3 0 1 vxx_xx_10_11 v12_13_xx_xx in
  let vxx_20_21_xx := odd_even s B A in
  let v2 := shuffle_two s 3 0 1 2 vxx_20_21_xx C in
  (v0, v1, v2).
(** 1646-1657: two lanes per block *)
Definition li3_2 (s : nat) (A B C : block) : block * block * block := (odd_even s B A, combine_shr s C A, odd_even s C B).
Definition li3 (s nb : nat) : block -> block -> block -> block * block * block :=
  if nb =? 16 * s then li3_16
  else if nb =? 8 * s then (if s =? 1 then li3_8x1 else li3_8x2)
  else if nb =? 4 * s then li3_4 s else li3_2 s.
(** ** the shuffles of LoadInterleaved4 *)
(** 1686-1725 *)
Definition li4_16 (s : nat) (vA vB vC vD : block) : block * block * block * block :=
  let v5140 := interleave_lower s vA vB in let vd9c8 := interleave_lower s vC vD in
  let v7362 := interleave_upper s vA vB in let vfbea := interleave_upper s vC vD in
  let v6420 := interleave_lower s v5140 v7362 in let veca8 := interleave_lower s vd9c8 vfbea in
  let v7531 := interleave_upper s v5140 v7362 in let vfdb9 := interleave_upper s vd9c8 vfbea in
  let v10L := interleave_lower s v6420 v7531 in let v10U := interleave_lower s veca8 vfdb9 in
  let v32L := interleave_upper s v6420 v7531 in let v32U := interleave_upper s veca8 vfdb9 in
  (interleave_lower 8 v10L v10U, interleave_upper 8 v10L v10U, interleave_lower 8 v32L v32U, interleave_upper 8 v32L v32U).
(** 1727-1759; TW is half a block *)
Definition li4_8 (s nb : nat) (vA vB vC vD : block) : block * block * block * block :=
  let tw := if nb =? 8 then 4 else 8 in
  let va820 := interleave_lower s vA vB in let vec64 := interleave_lower s vC vD in
  let vb931 := interleave_upper s vA vB in let vfd75 := interleave_upper s vC vD in
  let v10_b830 := interleave_lower s va820 vb931 in let v10_fc74 := interleave_lower s vec64 vfd75 in
  let v32_b830 := interleave_upper s va820 vb931 in let v32_fc74 := interleave_upper s vec64 vfd75 in
  (interleave_lower tw v10_b830 v10_fc74, interleave_upper tw v10_b830 v10_fc74, interleave_lower tw v32_b830 v32_fc74, interleave_upper tw v32_b830 v32_fc74).
(** 1761-1780 *)
Definition li4_4 (s : nat) (vA vB vC vD : block) : block * block * block * block :=
  let v10e := interleave_lower s vA vC in let v10o := interleave_lower s vB vD in
  let v32e := interleave_upper s vA vC in let v32o := interleave_upper s vB vD in
  (interleave_lower s v10e v10o, interleave_upper s v10e v10o, interleave_lower s v32e v32o, interleave_upper s v32e v32o).
(** 1782-1792 *)
Definition li4_2 (s : nat) (vA vB vC vD : block) : block * block * block * block :=
  (interleave_lower s vA vC, interleave_upper s vA vC, interleave_lower s vB vD, interleave_upper s vB vD).
Definition li4 (s nb : nat) : block -> block -> block -> block -> block * block * block * block :=
  if nb =? 16 * s then li4_16 s else if nb =? 8 * s then li4_8 s nb else if nb =? 4 * s then li4_4 s else li4_2 s.
(** ** the shuffles of StoreInterleaved3, full blocks *)
(** 1858-1906: 8-bit lanes *)
Definition shuf1_A0 : list Z := [0; Z80; Z80; 1; Z80; Z80; 2; Z80; Z80; 3; Z80; Z80; 4; Z80; Z80; 5]%Z.
Definition shuf1_A1 : list Z := [Z80; 0; Z80; Z80; 1; Z80; Z80; 2; Z80; Z80; 3; Z80; Z80; 4; Z80; Z80]%Z.
Definition si3_1 (v0 v1 v2 : block) : block * block * block :=
  let shuf_A2 := combine_shr 15 shuf1_A1 shuf1_A1 in
  let A := or3 (tbl v0 shuf1_A0) (tbl v1 shuf1_A1) (tbl v2 shuf_A2) in
  let shuf_B0 := addb 6 shuf_A2 in let shuf_B1 := addb 5 shuf1_A0 in let shuf_B2 := addb 5 shuf1_A1 in
  let B := or3 (tbl v0 shuf_B0) (tbl v1 shuf_B1) (tbl v2 shuf_B2) in
  let shuf_C0 := addb 6 shuf_B2 in let shuf_C1 := addb 5 shuf_B0 in let shuf_C2 := addb 5 shuf_B1 in
  let C := or3 (tbl v0 shuf_C0) (tbl v1 shuf_C1) (tbl v2 shuf_C2) in (A, B, C).
(** 1908-1956: 16-bit lanes *)
Definition shuf2_A1 : list Z := [Z80; Z80; 0; 1; Z80; Z80; Z80; Z80; 2; 3; Z80; Z80; Z80; Z80; 4; 5]%Z.
Definition shuf2_A2 : list Z := [Z80; Z80; Z80; Z80; 0; 1; Z80; Z80; Z80; Z80; 2; 3; Z80; Z80; Z80; Z80]%Z.
Definition si3_2 (v0 v1 v2 : block) : block * block * block :=
  let shuf_A0 := combine_shr 2 shuf2_A1 shuf2_A1 in
  let A := or3 (tbl v0 shuf_A0) (tbl v1 shuf2_A1) (tbl v2 shuf2_A2) in
  let shuf_B0 := addb 6 shuf2_A1 in let shuf_B1 := addb 6 shuf2_A2 in let shuf_B2 := addb 4 shuf_A0 in
  let B := or3 (tbl v0 shuf_B0) (tbl v1 shuf_B1) (tbl v2 shuf_B2) in
  let shuf_C0 := addb 6 shuf_B1 in let shuf_C1 := addb 6 shuf_B2 in let shuf_C2 := addb 4 shuf_B0 in
  let C := or3 (tbl v0 shuf_C0) (tbl v1 shuf_C1) (tbl v2 shuf_C2) in (A, B, C).
(** 1958-1986: 32-bit lanes *)
Definition si3_4 (v0 v1 v2 : block) : block * block * block :=
  let v10_v00 := interleave_lower 4 v0 v1 in
  let v01_v20 := odd_even 4 v0 v2 in
  let A := interleave_lower 8 v10_v00 v01_v20 in
  let v1_321 := shift_right_lanes 4 1 v1 in
  let v0_32 := shift_right_lanes 4 2 v0 in
  let v21_v11 := odd_even 4 v2 v1_321 in
  let v12_v02 := odd_even 4 v1_321 v0_32 in
  let B := interleave_lower 8 v21_v11 v12_v02 in
  let v23_v13 := odd_even 4 v2 v1_321 in
  let v03_v22 := odd_even 4 v0 v2 in
  let C := interleave_upper 8 v03_v22 v23_v13 in (A, B, C).
(** 1988-1996: 64-bit lanes; also two 32-bit lanes 2089-2102 *)
Definition si3_8 (s : nat) (v0 v1 v2 : block) : block * block * block := (interleave_lower s v0 v1, odd_even s v0 v2, interleave_upper s v1 v2).
Definition si3 (s : nat) : block -> block -> block -> block * block * block :=
  if s =? 1 then si3_1 else if s =? 2 then si3_2 else if s =? 4 then si3_4 else si3_8 8.
(** ** the shuffles of StoreInterleaved4, full blocks *)
(** 2208-2226 and 2228-2239 *)
Definition si4 (s : nat) (v0 v1 v2 v3 : block) : block * block * block * block :=
  if s =? 8 then (interleave_lower 8 v0 v1, interleave_lower 8 v2 v3, interleave_upper 8 v0 v1, interleave_upper 8 v2 v3)
  else
    let v10L := interleave_lower s v0 v1 in let v32L := interleave_lower s v2 v3 in
    let v10U := interleave_upper s v0 v1 in let v32U := interleave_upper s v2 v3 in
    (interleave_lower (2 * s) v10L v32L, interleave_upper (2 * s) v10L v32L, interleave_lower (2 * s) v10U v32U, interleave_upper (2 * s) v10U v32U).

(** ** memory *)
Definition blocks (nb K : nat) (l : list Z) : vec := map (fun i => firstn nb (skipn (i * nb) l)) (seq 0 K).
Section Mem.
Context (s nb K : nat).
Definition vbytes : Z := Z.of_nat (K * nb).
(** LoadU / StoreU at byte [p] + [i] vectors *)
Definition load (mem : list Z) (p : Z) (i : Z) : option vec := option_map (blocks nb K) (loadu mem (p + i * vbytes) vbytes).
Definition store (mem : list Z) (p : Z) (i : Z) (v : vec) : option (list Z) := storeu mem (p + i * vbytes) (concat v).
Notation "'do' x <- e ; f" := (match e with Some x => f | None => None end) (at level 200, x pattern).
Definition blk (v : vec) (i : nat) : block := nth i v [].
(** ConcatLowerLower(d, hi, lo) etc. of two-block vectors *)
Definition concat_ll (hi lo : vec) : vec := [blk lo 0; blk hi 0].
Definition concat_uu (hi lo : vec) : vec := [blk lo 1; blk hi 1].
Definition concat_ul (hi lo : vec) : vec := [blk lo 0; blk hi 1].
Definition concat_lu (hi lo : vec) : vec := [blk lo 1; blk hi 0].
(** Shuffle128<kPerm>(lo, hi) of four-block vectors, x86_512-inl.h 7167-7183 *)
Definition shuffle128 (d3 d2 d1 d0 : nat) (lo hi : vec) : vec := [blk lo d0; blk lo d1; blk hi d2; blk hi d3].
Notation cA := 0 (only parsing). Notation cB := 1 (only parsing). Notation cC := 2 (only parsing). Notation cD := 3 (only parsing).
(** LoadTransposedBlocks3: generic_ops 1472-1483, x86_256 8637-8648, x86_512 7192-7206 *)
Definition load_transposed3 (mem : list Z) (p : Z) : option (vec * vec * vec) :=
  do v0 <- load mem p 0; do v1 <- load mem p 1; do v2 <- load mem p 2;
  Some (if K =? 1 then (v0, v1, v2)
        else if K =? 2 then (concat_ul v1 v0, concat_lu v2 v0, concat_ul v2 v1)
        else
          let v5421 := shuffle128 cB cA cC cB v0 v1 in
          let va976 := shuffle128 cC cB cD cC v1 v2 in
          (shuffle128 cC cA cD cA v0 va976, shuffle128 cD cB cC cA v5421 va976, shuffle128 cD cA cD cB v5421 v2)).
(** LoadTransposedBlocks4: generic_ops 1670-1682, x86_256 8660-8674, x86_512 7218-7236 *)
Definition load_transposed4 (mem : list Z) (p : Z) : option (vec * vec * vec * vec) :=
  do v0 <- load mem p 0; do v1 <- load mem p 1; do v2 <- load mem p 2; do v3 <- load mem p 3;
  Some (if K =? 1 then (v0, v1, v2, v3)
        else if K =? 2 then (concat_ll v2 v0, concat_uu v2 v0, concat_ll v3 v1, concat_uu v3 v1)
        else
          let v5410 := shuffle128 cB cA cB cA v0 v1 in let vdc98 := shuffle128 cB cA cB cA v2 v3 in
          let v7632 := shuffle128 cD cC cD cC v0 v1 in let vfeba := shuffle128 cD cC cD cC v2 v3 in
          (shuffle128 cC cA cC cA v5410 vdc98, shuffle128 cD cB cD cB v5410 vdc98, shuffle128 cC cA cC cA v7632 vfeba, shuffle128 cD cB cD cB v7632 vfeba)).
(** StoreTransposedBlocks2: generic_ops 1809-1816, x86_256 8688-8696, x86_512 7252-7264 *)
Definition store_transposed2 (mem : list Z) (p : Z) (i j : vec) : option (list Z) :=
  let '(o0, o1) :=
    if K =? 1 then (i, j)
    else if K =? 2 then (concat_ll j i, concat_uu j i)
    else
      let j1_j0_i1_i0 := shuffle128 cB cA cB cA i j in let j3_j2_i3_i2 := shuffle128 cD cC cD cC i j in
      (shuffle128 cD cB cC cA j1_j0_i1_i0 j1_j0_i1_i0, shuffle128 cD cB cC cA j3_j2_i3_i2 j3_j2_i3_i2) in
  do mem <- store mem p 0 o0; store mem p 1 o1.
(** StoreTransposedBlocks3: generic_ops 1845-1853, x86_256 8706-8717, x86_512 7274-7294 *)
Definition store_transposed3 (mem : list Z) (p : Z) (i j k : vec) : option (list Z) :=
  let '(o0, o1, o2) :=
    if K =? 1 then (i, j, k)
    else if K =? 2 then (concat_ll j i, concat_ul i k, concat_uu k j)
    else
      let j2_j0_i2_i0 := shuffle128 cC cA cC cA i j in
      let i3_i1_k2_k0 := shuffle128 cD cB cC cA k i in
      let j3_j1_k3_k1 := shuffle128 cD cB cD cB k j in
      (shuffle128 cC cA cC cA j2_j0_i2_i0 i3_i1_k2_k0, shuffle128 cD cB cA cC j3_j1_k3_k1 j2_j0_i2_i0, shuffle128 cB cD cD cB i3_i1_k2_k0 j3_j1_k3_k1) in
  do mem <- store mem p 0 o0; do mem <- store mem p 1 o1; store mem p 2 o2.
(** StoreTransposedBlocks4: generic_ops 2196-2205, x86_256 8728-8742, x86_512 7305-7328 *)
Definition store_transposed4 (mem : list Z) (p : Z) (i j k l : vec) : option (list Z) :=
  let '(o0, o1, o2, o3) :=
    if K =? 1 then (i, j, k, l)
    else if K =? 2 then (concat_ll j i, concat_ll l k, concat_uu j i, concat_uu l k)
    else
      let j1_j0_i1_i0 := shuffle128 cB cA cB cA i j in let l1_l0_k1_k0 := shuffle128 cB cA cB cA k l in
      let j3_j2_i3_i2 := shuffle128 cD cC cD cC i j in let l3_l2_k3_k2 := shuffle128 cD cC cD cC k l in
      (shuffle128 cC cA cC cA j1_j0_i1_i0 l1_l0_k1_k0, shuffle128 cD cB cD cB j1_j0_i1_i0 l1_l0_k1_k0, shuffle128 cC cA cC cA j3_j2_i3_i2 l3_l2_k3_k2, shuffle128 cD cB cD cB j3_j2_i3_i2 l3_l2_k3_k2) in
  do mem <- store mem p 0 o0; do mem <- store mem p 1 o1; do mem <- store mem p 2 o2; store mem p 3 o3.

(** applying a shuffle to every block *)
Fixpoint map3 {D} (f : block -> block -> block -> D) (a b c : vec) : list D :=
  match a, b, c with x :: a, y :: b, z :: c => f x y z :: map3 f a b c | _, _, _ => [] end.
Fixpoint map4 {D} (f : block -> block -> block -> block -> D) (a b c d : vec) : list D :=
  match a, b, c, d with x :: a, y :: b, z :: c, u :: d => f x y z u :: map4 f a b c d | _, _, _, _ => [] end.
Definition p30 (t : block * block * block) := fst (fst t). Definition p31 (t : block * block * block) := snd (fst t). Definition p32 (t : block * block * block) := snd t.
Definition p40 (t : block * block * block * block) := fst (fst (fst t)). Definition p41 (t : block * block * block * block) := snd (fst (fst t)).
Definition p42 (t : block * block * block * block) := snd (fst t). Definition p43 (t : block * block * block * block) := snd t.

(** ** LoadInterleaved2 1438-1453 *)
Definition concat_parity (par : nat) (hi lo : vec) : vec :=
  let l := concat lo ++ concat hi in
  blocks nb K (flat_map (fun i => lane s (2 * i + par) l) (seq 0 (length (concat lo) / s))).
Definition load_interleaved2 (mem : list Z) (p : Z) : option (list vec) :=
  if (K =? 1) && (nb =? s) then
    do v0 <- loadu mem p (Z.of_nat s); do v1 <- loadu mem (p + Z.of_nat s) (Z.of_nat s); Some [[v0]; [v1]]
  else do A <- load mem p 0; do B <- load mem p 1; Some [concat_parity 0 B A; concat_parity 1 B A].
(** LoadInterleaved3; one lane: 1659-1665 *)
Definition load_interleaved3 (mem : list Z) (p : Z) : option (list vec) :=
  if (K =? 1) && (nb =? s) then
    do v0 <- loadu mem p (Z.of_nat s); do v1 <- loadu mem (p + Z.of_nat s) (Z.of_nat s); do v2 <- loadu mem (p + 2 * Z.of_nat s) (Z.of_nat s); Some [[v0]; [v1]; [v2]]
  else do (A, B, C) <- load_transposed3 mem p; let r := map3 (li3 s nb) A B C in Some [map p30 r; map p31 r; map p32 r].
(** LoadInterleaved4; one lane: 1794-1803 *)
Definition load_interleaved4 (mem : list Z) (p : Z) : option (list vec) :=
  if (K =? 1) && (nb =? s) then
    do v0 <- loadu mem p (Z.of_nat s); do v1 <- loadu mem (p + Z.of_nat s) (Z.of_nat s); do v2 <- loadu mem (p + 2 * Z.of_nat s) (Z.of_nat s); do v3 <- loadu mem (p + 3 * Z.of_nat s) (Z.of_nat s); Some [[v0]; [v1]; [v2]; [v3]]
  else do (A, B, C, D) <- load_transposed4 mem p; let r := map4 (li4 s nb) A B C D in Some [map p40 r; map p41 r; map p42 r; map p43 r].

(** ** stores. [g j]: the undefined upper bytes of the register holding partial vector j *)
Context (g : nat -> list Z).
Definition full (j : nat) (v : vec) : block := concat v ++ g j.
(** StoreInterleaved2 1820-1840; up to 64 bits: ZeroExtendVector to twice the size *)
Definition store_interleaved2 (mem : list Z) (p : Z) (v0 v1 : vec) : option (list Z) :=
  if nb =? 16 then
    let r := combine v0 v1 in
    store_transposed2 mem p (map (fun x => interleave_lower s (fst x) (snd x)) r) (map (fun x => interleave_upper s (fst x) (snd x)) r)
  else storeu mem p (interleave_lower s (concat v0 ++ repeat 0%Z nb) (concat v1 ++ repeat 0%Z nb)).
(** StoreInterleaved3, partial vectors: 64-bit vectors of 8-bit lanes 1998-2041, of 16-bit lanes 2043-2087, of 32-bit lanes 2089-2102,
    up to 32 bits of 8-bit lanes 2106-2142, two 16-bit lanes 2144-2182, one lane 2184-2191. CopyBytes copies the first 3 * nb bytes of buf *)
Definition store_interleaved3 (mem : list Z) (p : Z) (v0 v1 v2 : vec) : option (list Z) :=
  if nb =? 16 then
    let r := map3 (si3 s) v0 v1 v2 in store_transposed3 mem p (map p30 r) (map p31 r) (map p32 r)
  else if nb =? s then
    do mem <- storeu mem p (concat v0); do mem <- storeu mem (p + Z.of_nat s) (concat v1); storeu mem (p + 2 * Z.of_nat s) (concat v2)
  else if nb =? 8 then
    if s =? 4 then
      let '(a, b, c) := si3_8 4 (concat v0) (concat v1) (concat v2) in
      do mem <- storeu mem p a; do mem <- storeu mem (p + Z.of_nat nb) b; storeu mem (p + 2 * Z.of_nat nb) c
    else if s =? 1 then
      let w0 := full 0 v0 in let w1 := full 1 v1 in let w2 := full 2 v2 in
      let shuf_A2 := combine_shr 15 shuf1_A1 shuf1_A1 in
      let A := or3 (tbl w0 shuf1_A0) (tbl w1 shuf1_A1) (tbl w2 shuf_A2) in
      do mem <- storeu mem p A;
      let B := or3 (tbl w0 (addb 6 shuf_A2)) (tbl w1 (addb 5 shuf1_A0)) (tbl w2 (addb 5 shuf1_A1)) in
      storeu mem (p + 16) (firstn nb B)
    else
      let w0 := full 0 v0 in let w1 := full 1 v1 in let w2 := full 2 v2 in
      let shuf_A0 := combine_shr 2 shuf2_A1 shuf2_A1 in
      let A := or3 (tbl w0 shuf_A0) (tbl w1 shuf2_A1) (tbl w2 shuf2_A2) in
      do mem <- storeu mem p A;
      let B := or3 (tbl w0 (addb 6 shuf2_A1)) (tbl w1 (addb 6 shuf2_A2)) (tbl w2 (addb 4 shuf_A0)) in
      storeu mem (p + 16) (firstn nb B)
  else if s =? 1 then
    let shuf_A0 := [0; Z80; Z80; 1; Z80; Z80; 2; Z80; Z80; 3; Z80; Z80; Z80; Z80; Z80; Z80]%Z in
    let shuf_A1 := combine_shr 15 shuf_A0 shuf_A0 in let shuf_A2 := combine_shr 14 shuf_A0 shuf_A0 in
    storeu mem p (firstn (3 * nb) (or3 (tbl (full 0 v0) shuf_A0) (tbl (full 1 v1) shuf_A1) (tbl (full 2 v2) shuf_A2)))
  else
    let shuf_A1 := combine_shr 2 shuf2_A2 shuf2_A2 in let shuf_A0 := combine_shr 4 shuf2_A2 shuf2_A2 in
    storeu mem p (firstn (3 * nb) (or3 (tbl (full 0 v0) shuf_A0) (tbl (full 1 v1) shuf_A1) (tbl (full 2 v2) shuf2_A2))).
(** StoreInterleaved4, partial vectors: 64 bits 2241-2260, one 64-bit lane 2262-2278, up to 32 bits 2280-2299 *)
Definition store_interleaved4 (mem : list Z) (p : Z) (v0 v1 v2 v3 : vec) : option (list Z) :=
  if nb =? 16 then
    let r := map4 (si4 s) v0 v1 v2 v3 in store_transposed4 mem p (map p40 r) (map p41 r) (map p42 r) (map p43 r)
  else
    let w0 := full 0 v0 in let w1 := full 1 v1 in let w2 := full 2 v2 in let w3 := full 3 v3 in
    if nb =? 8 then
      if s =? 8 then do mem <- storeu mem p (interleave_lower 8 w0 w1); storeu mem (p + 16) (interleave_lower 8 w2 w3)
      else
        let v10 := interleave_lower s w0 w1 in let v32 := interleave_lower s w2 w3 in
        do mem <- storeu mem p (interleave_lower (2 * s) v10 v32); storeu mem (p + 16) (interleave_upper (2 * s) v10 v32)
    else
      let v10 := interleave_lower s w0 w1 in let v32 := interleave_lower s w2 w3 in
      storeu mem p (firstn (4 * nb) (interleave_lower (2 * s) v10 v32)).
End Mem.
