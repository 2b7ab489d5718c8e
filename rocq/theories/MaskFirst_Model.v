(** Model of SetAtOrAfterFirst, SetBeforeFirst, SetOnlyFirst, SetAtOrBeforeFirst:
    hwy/ops/emu128-inl.h 2828-2882, hwy/ops/x86_128-inl.h 13478-13635, hwy/ops/x86_256-inl.h 8747-8843, hwy/ops/x86_512-inl.h 7332-7351.
    Masks are lists of bool; in vector registers every lane of [sz] bytes is all ones or zero, and registers are lists of 64-bit chunks. *)
From Coq Require Import ZArith List Arith Bool.
From Verif Require Import Word Compress_Model.
Import ListNotations.
Open Scope Z_scope.
(** the lane bits of a mask with lanes of [w] bits; VecFromMask as one 64-bit chunk, and as [c] chunks *)
Definition lane_ones (w : Z) (b : bool) : Z := if b then 2 ^ w - 1 else 0.
Definition lanes_of (w : Z) (m : list bool) : list Z := map (lane_ones w) m.
Fixpoint pack (w : Z) (l : list Z) : Z := match l with [] => 0 | x :: l' => x + 2 ^ w * pack w l' end.
Definition chunk (w : Z) (m : list bool) : Z := pack w (lanes_of w m).
Definition per_chunk (w : Z) : nat := Z.to_nat (64 / w).
Definition chunks (w : Z) (c : nat) (m : list bool) : list Z := map (fun i => chunk w (firstn (per_chunk w) (skipn (i * per_chunk w) m))) (seq 0 c).
Definition lane_at (w x : Z) (i : nat) : Z := wrap w (Z.shiftr x (w * Z.of_nat i)).
Definition neg64 (x : Z) : Z := wrap 64 (- x).
Definition not_lane (w x : Z) : Z := 2 ^ w - 1 - x.
(** EMU128: loops over lanes *)
Fixpoint emu_after_loop (acc : Z) (v : list Z) : list Z := match v with [] => [] | x :: v' => let acc' := Z.lor acc x in acc' :: emu_after_loop acc' v' end.
Definition emu_at_or_after_first (v : list Z) : list Z := match v with [_] => v | _ => emu_after_loop 0 v end.
Definition emu_before_first (w : Z) (v : list Z) : list Z := map (not_lane w) (emu_at_or_after_first v).
Definition is_zero_ones (w x : Z) : Z := wrap w (- (if x =? 0 then 1 else 0)).
Fixpoint emu_only_loop (w acc : Z) (v : list Z) : list Z := match v with [] => [] | x :: v' => Z.land x acc :: emu_only_loop w (Z.land acc (is_zero_ones w x)) v' end.
Definition emu_only_first (w : Z) (v : list Z) : list Z := emu_only_loop w (2 ^ w - 1) v.
Fixpoint emu_to_first_loop (w acc : Z) (v : list Z) : list Z := match v with [] => [] | x :: v' => acc :: emu_to_first_loop w (Z.land acc (is_zero_ones w x)) v' end.
Definition emu_at_or_before_first (w : Z) (v : list Z) : list Z := emu_to_first_loop w (2 ^ w - 1) v.
(** AVX3: masks are integers of N bits (N = 1 to 64); u = 32 or 64 is the width of the arithmetic (13478-13516); 128 and 256 bits: 13520-13542, 8747-8776; 512 bits: 7332-7351 (conversion to the N bits of Raw) *)
Definition blsi (u x : Z) : Z := Z.land x (wrap u (- x)).
Definition blsmsk (u x : Z) : Z := Z.lxor x (wrap u (x - 1)).
Definition active (n : nat) : Z := 2 ^ Z.of_nat n - 1.
Definition avx3_at_or_after_first (u : Z) (n : nat) (x : Z) : Z := Z.land (wrap u (0 - blsi u x)) (active n).
Definition avx3_before_first (u : Z) (n : nat) (x : Z) : Z := Z.land (wrap u (blsi u x - 1)) (active n).
Definition avx3_at_or_before_first (u : Z) (n : nat) (x : Z) : Z := Z.land (blsmsk u x) (active n).
Definition avx3_only_first (u : Z) (n : nat) (x : Z) : Z := wrap (Z.of_nat n) (blsi u x).
Definition avx3_512_at_or_after_first (u : Z) (n : nat) (x : Z) : Z := wrap (Z.of_nat n) (wrap u (0 - blsi u x)).
Definition avx3_512_before_first (u : Z) (n : nat) (x : Z) : Z := wrap (Z.of_nat n) (wrap u (blsi u x - 1)).
Definition avx3_512_at_or_before_first (u : Z) (n : nat) (x : Z) : Z := wrap (Z.of_nat n) (blsmsk u x).
(** SSE2 to AVX2, one and two lanes 13544-13553, 13585-13597, 13622-13629 *)
Definition sse_at_or_after_first1 (v : list Z) : list Z := v.
Definition interleave_lower2 (a b : list Z) : list Z := [nth 0 a 0; nth 0 b 0].
Definition eq_zero_ones (w x : Z) : Z := if x =? 0 then 2 ^ w - 1 else 0.
Definition map2 (f : Z -> Z -> Z) (a b : list Z) : list Z := map (fun p => f (fst p) (snd p)) (combine a b).
Definition sse_at_or_after_first2 (v : list Z) : list Z := map2 Z.lor v (interleave_lower2 v v).
Definition sse_only_first1 (v : list Z) : list Z := v.
Definition sse_only_first2 (w : Z) (v : list Z) : list Z := map2 Z.land v (map (eq_zero_ones w) (interleave_lower2 [0; 0] v)).
Definition sse_at_or_before_first1 (w : Z) (v : list Z) : list Z := [2 ^ w - 1].
(** vectors of up to 64 bits with more than two lanes 13554-13561, 13599-13608: [n] lanes of [w] bits resized to 64 bits with undefined upper bits [junk] *)
Definition resized (w : Z) (n : nat) (x junk : Z) : Z := x + 2 ^ (w * Z.of_nat n) * junk.
Definition lanes_in (w : Z) (n : nat) (x : Z) : list Z := map (lane_at w x) (seq 0 n).
Definition sse_at_or_after_first64 (w : Z) (n : nat) (junk x : Z) : list Z := let v := resized w n x junk in lanes_in w n (Z.lor v (neg64 v)).
Definition neg_lanes (w : Z) (l : list Z) : list Z := map (fun x => wrap w (- x)) l.
Definition sse_only_first64 (w : Z) (n : nat) (junk x : Z) : list Z := let v := resized w n x junk in neg_lanes w (lanes_in w n (Z.land v (neg64 v))).
(** 128 bits 13562-13578, 13609-13619: two chunks. The shuffle yields 32-bit lanes (0, 0, v1, v1) where v1 is the upper half of chunk 0 *)
Definition hi32 (x : Z) : Z := Z.shiftr x 32.
Definition broadcast_sign32 (x : Z) : Z := if 2 ^ 31 <=? x then 2 ^ 32 - 1 else 0.
Definition pair32 (lo hi : Z) : Z := lo + 2 ^ 32 * hi.
Definition copy_sign (a : list Z) : list Z :=
  [Z.lor (nth 0 a 0) (pair32 (broadcast_sign32 0) (broadcast_sign32 0)); Z.lor (nth 1 a 0) (pair32 (broadcast_sign32 (hi32 (nth 0 a 0))) (broadcast_sign32 (hi32 (nth 0 a 0))))].
Definition or_neg (v : list Z) : list Z := map (fun x => Z.lor x (neg64 x)) v.
Definition sse_at_or_after_first128 (v : list Z) : list Z := copy_sign (or_neg v).
Definition chunk_neg_lanes (w : Z) (x : Z) : Z := pack w (neg_lanes w (lanes_in w (per_chunk w) x)).
Definition only_lowest (w : Z) (v : list Z) : list Z := map (fun x => chunk_neg_lanes w (Z.land x (neg64 x))) v.
Definition sse_only_first128 (w : Z) (v : list Z) : list Z := map2 Z.land (only_lowest w v) (map (eq_zero_ones 64) (interleave_lower2 [0; 0] v)).
(** AVX2, four chunks 8778-8802, 8809-8831 *)
Definition avx2_at_or_after_first (v : list Z) : list Z :=
  let v1 := or_neg v in
  let v2 := copy_sign (firstn 2 v1) ++ copy_sign (skipn 2 v1) in
  let s := broadcast_sign32 (hi32 (nth 1 v2 0)) in
  map2 Z.lor v2 [0; 0; pair32 s s; pair32 s s].
Definition avx2_only_first (w : Z) (v : list Z) : list Z :=
  let e := map (eq_zero_ones 64) v in
  let lo := map2 Z.land (firstn 2 e) (interleave_lower2 (firstn 2 e) (firstn 2 e)) in
  let hi := map2 Z.land [nth 1 lo 0; nth 0 (skipn 2 e) 0] [nth 1 lo 0; nth 1 lo 0] in
  let lo' := interleave_lower2 [2 ^ 64 - 1; 2 ^ 64 - 1] lo in
  map2 Z.land (only_lowest w v) (lo' ++ hi).
(** SetBeforeFirst 13580-13583, 8804-8807; the argument of SetBeforeFirst in SetAtOrBeforeFirst: ShiftLeftLanes<1> 13630-13634 as a mask, and CombineShiftRightBytes per block of [l] lanes 8833-8843 *)
Definition not_all (w : Z) (v : list Z) : list Z := map (not_lane w) v.
Definition shift_left_lanes1 (m : list bool) : list bool := false :: firstn (length m - 1) m.
Definition combine_shift_right (l k : nat) (hi lo : list bool) : list bool := firstn l (skipn k (lo ++ hi)).
Definition avx2_shift_left1 (m : list bool) : list bool :=
  let l := (length m / 2)%nat in
  let lo := repeat false l ++ firstn l m in
  combine_shift_right l (l - 1) (firstn l m) (firstn l lo) ++ combine_shift_right l (l - 1) (skipn l m) (skipn l lo).
(** lane widths; (lane width, lanes) of vectors of up to 64 bits with more than two lanes *)
Definition chunk_lanes (w : Z) : Prop := In w [8; 16; 32; 64].
Definition small_config (w : Z) (n : nat) : Prop := In (w, n) [(8, 4%nat); (8, 8%nat); (16, 4%nat)].
