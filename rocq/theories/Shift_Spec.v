(** What the shift, rotate and bit permutation operations of g3doc/quick_reference.md (section "Shifts", ReverseBits, ReverseLaneBytes, Reverse2/4/8,
    BitShuffle, MultiRotateRight) promise, independent of the model.  Lanes of [w] bits are bit patterns 0 <= x < 2^w. *)
From Coq Require Import ZArith List Bool.
Import ListNotations.
Open Scope Z_scope.

(** three vectors related lane by lane (all of the same length) *)
Fixpoint Forall3 {A B C} (R : A -> B -> C -> Prop) (a : list A) (b : list B) (c : list C) : Prop :=
  match a, b, c with [], [], [] => True | x :: a', y :: b', z :: c' => R x y z /\ Forall3 R a' b' c' | _, _, _ => False end.
(** lane widths *)
Definition width (w : Z) : Prop := w = 8 \/ w = 16 \/ w = 32 \/ w = 64.
Definition lane (w x : Z) : Prop := 0 <= x < 2 ^ w.
(** the signed number a pattern stands for (two's complement) *)
Definition signed (w x : Z) : Z := if x <? 2 ^ (w - 1) then x else x - 2 ^ w.
(** a << k (upper bits lost), a >> k of an unsigned lane, a >> k of a signed lane (rounds down), as patterns *)
Definition shl_spec (w k x : Z) : Z := (x * 2 ^ k) mod 2 ^ w.
Definition shr_spec (k x : Z) : Z := x / 2 ^ k.
Definition sar_spec (w k x r : Z) : Prop := lane w r /\ signed w r = signed w x / 2 ^ k.
(** [r] is [x] rotated left by [k] (any integer; negative = right): bit i moves to bit i + k modulo w *)
Definition rotated_left (w k x r : Z) : Prop :=
  lane w r /\ forall i, 0 <= i < w -> Z.testbit r ((i + k) mod w) = Z.testbit x i.
(** the bits of [r] are those of [x] in opposite order *)
Definition bits_reversed (w x r : Z) : Prop :=
  lane w r /\ forall i, 0 <= i < w -> Z.testbit r i = Z.testbit x (w - 1 - i).
(** the [n] bytes of [r] are those of [x] in opposite order *)
Definition byte_at (x : Z) (j : Z) : Z := (x / 2 ^ (8 * j)) mod 256.
Definition bytes_reversed (n x r : Z) : Prop :=
  lane (8 * n) r /\ forall j, 0 <= j < n -> byte_at r j = byte_at x (n - 1 - j).
(** each of the first [n] groups of [k] consecutive lanes reversed *)
Fixpoint groups_reversed (k n : nat) (v : list Z) : list Z :=
  match n with O => [] | S n' => rev (firstn k v) ++ groups_reversed k n' (skipn k v) end.
(** BitShuffle of one 64-bit lane [x] with its eight indices: bit j of the result is bit idx[j] of x, the upper bits are zero *)
Definition bit_shuffled (x : Z) (idx : list Z) (r : Z) : Prop :=
  lane 8 r /\ forall j, (j < 8)%nat -> 0 <= nth j idx 0 < 64 -> Z.testbit r (Z.of_nat j) = Z.testbit x (nth j idx 0).
(** MultiRotateRight of one 64-bit lane: byte j of the result is the low byte of [x] rotated right by idx[j] *)
Definition multi_rotated (x : Z) (idx : list Z) (r : Z) : Prop :=
  lane 64 r /\ forall j t, (j < 8)%nat -> 0 <= t < 8 -> 0 <= nth j idx 0 < 64 -> Z.testbit r (8 * Z.of_nat j + t) = Z.testbit x ((nth j idx 0 + t) mod 64).
(** each result lane is the lane of [v] shifted by the count in the same lane of [b] *)
Definition shl_lanes (w : Z) (v b r : list Z) : Prop := Forall3 (fun x k y => y = shl_spec w k x) v b r.
Definition shr_lanes (v b r : list Z) : Prop := Forall3 (fun x k y => y = shr_spec k x) v b r.
Definition sar_lanes (w : Z) (v b r : list Z) : Prop := Forall3 (fun x k y => sar_spec w k x y) v b r.
Definition counts (w : Z) (b : list Z) : Prop := Forall (fun k => 0 <= k < w) b.
