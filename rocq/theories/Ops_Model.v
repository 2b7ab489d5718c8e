(** Lane-wise operations on vectors of unsigned lanes, as implemented by
    hwy/ops/emu128-inl.h (lines cited) and documented in
    g3doc/quick_reference.md: a vector is the list of its lanes, each a number
    below 2^w. Building blocks of the models of generic_ops-inl.h. *)
From Coq Require Import ZArith List Bool.
From Verif Require Import Word.
Import ListNotations.
Local Open Scope Z_scope.

Definition map2 {A B C} (f : A -> B -> C) (a : list A) (b : list B) : list C := map (fun p => f (fst p) (snd p)) (combine a b).
(** Set 155-162 *)
Definition vset (n : nat) (t : Z) : list Z := repeat t n.
(** And 262-277, Or 285-300, Xor 302-317, Not 249-260, AndNot 279-283 *)
Definition vand : list Z -> list Z -> list Z := map2 Z.land.
Definition vor : list Z -> list Z -> list Z := map2 Z.lor.
Definition vxor : list Z -> list Z -> list Z := map2 Z.lxor.
Definition vnot (w : Z) : list Z -> list Z := map (fun x => 2 ^ w - 1 - x).
(** Add / Sub on integers 578-621: wrap around *)
Definition vaddw (w : Z) : list Z -> list Z -> list Z := map2 (fun x y => wrap w (x + y)).
Definition vsubw (w : Z) : list Z -> list Z -> list Z := map2 (fun x y => wrap w (x - y)).
(** ShiftLeft<k> / ShiftRight<k> of unsigned lanes 487-511 *)
Definition vshl (w k : Z) : list Z -> list Z := map (fun x => wrap w (Z.shiftl x k)).
Definition vshr (k : Z) : list Z -> list Z := map (fun x => Z.shiftr x k).
(** TableLookupBytes 2523-2538: out[i] = bytes[from[i]] (16-byte blocks; out of range indices are
    implementation-defined, here 255 so that no theorem can rely on them) *)
Definition tbl_lookup (tbl from : list Z) : list Z := map (fun i => if (0 <=? i) && (i <? 16) then nth (Z.to_nat i) tbl 255 else 255) from.
(** TableLookupBytesOr0 2540-2548: 0 if the most significant bit of the index is set *)
Definition tbl_lookup_or0 (tbl from : list Z) : list Z :=
  map (fun i => if 128 <=? i then 0 else if (0 <=? i) && (i <? 16) then nth (Z.to_nat i) tbl 255 else 255) from.
(** Lt(BitCast(di, v), Zero(di)) then IfThenElseZero(mask, Set(c)) for 8-bit lanes *)
Definition if_negative_then_set8 (c : Z) : list Z -> list Z := map (fun x => if 128 <=? x then c else 0).
(** MulEven / MulOdd for u64 2964-2983: the 128-bit products of the even / odd
    lanes, low half in the even lane, high half in the odd lane *)
Fixpoint mul_even64 (a b : list Z) : list Z :=
  match a, b with a0 :: _ :: a', b0 :: _ :: b' => wrap 64 (a0 * b0) :: wrap 64 (Z.shiftr (a0 * b0) 64) :: mul_even64 a' b' | _, _ => [] end.
Fixpoint mul_odd64 (a b : list Z) : list Z :=
  match a, b with _ :: a1 :: a', _ :: b1 :: b' => wrap 64 (a1 * b1) :: wrap 64 (Z.shiftr (a1 * b1) 64) :: mul_odd64 a' b' | _, _ => [] end.
