(** Model of hwy/robust_statistics.h for unsigned integer types [T] of [w] bits. *)
From Coq Require Import ZArith List Bool.
From Verif Require Import Word.
Import ListNotations.
Local Open Scope Z_scope.

(** 40-49: the vector of (value, frequency). Simplification: the frequency is an
    [int]; the theorems require fewer than 2^31 values, so it is kept exact. *)
Fixpoint bump (v : Z) (u : list (Z * Z)) : list (Z * Z) :=
  match u with
  | [] => [(v, 1)]
  | (x, c) :: r => if x =? v then (x, c + 1) :: r else (x, c) :: bump v r
  end.
Definition unique (l : list Z) : list (Z * Z) := fold_left (fun u v => bump v u) l [].
(** std::sort of the pairs (lexicographic); insertion sort stands for it *)
Definition pair_le (a b : Z * Z) : bool := (fst a <? fst b) || ((fst a =? fst b) && (snd a <=? snd b)).
Fixpoint pinsert (a : Z * Z) (l : list (Z * Z)) : list (Z * Z) :=
  match l with [] => [a] | b :: r => if pair_le a b then a :: l else b :: pinsert a r end.
Definition psort (l : list (Z * Z)) : list (Z * Z) := fold_right pinsert [] l.
(** 32-61 CountingSort; [None]: the final HWY_ASSERT fails (after writing a
    different number of values than the array has) *)
Definition counting_sort (l : list Z) : option (list Z) :=
  let out := flat_map (fun p => repeat (fst p) (Z.to_nat (snd p))) (psort (unique l)) in
  if (length out =? length l)%nat then Some out else None.

Section T.
Context (w : Z).
(** 63-82 MinRange: [idx] runs over [n] more positions. [None]: access outside
    the array, or the HWY_ASSERT. Unsigned subtraction of ordered values. *)
Fixpoint min_range_loop (n : nat) (sorted : list Z) (half idx : nat) (min_range : Z) (min_idx : nat) : option nat :=
  match n with
  | O => Some min_idx
  | S n' =>
    match nth_error sorted idx, nth_error sorted (idx + half) with
    | Some a, Some b =>
      if a <=? b then
        let range := wrap w (b - a) in
        if range <? min_range then min_range_loop n' sorted half (S idx) range idx
        else min_range_loop n' sorted half (S idx) min_range min_idx
      else None
    | _, _ => None
    end
  end.
Definition min_range (sorted : list Z) (idx_begin half : nat) : option nat :=
  min_range_loop half sorted half idx_begin (2 ^ w - 1) 0.
(** 93, 125: (x + y + 1) / 2; types below 32 bits are promoted to int *)
Definition avg (x y : Z) : Z := if w <? 32 then wrap w ((x + y + 1) / 2) else wrap w (x + y + 1) / 2.
(** 90-107 ModeOfSorted; [fuel] bounds the halvings *)
Fixpoint mode_loop (fuel : nat) (sorted : list Z) (idx half : nat) : option (nat * nat) :=
  match fuel with
  | O => None
  | S f => if (1 <? half)%nat then
             match min_range sorted idx half with Some i => mode_loop f sorted i (Nat.div2 half) | None => None end
           else Some (idx, half)
  end.
Definition mode_of_sorted (sorted : list Z) : option Z :=
  match mode_loop (S (length sorted)) sorted 0 (Nat.div2 (length sorted)) with
  | Some (idx, half) =>
    match nth_error sorted idx with
    | Some x => if (half =? 0)%nat then Some x
                else if (half =? 1)%nat then match nth_error sorted (idx + 1) with Some y => Some (avg x y) | None => None end
                else None
    | None => None
    end
  | None => None
  end.
(** 110-114 Mode *)
Definition mode (l : list Z) : option Z := match counting_sort l with Some s => mode_of_sorted s | None => None end.

(** std::sort on the values *)
Fixpoint zinsert (a : Z) (l : list Z) : list Z := match l with [] => [a] | b :: r => if a <=? b then a :: l else b :: zinsert a r end.
Definition zsort (l : list Z) : list Z := fold_right zinsert [] l.
(** 122-134 Median *)
Definition median (l : list Z) : option Z :=
  if (length l =? 0)%nat then None else
  let s := zsort l in
  let half := Nat.div2 (length l) in
  if Nat.odd (length l) then nth_error s half
  else match nth_error s half, nth_error s (half - 1) with Some a, Some b => Some (avg a b) | _, _ => None end.
(** 136-149 MedianAbsoluteDeviation. Simplification: signed overflow of the
    int64_t difference wraps. ScalarAbs: base.h *)
Definition abs_dev (x m : Z) : Z := wrap w (Z.abs (swrap 64 (swrap 64 x - swrap 64 m))).
Definition mad (l : list Z) (med : Z) : option Z := if (length l =? 0)%nat then None else median (map (fun x => abs_dev x med) l).
End T.
