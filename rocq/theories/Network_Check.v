(** The finite part of the 0-1 argument for the sorting networks: all 0-1 inputs of
    a network (or all pairs of sorted 0-1 halves for a merge) are packed into the
    bits of integers and run at once with and/or. *)
From Coq Require Import ZArith List Arith Bool Lia.
From Verif Require Import Network_Model.
Import ListNotations.

Fixpoint packl (l : list bool) : Z :=
  match l with [] => 0%Z | b :: t => if b then Z.succ_double (packl t) else Z.double (packl t) end.
Section Pack.
Context {I : Type} (rows g : nat) (L : list I) (e : nat -> nat -> I -> bool).
Definition bmat (i : I) : list (list bool) := map (fun r => map (fun c => e r c i) (seq 0 g)) (seq 0 rows).
Definition pack_mat : list (list Z) := map (fun r => map (fun c => packl (map (e r c) L)) (seq 0 g)) (seq 0 rows).
End Pack.
Fixpoint zsortedb (l : list Z) : bool :=
  match l with [] => true | a :: t => match t with [] => true | b :: _ => (Z.ldiff a b =? 0)%Z && zsortedb t end end.
Definition check {I} rows g (L : list I) e (p : list instr) : bool := zsortedb (concat (run Z.land Z.lor p (pack_mat rows g L e))).

Fixpoint all_bools (n : nat) : list (list bool) :=
  match n with O => [[]] | S n => let t := all_bools n in map (cons false) t ++ map (cons true) t end.
Definition col_e (r _ : nat) (l : list bool) : bool := nth r l false.
(** halves of width h, each a sorted 0-1 sequence in row-major order with z zeros *)
Definition half_e (h : nat) (r c : nat) : Z * Z -> bool :=
  if c <? h then let p := Z.of_nat (r * h + c) in fun z => Z.leb (fst z) p
  else let p := Z.of_nat (r * h + (c - h)) in fun z => Z.leb (snd z) p.
Definition all_z (n : nat) : list (Z * Z) := let l := map Z.of_nat (seq 0 (S n)) in list_prod l l.

Lemma check_sort2 : check 2 1 (all_bools 2) col_e Sort2 = true. Proof. vm_compute. reflexivity. Qed.
Lemma check_sort4 : check 4 1 (all_bools 4) col_e Sort4 = true. Proof. vm_compute. reflexivity. Qed.
Lemma check_sort8 : check 8 1 (all_bools 8) col_e Sort8 = true. Proof. vm_compute. reflexivity. Qed.
Lemma check_sort16 : check 16 1 (all_bools 16) col_e Sort16 = true. Proof. vm_compute. reflexivity. Qed.
Lemma check_merge8x2 : check 8 2 (all_z 8) (half_e 1) Merge8x2 = true. Proof. vm_compute. reflexivity. Qed.
Lemma check_merge8x4 : check 8 4 (all_z 16) (half_e 2) Merge8x4 = true. Proof. vm_compute. reflexivity. Qed.
Lemma check_merge16x2 : check 16 2 (all_z 16) (half_e 1) Merge16x2 = true. Proof. vm_compute. reflexivity. Qed.
Lemma check_merge16x4 : check 16 4 (all_z 32) (half_e 2) Merge16x4 = true. Proof. vm_compute. reflexivity. Qed.
Lemma check_merge16x8 : check 16 8 (all_z 64) (half_e 4) Merge16x8 = true. Proof. vm_compute. reflexivity. Qed.
Lemma check_merge16x16 : check 16 16 (all_z 128) (half_e 8) Merge16x16 = true. Proof. vm_compute. reflexivity. Qed.
