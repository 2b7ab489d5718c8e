(** What LoadN, LoadNOr and StoreN promise (g3doc/quick_reference.md 1770-1829), lane by lane, without reference to how they are computed.
    Memory and vectors are lists of lanes; [p] is the lane offset of the pointer, N the number of lanes of the vector. *)
From Coq Require Import List Arith Bool.
Import ListNotations.
Section S.
Context {A : Type}.
(** lane i of the result is p[i] for i < num, and zero (LoadN) or lane i of [no] (LoadNOr) otherwise *)
Definition is_loadn (zero : A) (N : nat) (mem : list A) (p num : nat) (v : list A) : Prop :=
  length v = N /\ forall i, i < N -> nth_error v i = (if i <? num then nth_error mem (p + i) else Some zero).
Definition is_loadnor (no : list A) (N : nat) (mem : list A) (p num : nat) (v : list A) : Prop :=
  length v = N /\ forall i, i < N -> nth_error v i = (if i <? num then nth_error mem (p + i) else nth_error no i).
(** p[i] becomes lane i of v for i < min(num, N); all other memory is unchanged *)
Definition is_storen (N : nat) (v mem : list A) (p num : nat) (mem' : list A) : Prop :=
  length mem' = length mem /\
  forall j, nth_error mem' j = (if (p <=? j) && (j <? p + Nat.min num N) then nth_error v (j - p) else nth_error mem j).
End S.
(** vectors of up to 16 bytes have 1, 2, 4, 8 or 16 lanes *)
Definition lanes_128 (L : nat) : Prop := L = 1 \/ L = 2 \/ L = 4 \/ L = 8 \/ L = 16.
(** AVX2: a vector of N lanes of [sz] bytes lives in a register of R lanes, at least 16 bytes; g lanes make up 32 bits *)
Definition avx2_shape (sz N R g : nat) : Prop := (sz = 1 \/ sz = 2) /\ g = 4 / sz /\ (exists e, N = 2 ^ e) /\ R = Nat.max N (16 / sz).
