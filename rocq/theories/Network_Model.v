(** hwy/contrib/sort/sorting_networks-inl.h 46-757 and the vector operations it
    uses from traits-inl.h / traits128-inl.h.  Vectors are lists of keys, the
    registers v0..vf a list of vectors (rows).  [first]/[last] are the two halves
    of Sort2 on one key.  The instruction lists below are transcribed line by line
    from the C++ (generated from its text, in order). *)
From Coq Require Import List Arith Bool.
Import ListNotations.

(** S2 a b              st.Sort2(d, va, vb)
    Rev g r             vr = st.ReverseKeys<g>(d, vr)
    PairsRev g r        vr = st.SortPairsReverse<g>(d, vr)
    PairsDist h r       vr = st.SortPairsDistance<h>(d, vr) *)
Inductive instr : Type := S2 (a b : nat) | Rev (g r : nat) | PairsRev (g r : nat) | PairsDist (h r : nat).

(** sorting_networks-inl.h 82-84 *)
Definition Sort2 : list instr :=
  [S2 0 1].
(** sorting_networks-inl.h 87-93 *)
Definition Sort4 : list instr :=
  [S2 0 2; S2 1 3; S2 0 1; S2 2 3; S2 1 2].
(** sorting_networks-inl.h 96-122 *)
Definition Sort8 : list instr :=
  [S2 0 2; S2 1 3; S2 4 6; S2 5 7; S2 0 4; S2 1 5; S2 2 6; S2 3 7; S2 0 1; S2 2 3; S2 4 5; S2 6 7; S2 2 4;
   S2 3 5; S2 1 4; S2 3 6; S2 1 2; S2 3 4; S2 5 6].
(** sorting_networks-inl.h 126-189 *)
Definition Sort16 : list instr :=
  [S2 0 1; S2 2 3; S2 4 5; S2 6 7; S2 8 9; S2 10 11; S2 12 13; S2 14 15; S2 0 2; S2 1 3; S2 4 6; S2 5 7;
   S2 8 10; S2 9 11; S2 12 14; S2 13 15; S2 0 4; S2 1 5; S2 2 6; S2 3 7; S2 8 12; S2 9 13; S2 10 14;
   S2 11 15; S2 0 8; S2 1 9; S2 2 10; S2 3 11; S2 4 12; S2 5 13; S2 6 14; S2 7 15; S2 5 10; S2 6 9; S2 3 12;
   S2 7 11; S2 13 14; S2 4 8; S2 1 2; S2 1 4; S2 7 13; S2 2 8; S2 11 14; S2 2 4; S2 5 6; S2 9 10; S2 11 13;
   S2 3 8; S2 7 12; S2 3 5; S2 6 8; S2 7 9; S2 10 12; S2 3 4; S2 5 6; S2 7 8; S2 9 10; S2 11 12; S2 6 7;
   S2 8 9].
(** sorting_networks-inl.h 227-264 *)
Definition Merge8x2 : list instr :=
  [Rev 2 7; Rev 2 6; Rev 2 5; Rev 2 4; S2 0 7; S2 1 6; S2 2 5; S2 3 4; Rev 2 3; Rev 2 2; Rev 2 7; Rev 2 6;
   S2 0 3; S2 1 2; S2 4 7; S2 5 6; Rev 2 1; Rev 2 3; Rev 2 5; Rev 2 7; S2 0 1; S2 2 3; S2 4 5; S2 6 7;
   PairsDist 1 0; PairsDist 1 1; PairsDist 1 2; PairsDist 1 3; PairsDist 1 4; PairsDist 1 5; PairsDist 1 6;
   PairsDist 1 7].
(** sorting_networks-inl.h 268-314 *)
Definition Merge8x4 : list instr :=
  [Rev 4 7; Rev 4 6; Rev 4 5; Rev 4 4; S2 0 7; S2 1 6; S2 2 5; S2 3 4; Rev 4 3; Rev 4 2; Rev 4 7; Rev 4 6;
   S2 0 3; S2 1 2; S2 4 7; S2 5 6; Rev 4 1; Rev 4 3; Rev 4 5; Rev 4 7; S2 0 1; S2 2 3; S2 4 5; S2 6 7;
   PairsRev 4 0; PairsRev 4 1; PairsRev 4 2; PairsRev 4 3; PairsRev 4 4; PairsRev 4 5; PairsRev 4 6;
   PairsRev 4 7; PairsDist 1 0; PairsDist 1 1; PairsDist 1 2; PairsDist 1 3; PairsDist 1 4; PairsDist 1 5;
   PairsDist 1 6; PairsDist 1 7].
(** sorting_networks-inl.h 319-406 *)
Definition Merge16x2 : list instr :=
  [Rev 2 15; Rev 2 14; Rev 2 13; Rev 2 12; Rev 2 11; Rev 2 10; Rev 2 9; Rev 2 8; S2 0 15; S2 1 14; S2 2 13;
   S2 3 12; S2 4 11; S2 5 10; S2 6 9; S2 7 8; Rev 2 7; Rev 2 6; Rev 2 5; Rev 2 4; Rev 2 15; Rev 2 14;
   Rev 2 13; Rev 2 12; S2 0 7; S2 1 6; S2 2 5; S2 3 4; S2 8 15; S2 9 14; S2 10 13; S2 11 12; Rev 2 3;
   Rev 2 2; Rev 2 7; Rev 2 6; Rev 2 11; Rev 2 10; Rev 2 15; Rev 2 14; S2 0 3; S2 1 2; S2 4 7; S2 5 6;
   S2 8 11; S2 9 10; S2 12 15; S2 13 14; Rev 2 1; Rev 2 3; Rev 2 5; Rev 2 7; Rev 2 9; Rev 2 11; Rev 2 13;
   Rev 2 15; S2 0 1; S2 2 3; S2 4 5; S2 6 7; S2 8 9; S2 10 11; S2 12 13; S2 14 15; PairsDist 1 0;
   PairsDist 1 1; PairsDist 1 2; PairsDist 1 3; PairsDist 1 4; PairsDist 1 5; PairsDist 1 6; PairsDist 1 7;
   PairsDist 1 8; PairsDist 1 9; PairsDist 1 10; PairsDist 1 11; PairsDist 1 12; PairsDist 1 13;
   PairsDist 1 14; PairsDist 1 15].
(** sorting_networks-inl.h 410-514 *)
Definition Merge16x4 : list instr :=
  [Rev 4 15; Rev 4 14; Rev 4 13; Rev 4 12; Rev 4 11; Rev 4 10; Rev 4 9; Rev 4 8; S2 0 15; S2 1 14; S2 2 13;
   S2 3 12; S2 4 11; S2 5 10; S2 6 9; S2 7 8; Rev 4 7; Rev 4 6; Rev 4 5; Rev 4 4; Rev 4 15; Rev 4 14;
   Rev 4 13; Rev 4 12; S2 0 7; S2 1 6; S2 2 5; S2 3 4; S2 8 15; S2 9 14; S2 10 13; S2 11 12; Rev 4 3;
   Rev 4 2; Rev 4 7; Rev 4 6; Rev 4 11; Rev 4 10; Rev 4 15; Rev 4 14; S2 0 3; S2 1 2; S2 4 7; S2 5 6;
   S2 8 11; S2 9 10; S2 12 15; S2 13 14; Rev 4 1; Rev 4 3; Rev 4 5; Rev 4 7; Rev 4 9; Rev 4 11; Rev 4 13;
   Rev 4 15; S2 0 1; S2 2 3; S2 4 5; S2 6 7; S2 8 9; S2 10 11; S2 12 13; S2 14 15; PairsRev 4 0;
   PairsRev 4 1; PairsRev 4 2; PairsRev 4 3; PairsRev 4 4; PairsRev 4 5; PairsRev 4 6; PairsRev 4 7;
   PairsRev 4 8; PairsRev 4 9; PairsRev 4 10; PairsRev 4 11; PairsRev 4 12; PairsRev 4 13; PairsRev 4 14;
   PairsRev 4 15; PairsDist 1 0; PairsDist 1 1; PairsDist 1 2; PairsDist 1 3; PairsDist 1 4; PairsDist 1 5;
   PairsDist 1 6; PairsDist 1 7; PairsDist 1 8; PairsDist 1 9; PairsDist 1 10; PairsDist 1 11;
   PairsDist 1 12; PairsDist 1 13; PairsDist 1 14; PairsDist 1 15].
(** sorting_networks-inl.h 518-639 *)
Definition Merge16x8 : list instr :=
  [Rev 8 15; Rev 8 14; Rev 8 13; Rev 8 12; Rev 8 11; Rev 8 10; Rev 8 9; Rev 8 8; S2 0 15; S2 1 14; S2 2 13;
   S2 3 12; S2 4 11; S2 5 10; S2 6 9; S2 7 8; Rev 8 7; Rev 8 6; Rev 8 5; Rev 8 4; Rev 8 15; Rev 8 14;
   Rev 8 13; Rev 8 12; S2 0 7; S2 1 6; S2 2 5; S2 3 4; S2 8 15; S2 9 14; S2 10 13; S2 11 12; Rev 8 3;
   Rev 8 2; Rev 8 7; Rev 8 6; Rev 8 11; Rev 8 10; Rev 8 15; Rev 8 14; S2 0 3; S2 1 2; S2 4 7; S2 5 6;
   S2 8 11; S2 9 10; S2 12 15; S2 13 14; Rev 8 1; Rev 8 3; Rev 8 5; Rev 8 7; Rev 8 9; Rev 8 11; Rev 8 13;
   Rev 8 15; S2 0 1; S2 2 3; S2 4 5; S2 6 7; S2 8 9; S2 10 11; S2 12 13; S2 14 15; PairsRev 8 0;
   PairsRev 8 1; PairsRev 8 2; PairsRev 8 3; PairsRev 8 4; PairsRev 8 5; PairsRev 8 6; PairsRev 8 7;
   PairsRev 8 8; PairsRev 8 9; PairsRev 8 10; PairsRev 8 11; PairsRev 8 12; PairsRev 8 13; PairsRev 8 14;
   PairsRev 8 15; PairsDist 2 0; PairsDist 2 1; PairsDist 2 2; PairsDist 2 3; PairsDist 2 4; PairsDist 2 5;
   PairsDist 2 6; PairsDist 2 7; PairsDist 2 8; PairsDist 2 9; PairsDist 2 10; PairsDist 2 11;
   PairsDist 2 12; PairsDist 2 13; PairsDist 2 14; PairsDist 2 15; PairsDist 1 0; PairsDist 1 1;
   PairsDist 1 2; PairsDist 1 3; PairsDist 1 4; PairsDist 1 5; PairsDist 1 6; PairsDist 1 7; PairsDist 1 8;
   PairsDist 1 9; PairsDist 1 10; PairsDist 1 11; PairsDist 1 12; PairsDist 1 13; PairsDist 1 14;
   PairsDist 1 15].
(** sorting_networks-inl.h 646-784 *)
Definition Merge16x16 : list instr :=
  [Rev 16 15; Rev 16 14; Rev 16 13; Rev 16 12; Rev 16 11; Rev 16 10; Rev 16 9; Rev 16 8; S2 0 15; S2 1 14;
   S2 2 13; S2 3 12; S2 4 11; S2 5 10; S2 6 9; S2 7 8; Rev 16 7; Rev 16 6; Rev 16 5; Rev 16 4; Rev 16 15;
   Rev 16 14; Rev 16 13; Rev 16 12; S2 0 7; S2 1 6; S2 2 5; S2 3 4; S2 8 15; S2 9 14; S2 10 13; S2 11 12;
   Rev 16 3; Rev 16 2; Rev 16 7; Rev 16 6; Rev 16 11; Rev 16 10; Rev 16 15; Rev 16 14; S2 0 3; S2 1 2;
   S2 4 7; S2 5 6; S2 8 11; S2 9 10; S2 12 15; S2 13 14; Rev 16 1; Rev 16 3; Rev 16 5; Rev 16 7; Rev 16 9;
   Rev 16 11; Rev 16 13; Rev 16 15; S2 0 1; S2 2 3; S2 4 5; S2 6 7; S2 8 9; S2 10 11; S2 12 13; S2 14 15;
   PairsRev 16 0; PairsRev 16 1; PairsRev 16 2; PairsRev 16 3; PairsRev 16 4; PairsRev 16 5; PairsRev 16 6;
   PairsRev 16 7; PairsRev 16 8; PairsRev 16 9; PairsRev 16 10; PairsRev 16 11; PairsRev 16 12;
   PairsRev 16 13; PairsRev 16 14; PairsRev 16 15; PairsDist 4 0; PairsDist 4 1; PairsDist 4 2;
   PairsDist 4 3; PairsDist 4 4; PairsDist 4 5; PairsDist 4 6; PairsDist 4 7; PairsDist 4 8; PairsDist 4 9;
   PairsDist 4 10; PairsDist 4 11; PairsDist 4 12; PairsDist 4 13; PairsDist 4 14; PairsDist 4 15;
   PairsDist 2 0; PairsDist 2 1; PairsDist 2 2; PairsDist 2 3; PairsDist 2 4; PairsDist 2 5; PairsDist 2 6;
   PairsDist 2 7; PairsDist 2 8; PairsDist 2 9; PairsDist 2 10; PairsDist 2 11; PairsDist 2 12;
   PairsDist 2 13; PairsDist 2 14; PairsDist 2 15; PairsDist 1 0; PairsDist 1 1; PairsDist 1 2;
   PairsDist 1 3; PairsDist 1 4; PairsDist 1 5; PairsDist 1 6; PairsDist 1 7; PairsDist 1 8; PairsDist 1 9;
   PairsDist 1 10; PairsDist 1 11; PairsDist 1 12; PairsDist 1 13; PairsDist 1 14; PairsDist 1 15].

Section Net.
Context {K : Type} (first last : K -> K -> K).

(** apply [f] to each group of g consecutive keys *)
Fixpoint chunks (fuel g : nat) (f : list K -> list K) (v : list K) : list K :=
  match fuel with
  | O => []
  | S fuel => f (firstn g v) ++ chunks fuel g f (skipn g v)
  end.
Definition by_chunks (g : nat) (f : list K -> list K) (v : list K) : list K := chunks (length v / g) g f v.
Definition zipw (f : K -> K -> K) (a b : list K) : list K := map (fun p : K * K => f (fst p) (snd p)) (combine a b).

(** ReverseKeys2/4/8/16: traits-inl.h 195-220, traits128-inl.h 68-107: reverses
    each group of g keys *)
Definition rev_keys (g : nat) (v : list K) : list K := by_chunks g (@rev K) v.
(** Sort2(v, swapped) followed by taking the lower half of each group from v (the
    firsts) and the upper half from swapped (the lasts):
    OddEvenKeys/OddEvenPairs/OddEvenQuads/ConcatUpperLower(swapped, v) *)
Definition pair_up (h : nat) (c swapped : list K) : list K := firstn h (zipw first c swapped) ++ skipn h (zipw last c swapped).
(** SortPairsReverse4 (traits-inl.h 576-583), 8 and 16 (sorting_networks-inl.h
    56-75): swapped = groups of g reversed *)
Definition pairs_rev (g : nat) (v : list K) : list K := by_chunks g (fun c => pair_up (g / 2) c (rev c)) v.
(** SortPairsDistance1 (traits-inl.h 549-574), 2 (sorting_networks-inl.h 46-53),
    4 (traits-inl.h 585-594): swapped = neighbouring groups of h exchanged *)
Definition pairs_dist (h : nat) (v : list K) : list K := by_chunks (2 * h) (fun c => pair_up h c (skipn h c ++ firstn h c)) v.

Definition row (r : nat) (m : list (list K)) : list K := nth r m [].
Fixpoint set_row (r : nat) (v : list K) (m : list (list K)) : list (list K) :=
  match m, r with
  | [], _ => []
  | _ :: t, O => v :: t
  | x :: t, S r => x :: set_row r v t
  end.
Definition step (i : instr) (m : list (list K)) : list (list K) :=
  match i with
  | S2 a b => let va := row a m in let vb := row b m in set_row b (zipw last va vb) (set_row a (zipw first va vb) m)
  | Rev g r => set_row r (rev_keys g (row r m)) m
  | PairsRev g r => set_row r (pairs_rev g (row r m)) m
  | PairsDist h r => set_row r (pairs_dist h (row r m)) m
  end.
Fixpoint run (p : list instr) (m : list (list K)) : list (list K) :=
  match p with [] => m | i :: p => run p (step i m) end.
End Net.

(** Sort8 followed by Merge8x2/Merge8x4 <kKeysPerRow> (vqsort-inl.h 388-392) *)
Definition net8 (cols : nat) : list instr :=
  Sort8 ++ (if 1 <? cols then Merge8x2 else []) ++ (if 2 <? cols then Merge8x4 else []).
(** Sort16 followed by Merge16x{2,4,8,16}<kKeysPerRow> (vqsort-inl.h 499-511) *)
Definition net16 (cols : nat) : list instr :=
  Sort16 ++ (if 1 <? cols then Merge16x2 else []) ++ (if 2 <? cols then Merge16x4 else []) ++
  (if 4 <? cols then Merge16x8 else []) ++ (if 8 <? cols then Merge16x16 else []).
