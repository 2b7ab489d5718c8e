(** Specification of SetAtOrAfterFirst, SetBeforeFirst, SetAtOrBeforeFirst, SetOnlyFirst: lane i of the result. *)
From Coq Require Import List Arith.
From Verif Require Import Compress_Spec.
Definition lanes_iff (m r : list bool) (p : nat -> Prop) : Prop := length r = length m /\ forall i, i < length m -> (nth i r false = true <-> p i).
(** some lane up to and including i is true; none; none before i; i is the first *)
Definition at_or_after_first (m r : list bool) : Prop := lanes_iff m r (fun i => exists j, j <= i /\ nth j m false = true).
Definition before_first (m r : list bool) : Prop := lanes_iff m r (fun i => forall j, j <= i -> nth j m false = false).
Definition at_or_before_first (m r : list bool) : Prop := lanes_iff m r (fun i => forall j, j < i -> nth j m false = false).
Definition only_first (m r : list bool) : Prop := lanes_iff m r (is_first m).
