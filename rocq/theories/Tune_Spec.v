(** Positions still in rotation, as a set: no linked list here. *)
From Coq Require Import ZArith List Bool.
Import ListNotations.
Local Open Scope Z_scope.

(** q is the next element of the set [S] after p in ascending cyclic order *)
Definition cyc_next (S : Z -> Prop) (p q : Z) : Prop :=
  S q /\ ((p < q /\ forall r, S r -> p < r -> q <= r) \/ ((forall r, S r -> r <= p) /\ forall r, S r -> q <= r)).
Definition cyc_prev (S : Z -> Prop) (p q : Z) : Prop :=
  S q /\ ((q < p /\ forall r, S r -> r < p -> r <= q) \/ ((forall r, S r -> p <= r) /\ forall r, S r -> r <= q)).

(** what a history of Skip(pos) calls leaves: each call removes its position
    unless it is the only one left *)
Inductive rotation (num : Z) : list Z -> (Z -> Prop) -> Prop :=
| rot_init : rotation num [] (fun p => 0 <= p < num)
| rot_skip h S pos : rotation num h S -> S pos -> (exists q, S q /\ q <> pos) -> rotation num (pos :: h) (fun p => S p /\ p <> pos)
| rot_last h S pos : rotation num h S -> S pos -> (forall q, S q -> q = pos) -> rotation num (pos :: h) S.
