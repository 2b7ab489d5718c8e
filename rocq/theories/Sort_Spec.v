(** What it means to sort, select and partially sort; independent of the code. *)
From Coq Require Import ZArith List Bool Permutation.
Import ListNotations.
Local Open Scope Z_scope.

Section Spec.
Context {K : Type} (lt : K -> K -> bool).
(** [lt] is a strict weak order (total preorder), e.g. [<] on integers, [>] for
    descending order, or comparison of the key part of a key-value pair *)
Definition strict_weak : Prop :=
  (forall a, lt a a = false) /\ (forall a b c, lt a b = true -> lt b c = true -> lt a c = true) /\
  (forall a b c, lt a b = false -> lt b c = false -> lt a c = false).
(** no element is followed by one that must precede it *)
Definition sorted (l : list K) : Prop :=
  forall i j x y, (i < j)%nat -> nth_error l i = Some x -> nth_error l j = Some y -> lt y x = false.
(** the element at position k is the one a sort would put there; smaller ones
    are before, larger ones after *)
Definition selected (l : list K) (k : nat) : Prop :=
  forall x, nth_error l k = Some x ->
    (forall i y, (i < k)%nat -> nth_error l i = Some y -> lt x y = false) /\
    (forall i y, (k < i)%nat -> nth_error l i = Some y -> lt y x = false).
(** the first k are sorted and none of the rest precedes any of them *)
Definition partially_sorted (l : list K) (k : nat) : Prop :=
  sorted (firstn k l) /\ forall i j x y, (i < k <= j)%nat -> nth_error l i = Some x -> nth_error l j = Some y -> lt y x = false.
End Spec.

(** ... and distinct keys are never equivalent *)
Definition total_order {K} (lt : K -> K -> bool) : Prop :=
  strict_weak lt /\ forall a b, lt a b = false -> lt b a = false -> a = b.
