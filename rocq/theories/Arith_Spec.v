(** Specification notions for the integer helpers; independent of the model. *)
From Coq Require Import ZArith List.
Local Open Scope Z_scope.

(** Number of one bits among bit positions 0..w-1. *)
Definition count_ones (w : nat) (x : Z) : Z :=
  Z.of_nat (length (filter (fun i => Z.testbit x (Z.of_nat i)) (seq 0 w))).

(** [r] is the position of the lowest one bit of x. *)
Definition is_lowest_one (x r : Z) : Prop :=
  Z.testbit x r = true /\ forall j, 0 <= j < r -> Z.testbit x j = false.

(** [r] is the position of the highest one bit of x. *)
Definition is_highest_one (x r : Z) : Prop :=
  Z.testbit x r = true /\ forall j, r < j -> Z.testbit x j = false.
