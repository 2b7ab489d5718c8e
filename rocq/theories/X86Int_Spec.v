(** Specification of integer conversions between vectors: values of lanes. Independent of the model. *)
From Coq Require Import ZArith List Bool.
Import ListNotations.
Open Scope Z_scope.
(** the bytes at index k, k + 1, ... k + s - 1 of memory, least significant first *)
Fixpoint unsigned_at (s k : nat) (r : list Z) : Z := match s with O => 0 | S s' => nth k r 0 + 256 * unsigned_at s' (S k) r end.
(** value of lane [i] of a vector of lanes of [s] bytes; [sg]: the type is signed (two's complement) *)
Definition lane_value (sg : bool) (s i : nat) (r : list Z) : Z :=
  let u := unsigned_at s (i * s) r in if sg && (2 ^ (8 * Z.of_nat s - 1) <=? u) then u - 2 ^ (8 * Z.of_nat s) else u.
Definition lowest_value (sg : bool) (s : nat) : Z := if sg then - 2 ^ (8 * Z.of_nat s - 1) else 0.
Definition highest_value (sg : bool) (s : nat) : Z := if sg then 2 ^ (8 * Z.of_nat s - 1) - 1 else 2 ^ (8 * Z.of_nat s) - 1.
(** the value of the narrower type closest to [x] *)
Definition closest (sg : bool) (s : nat) (x : Z) : Z := Z.max (lowest_value sg s) (Z.min (highest_value sg s) x).
(** a register holds bytes *)
Definition register (n : nat) (r : list Z) : Prop := length r = n /\ Forall (fun b => 0 <= b < 256) r.
(** the lane sizes that can be demoted / promoted *)
Definition narrower (s s' : nat) : Prop := In (s, s') [(2, 1); (4, 1); (4, 2); (8, 1); (8, 2); (8, 4)]%nat.
Definition lane_count (n : nat) : Prop := In n [1; 2; 4; 8; 16]%nat.
