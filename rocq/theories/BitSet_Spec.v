(** Specification: the mathematical set (membership function) a history of
    operations denotes. *)
From Coq Require Import ZArith List Bool.
From Verif Require Import BitSet_Model.
Import ListNotations.
Local Open Scope Z_scope.

Definition zset := Z -> bool.
Definition empty : zset := fun _ => false.
Definition spec_step (S : zset) (o : op) : zset :=
  match o with
  | OSet i => fun x => (x =? i) || S x
  | OClear i => fun x => negb (x =? i) && S x
  | OSetNZ bits => fun x => S x || ((0 <=? x) && (x <? 64) && Z.testbit bits x)
  end.
Definition spec_run (S : zset) (ops : list op) : zset := fold_left spec_step ops S.

(** the members below n, ascending *)
Definition members (n : nat) (S : zset) : list Z := filter S (map Z.of_nat (seq 0 n)).

(** an operation whose argument is allowed for a set of capacity n *)
Definition op_ok (n : Z) (o : op) : Prop :=
  match o with
  | OSet i | OClear i => 0 <= i < n
  | OSetNZ bits => 0 <= bits < 2 ^ 64
  end.
