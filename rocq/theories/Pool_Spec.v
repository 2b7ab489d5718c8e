(** Specification notions for parallel-for. *)
From Coq Require Import ZArith List Bool.
Import ListNotations.
Local Open Scope Z_scope.

(** number of calls (task, worker) made for task t *)
Definition calls_for (t : Z) (calls : list (Z * Z)) : nat :=
  length (filter (fun c => fst c =? t) calls).

(** 1 if t is in [begin, end), else 0 *)
Definition once_in (begin end_ t : Z) : nat :=
  if (begin <=? t) && (t <? end_) then 1%nat else 0%nat.

(** worker arguments are valid indices *)
Definition workers_ok (nw : Z) (calls : list (Z * Z)) : Prop :=
  Forall (fun c => 0 <= snd c < nw) calls.
