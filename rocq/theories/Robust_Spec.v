(** Specification for the robust statistics. *)
From Coq Require Import ZArith List Sorting.Permutation Sorting.Sorted.
Import ListNotations.
Local Open Scope Z_scope.
Definition ascending (l : list Z) : Prop := StronglySorted Z.le l.
Definition sorted_of (l s : list Z) : Prop := Permutation l s /\ ascending s.
(** number of elements satisfying a test *)
Definition count (p : Z -> bool) (l : list Z) : Z := Z.of_nat (length (filter p l)).
(** at least half of the values are <= m and at least half are >= m *)
Definition is_median (m : Z) (l : list Z) : Prop :=
  Z.of_nat (length l) <= 2 * count (fun x => x <=? m) l /\ Z.of_nat (length l) <= 2 * count (fun x => m <=? x) l.
Definition in_hull (m : Z) (l : list Z) : Prop := exists a b, In a l /\ In b l /\ a <= m <= b.
Definition values (w : Z) (l : list Z) : Prop := Forall (fun x => 0 <= x < 2 ^ w) l.
