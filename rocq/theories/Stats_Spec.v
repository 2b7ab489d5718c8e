(** Specification for Stats: count, extremes and central moments of the
    multiset of samples. *)
From Coq Require Import ZArith QArith List.
From Verif Require Import Stats_Model.
Import ListNotations.
Local Open Scope Q_scope.

(** the samples an object has seen, directly or through Assimilate *)
Fixpoint samples (h : hist) : list Q :=
  match h with
  | HNew => []
  | HNotify x h => x :: samples h
  | HMerge h o => samples h ++ samples o
  | HSelf h => samples h ++ samples h
  end.
Definition qsum (l : list Q) : Q := fold_right Qplus 0 l.
Definition qlen (l : list Q) : Q := inject_Z (Z.of_nat (length l)).
Definition mean (l : list Q) : Q := qsum l / qlen l.
(** k-th central moment times the number of samples *)
Definition moment (k : Z) (l : list Q) : Q := qsum (map (fun x => Qpower (x - mean l) k) l).
Definition finite_float (x : Q) : Prop := - flt_max <= x /\ x <= flt_max.
Definition is_min (m : Q) (l : list Q) : Prop := (exists x, In x l /\ x == m) /\ forall x, In x l -> m <= x.
Definition is_max (m : Q) (l : list Q) : Prop := (exists x, In x l /\ x == m) /\ forall x, In x l -> x <= m.
