(** Specification side of the cache properties: a described cache and the sysfs files that describe it. *)
From Coq Require Import ZArith List Bool Lia.
From Verif Require Import Topo_Spec.
Import ListNotations.
Local Open Scope Z_scope.

Inductive kind := DataCache | InstructionCache | UnifiedCache.
Definition kind_text (k : kind) : list Z :=
  match k with
  | DataCache => [68; 97; 116; 97]
  | InstructionCache => [73; 110; 115; 116; 114; 117; 99; 116; 105; 111; 110]
  | UnifiedCache => [85; 110; 105; 102; 105; 101; 100]
  end.
(** [d_shared]: the processors sharing the cache *)
Record desc := { d_kind : kind; d_level : Z; d_kib : Z; d_ways : Z; d_sets : Z; d_line : Z; d_shared : list item }.
(** the sizes fit: capacity = ways * sets * line *)
Definition desc_ok (n : nat) (d : desc) : Prop :=
  1 <= d_kib d /\ 1 <= d_ways d < 2 ^ 16 /\ 1 <= d_sets d /\ d_ways d * d_sets d < 2 ^ 32 /\ 1 <= d_line d < 2 ^ 16 /\ d_kib d * 1024 = d_ways d * d_sets d * d_line d /\
  d_shared d <> [] /\ Forall (item_ok (Z.of_nat n - 1)) (d_shared d) /\ NoDup (flat_map item_lps (d_shared d)).
(** a line: text and possibly a newline *)
Definition line_of (f : option (list Z)) (t : list Z) : Prop := exists nl, (nl = [] \/ nl = [10]) /\ f = Some (t ++ nl) /\ (length (t ++ nl) < 200)%nat.
Definition decimal_line (f : option (list Z)) (suffix : list Z) (v : Z) : Prop := exists ds, decimal ds v /\ line_of f (ds ++ suffix).
