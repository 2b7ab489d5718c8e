(** Specification side of the topology properties: what the texts in sysfs mean. *)
From Coq Require Import ZArith List Bool Lia.
Import ListNotations.
Local Open Scope Z_scope.

(** ASCII decimal digits and their value *)
Definition is_digit (c : Z) : Prop := 48 <= c <= 57.
Definition value (ds : list Z) : Z := fold_left (fun a c => a * 10 + (c - 48)) ds 0.
Definition decimal (ds : list Z) (v : Z) : Prop := (1 <= length ds <= 9)%nat /\ Forall is_digit ds /\ value ds = v.
(** a file holding a number, possibly followed by K (times 1024) or M (times 1024*1024), and possibly a newline *)
Definition number_file (f : list Z) (v : Z) : Prop :=
  exists ds suffix nl x, f = ds ++ suffix ++ nl /\ decimal ds x /\ (nl = [] \/ nl = [10]) /\
    ((suffix = [] /\ v = x) \/ (suffix = [75] /\ v = x * 1024) \/ (suffix = [77] /\ v = x * 1048576)).
(** a cpulist: "a" or "a-b" separated by commas *)
Inductive item := One (ds : list Z) | Range (ds1 ds2 : list Z).
Definition item_ok (max_lp : Z) (i : item) : Prop :=
  match i with One ds => exists v, decimal ds v /\ v <= max_lp | Range ds1 ds2 => exists v1 v2, decimal ds1 v1 /\ decimal ds2 v2 /\ v1 <= v2 /\ v2 <= max_lp end.
Definition item_text (i : item) : list Z := match i with One ds => ds | Range ds1 ds2 => ds1 ++ [45] ++ ds2 end.
(** the processors an item stands for, in increasing order *)
Definition item_lps (i : item) : list Z :=
  match i with One ds => [value ds] | Range ds1 ds2 => map (fun k => value ds1 + Z.of_nat k) (seq 0 (Z.to_nat (value ds2 - value ds1 + 1))) end.
Fixpoint list_text (its : list item) : list Z := match its with [] => [] | [i] => item_text i | i :: its => item_text i ++ [44] ++ list_text its end.
