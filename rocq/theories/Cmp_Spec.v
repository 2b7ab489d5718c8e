(** What the comparisons, Min, Max, Abs, SaturatedAbs, IfNegativeThen* and 128-bit operations of g3doc/quick_reference.md promise for one lane (a bit pattern,
    see Shift_Spec.v), independent of the model.  A vector mask lane is all ones if true and zero if false. *)
From Coq Require Import ZArith Bool.
From Verif Require Import Shift_Spec.
Open Scope Z_scope.

(** mask lane [m] of [w] bits represents the truth value of [P] *)
Definition mask_is (w m : Z) (P : Prop) : Prop := (P /\ m = 2 ^ w - 1) \/ (~ P /\ m = 0).
(** [r] is a lane whose signed value is [z] *)
Definition is_signed (w r z : Z) : Prop := lane w r /\ signed w r = z.
(** a pair of 64-bit lanes as one number, the upper lane being the more significant one *)
Definition num128 (p : Z * Z) : Z := snd p * 2 ^ 64 + fst p.
Definition pair64 (p : Z * Z) : Prop := lane 64 (fst p) /\ lane 64 (snd p).
Definition mask2_is (m : Z * Z) (P : Prop) : Prop := mask_is 64 (fst m) P /\ mask_is 64 (snd m) P.
