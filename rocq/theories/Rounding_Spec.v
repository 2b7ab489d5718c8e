(** Rounding of floats to integers. A float is a bit pattern, its value an integer number of units of 2^-1074 (Float_Spec). *)
From Coq Require Import ZArith Bool.
From Verif Require Import Float_Spec.
Open Scope Z_scope.
(** 1.0 in these units *)
Definition unit : Z := 2 ^ 1074.
(** the integer [n] is the value [v] rounded down, up, toward zero, to nearest with ties to even *)
Definition is_floor (v n : Z) : Prop := n * unit <= v < (n + 1) * unit.
Definition is_ceil (v n : Z) : Prop := (n - 1) * unit < v <= n * unit.
Definition is_trunc (v n : Z) : Prop := (0 <= v -> is_floor v n) /\ (v <= 0 -> is_ceil v n).
Definition is_nearest (v n : Z) : Prop := 2 * Z.abs (v - n * unit) < unit \/ (2 * Z.abs (v - n * unit) = unit /\ Z.even n = true).
Definition finite (f : fmt) (b : Z) : Prop := magnitude f b < inf_mag f.
(** the float [r] is [b] rounded to an integer; infinities are unchanged and NaN yields NaN *)
Definition rounds (rnd : Z -> Z -> Prop) (f : fmt) (b r : Z) : Prop :=
  is_pattern f r /\ (is_nan f b -> is_nan f r) /\ (is_inf f b -> r = b) /\ (finite f b -> finite f r /\ exists n, value f r = n * unit /\ rnd (value f b) n).
(** the integer [r] is [b] rounded and then limited to [lo, hi] *)
Definition clamp (lo hi x : Z) : Z := if x <? lo then lo else if hi <? x then hi else x.
Definition converts (rnd : Z -> Z -> Prop) (f : fmt) (lo hi b r : Z) : Prop :=
  (is_inf f b -> r = if negative f b then lo else hi) /\ (finite f b -> exists n, rnd (value f b) n /\ r = clamp lo hi n).
(** the types with these operations *)
Definition float_type (f : fmt) : Prop := f = binary32 \/ f = binary64.
(** the float [r] of the narrower format [g] is [b] rounded to nearest even, but limited to the largest finite values *)
Definition narrows (f g : fmt) (b r : Z) : Prop :=
  is_pattern g r /\ negative g r = negative f b /\ (is_nan f b -> is_nan g r) /\ (~ is_nan f b -> finite g r) /\
  (finite f b -> mag_value f (magnitude f b) <= mag_value g (inf_mag g - 1) -> nearest_even g (mag_value f (magnitude f b)) (magnitude g r)) /\
  (~ is_nan f b -> mag_value g (inf_mag g - 1) < mag_value f (magnitude f b) -> magnitude g r = inf_mag g - 1).
