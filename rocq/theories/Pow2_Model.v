(** Model of MulByPow2, MulByFloorPow2, GetBiasedExponent, GetExponent: hwy/ops/generic_ops-inl.h 1241-1420, one lane of format [f].
    [Lmm], [Lss]: bits of TExpMinMax and TExpSatSub, which depend on the target (1262-1280). Signed lanes are signed integers, bit casts wrap. *)
From Coq Require Import ZArith Bool.
From Verif Require Import Word Float_Spec Float_Model Rounding_Model.
Open Scope Z_scope.

(** IEEE 754 rounding of num * 2^-k: [ieee_round] (Float_Model) for values that are not a multiple of 2^-1074 *)
Definition round_scaled (f : fmt) (num k : Z) : Z :=
  let s0 := 1074 + 1 - bias f - mbits f in
  let s := Z.max (Z.log2 num - k - mbits f) s0 in
  let q := num / 2 ^ (s + k) in
  let rem := num mod 2 ^ (s + k) in
  let up := (2 ^ (s + k) <? 2 * rem) || ((2 * rem =? 2 ^ (s + k)) && Z.odd q) in
  let q := if up then q + 1 else q in
  Z.min ((s - s0) * 2 ^ mbits f + q) (inf_mag f).
(** built-in multiplication: the product of two values in units of 2^-1074 is in units of 2^-2148 *)
Definition fmul (f : fmt) (nan : Z -> Z -> Z) (a b : Z) : Z :=
  let ma := magnitude f a in let mb := magnitude f b in
  if (inf_mag f <? ma) || (inf_mag f <? mb) then nan a b else
  let neg := xorb (negative f a) (negative f b) in
  if (ma =? inf_mag f) || (mb =? inf_mag f) then (if (ma =? 0) || (mb =? 0) then nan a b else mk f neg (inf_mag f))
  else mk f neg (round_scaled f (mag_value f ma * mag_value f mb) 1074).

(** an operation on lanes of [L] bits *)
Fixpoint lanes (n : nat) (L : Z) (op : Z -> Z -> Z) (x y : Z) : Z :=
  match n with O => 0 | S n' => op (wrap L x) (wrap L y) + 2 ^ L * lanes n' L op (x / 2 ^ L) (y / 2 ^ L) end.
Definition satsub (a b : Z) : Z := Z.max 0 (a - b).
Definition smax (L a b : Z) : Z := wrap L (Z.max (swrap L a) (swrap L b)).
Definition smin (L a b : Z) : Z := wrap L (Z.min (swrap L a) (swrap L b)).
Section Pow2.
Context (f : fmt) (Lmm Lss : Z) (nan : Z -> Z -> Z).
Definition narrow (op : Z -> Z -> Z -> Z) (a b : Z) : Z := swrap (wd f) (lanes (Z.to_nat (wd f / Lmm)) Lmm (op Lmm) (wrap (wd f) a) (wrap (wd f) b)).
Definition exp_bias : Z := Z.shiftr (2 ^ ebits f - 1) 1.
Definition zero_out_sign : bool := Lss =? ebits f.
(** 1300-1345 *)
Definition min_exp12 (v : Z) : Z :=
  let decr := wrap (wd f) (1 - Z.shiftl (if zero_out_sign then 1 else 0) (ebits f)) in
  let val := if zero_out_sign then v else scalar_abs f v in
  let field := lanes (Z.to_nat (wd f / Lss)) Lss satsub (Z.shiftr val (mbits f)) decr in
  narrow smax (swrap (wd f) (- swrap (wd f) field)) (2 - exp_bias - exp_bias).
Definition clamped_exp (v exp : Z) : Z := Z.max (Z.min exp (exp_bias * 3)) (swrap (wd f) (min_exp12 v + (1 - exp_bias))).
Definition exp12 (v exp : Z) : Z :=
  let c := clamped_exp v exp in
  narrow smax (narrow smin (swrap (wd f) (c - Z.shiftr c 2)) (exp_bias + exp_bias)) (min_exp12 v).
Definition factor (e : Z) : Z := wrap (wd f) (Z.shiftl (swrap (wd f) (e + exp_bias)) (mbits f)).
Definition mul_by_pow2 (v exp : Z) : Z :=
  let e12 := exp12 v exp in
  let e1 := Z.shiftr e12 1 in let e2 := swrap (wd f) (e12 - e1) in let e3 := swrap (wd f) (clamped_exp v exp - e12) in
  fmul f nan (fmul f nan (fmul f nan v (factor e1)) (factor e2)) (factor e3).
(** MulByFloorPow2 1358-1376; [floor_int]: C95; [qnan]: NaN(df). IfNegativeThenElseZero looks at the sign bit *)
Definition mul_by_floor_pow2 (floor_int : Z -> Z) (qnan v exp : Z) : Z :=
  let inf_or_zero := if scalar_sign_bit f exp then inf_mag f else 0 in
  let special := scalar_is_nan f exp || (feq f (scalar_abs f v) inf_or_zero && scalar_is_inf f exp) in
  if special then qnan else mul_by_pow2 v (floor_int exp).
(** 1389-1398, 1411-1420 *)
Definition get_biased_exponent (v : Z) : Z := Z.shiftr (scalar_abs f v) (mbits f).
Definition get_exponent (v : Z) : Z := of_int f (swrap (wd f) (swrap (wd f) (get_biased_exponent v) - Z.shiftr (2 ^ ebits f - 1) 1)).
End Pow2.
