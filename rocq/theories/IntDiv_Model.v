(** Model of integer division by floating-point division, hwy/ops/generic_ops-inl.h
    4829-5371. Floating-point numbers are real numbers; an operation is the
    exact one followed by rounding to nearest even with [p] significant bits
    (Flocq). Simplification: unbounded exponents; every value that occurs is
    zero or between 2^-64 and 2^65 in magnitude, so binary64 and (for 32-bit
    lanes) binary32 never overflow or underflow; likewise binary16 for 8-bit lanes.
    Not modelled: Armv7 (approximate reciprocals) and 64-bit lanes without
    binary64. *)
From Coq Require Import ZArith Reals List Bool.
From Flocq Require Import Core.
From Verif Require Import Word IntOps_Model.
Local Open Scope Z_scope.

Definition rnd (p : Z) (x : R) : R := round radix2 (FLX_exp p) ZnearestE x.
(** Div, Mul, ConvertTo(df, int) *)
Definition fdiv (p : Z) (x y : R) : R := rnd p (x / y).
Definition fmul (p : Z) (x y : R) : R := rnd p (x * y).
Definition of_int (p : Z) (x : Z) : R := rnd p (IZR x).
(** ConvertInRangeTo / DemoteInRangeTo: truncation; values outside the range of
    the lane type are saturated, wrapped or replaced by LimitsMin (comment at
    4839-4845) *)
Inductive oor := OSat | OWrap | OMin.
Definition conv (m : oor) (sg : bool) (w : Z) (x : R) : Z :=
  let t := Ztrunc x in
  if (lowest sg w <=? t) && (t <=? highest sg w) then t
  else match m with
       | OSat => Z.min (Z.max (lowest sg w) t) (highest sg w)
       | OWrap => fit sg w t
       | OMin => lowest sg w
       end.
(** IntDivUsingFloatDiv, kOrigLaneSize < sizeof(T) 4900-4991 (not Armv7); also the
    binary64 division of 32-bit lanes 5269-5304 *)
Definition int_div_wide (m : oor) (p : Z) (sg : bool) (w a b : Z) : Z := conv m sg w (fdiv p (of_int p a) (of_int p b)).
(** IntDivUsingFloatDiv, kOrigLaneSize == sizeof(T) 4993-5138 *)
Definition int_div_same (m : oor) (p : Z) (sg : bool) (w a b : Z) : Z :=
  let '(a, b) :=
    if sg then (a, b)
    else (wrap w (if_negative (swrap w b) (if b <=? a then 1 else 0) (swrap w a)), wrap w (if_negative (swrap w b) 1 (swrap w b))) in
  let flt_b := of_int p b in
  let flt_recip_b := fdiv p 1 flt_b in
  let q0 := conv m sg w (fmul p (of_int p a) flt_recip_b) in
  let r0 := swrap w (fit sg w (a - q0 * b)) in
  let q1 := conv m true w (fmul p (of_int p r0) flt_recip_b) in
  let r1 := swrap w (r0 - q1 * swrap w b) in
  let r3 := r1 in
  let r4 := if sg then if_negative a (neg_ true w r3) r3 else r3 in
  let abs_b := if sg then wrap w (swrap w (Z.abs b)) else b in
  let q4 := swrap w (vec_from_mask false w (abs_b <=? wrap w r4)) in
  let q4_negate_mask := if sg then Z.lxor r3 (swrap w b) else r3 in
  let q4 := if_negative q4_negate_mask (neg_ true w q4) q4 in
  sub_ sg w (add_ sg w q0 (fit sg w q1)) (fit sg w q4).
(** saturating DemoteTo *)
Definition demote (sg : bool) (n v : Z) : Z := Z.min (Z.max (lowest sg n) v) (highest sg n).
(** which instructions a target has *)
Record target := { has_f16 : bool; has_f64 : bool; sse : bool; t_oor : oor }.
(** signedness of the widened lanes: signed on SSE2 and later x86 5153-5157, 5192-5196 *)
Definition wide_sg (t : target) (sg : bool) : bool := if sse t then true else sg.
(** IntDiv for 16-bit lanes with kOrigLaneSize = [orig] bytes (5140-5205): widened to 32 bits,
    demoted to signed lanes on x86 if orig < 2 *)
Definition int_div16 (t : target) (orig : Z) (sg : bool) (a b : Z) : Z :=
  let q := int_div_wide (t_oor t) 24 (wide_sg t sg) 32 a b in
  if sse t && (orig <? 2) then fit sg 16 (demote true 16 q) else demote sg 16 q.
(** IntDiv for 8-bit lanes: with binary16 widened to 16 bits; without, to 32 bits at once ([direct],
    small vectors) or via IntDiv<1> of 16-bit lanes (5207-5251) *)
Definition int_div8 (t : target) (direct : bool) (sg : bool) (a b : Z) : Z :=
  if has_f16 t then demote sg 8 (int_div_wide (t_oor t) 11 (wide_sg t sg) 16 a b)
  else if direct then demote sg 8 (int_div_wide (t_oor t) 24 (wide_sg t sg) 32 a b)
  else demote sg 8 (fit (wide_sg t sg) 16 (int_div16 t 1 sg a b)).
(** operator/ *)
Definition int_div (t : target) (direct : bool) (sg : bool) (w a b : Z) : Z :=
  if w =? 8 then int_div8 t direct sg a b
  else if w =? 16 then int_div16 t 2 sg a b
  else if w =? 32 then (if has_f64 t then int_div_wide (t_oor t) 53 sg 32 a b else int_div_same (t_oor t) 24 sg 32 a b)
  else int_div_same (t_oor t) 53 sg 64 a b.
(** operator%: NegMulAdd(a / b, b, a) 5306-5316; 8-bit lanes on x86 and WASM ([mod_wide])
    go through 16-bit lanes 5318-5337 *)
Definition int_mod (t : target) (direct mod_wide : bool) (sg : bool) (w a b : Z) : Z :=
  if (w =? 8) && mod_wide then
    demote sg 8 (fit sg 16 (a - int_div16 t 1 sg a b * b))
  else fit sg w (a - int_div t direct sg w a b * b).
