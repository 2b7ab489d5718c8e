(** hwy/contrib/sort/traits-inl.h 36-450 and traits128-inl.h 38-440: the sort orders
    for each key type, per key instead of per vector.  A key is its bit pattern. *)
From Coq Require Import ZArith Lia Bool.
From Verif Require Import Word Word_Proofs Recurse_Model.
Local Open Scope Z_scope.

(** w-bit patterns *)
Definition word (w : positive) : Type := { z : Z | (0 <=? z) && (z <? 2 ^ Zpos w) = true }.
Definition bits {w} (x : word w) : Z := proj1_sig x.
Lemma wrap_word (w : positive) z : (0 <=? wrap (Zpos w) z) && (wrap (Zpos w) z <? 2 ^ Zpos w) = true.
Proof. pose proof (wrap_range (Zpos w) z ltac:(lia)). rewrite andb_true_iff. split; [apply Z.leb_le|apply Z.ltb_lt]; lia. Qed.
Definition word_of (w : positive) (z : Z) : word w := exist _ (wrap (Zpos w) z) (wrap_word w z).

(** Compare of TraitsLane/Traits128 with order [v] ([lt a b = v a < v b]), First / Last /
    Sort2 as compare-and-select.  IfThenElse(lt, a, b) returns b for equal keys. *)
Section Ops.
Context {A : Type} (v : A -> Z).
Definition v_lt (a b : A) : bool := v a <? v b.
Definition v_min (a b : A) : A := if v a <? v b then a else b.
Definition v_max (a b : A) : A := if v b <? v a then a else b.
End Ops.

(** traits-inl.h 506-530 Sort2: First and Last, or ([via_cmp]: SSSE3..AVX2 and 8-byte
    lanes) two IfThenElse on Compare; traits128-inl.h 508-516 always the latter *)
Definition sort2 {A} (via_cmp : bool) (lt : A -> A -> bool) (first last : A -> A -> A) (a b : A) : A * A :=
  if via_cmp then (if lt a b then a else b, if lt a b then b else a) else (first a b, last a b).

(** value of an integer lane *)
Definition ival (signed : bool) {w} (x : word w) : Z := if signed then swrap (Zpos w) (bits x) else bits x.
Definition ord (desc : bool) {A} (v : A -> Z) (x : A) : Z := if desc then - v x else v x.

(** OrderAscending<T> / OrderDescending<T> 287-402 for integers: LowestValue,
    HighestValue, Add/Sub 1 (126-134) *)
Definition lowest (signed : bool) (w : positive) : word w := word_of w (if signed then - 2 ^ (Zpos w - 1) else 0).
Definition highest (signed : bool) (w : positive) : word w := word_of w (if signed then 2 ^ (Zpos w - 1) - 1 else 2 ^ Zpos w - 1).
Definition int_traits (signed : bool) (w : positive) (desc via_cmp : bool) : traits (word w) := {|
  t_lt := v_lt (ord desc (ival signed));
  t_ltn := v_lt (ord desc (ival signed));
  t_first := if desc then v_max (ival signed) else v_min (ival signed);
  t_last := if desc then v_min (ival signed) else v_max (ival signed);
  t_sort2 := sort2 via_cmp (v_lt (ord desc (ival signed))) (if desc then v_max (ival signed) else v_min (ival signed)) (if desc then v_min (ival signed) else v_max (ival signed));
  t_eq := fun a b => bits a =? bits b;
  t_firstv := if desc then highest signed w else lowest signed w;
  t_lastv := if desc then lowest signed w else highest signed w;
  t_prev := fun x => if desc then word_of w (bits x + 1) else word_of w (bits x - 1);
  t_xor := fun a b => word_of w (Z.lxor (bits a) (bits b));
  t_kv := false;
  t_128 := false |}.

(** KeyValue64, OrderAscendingKV64, OrderDescendingKV64 (404-498): the key is the
    upper 32 bits; First/Last and the sorting networks compare all 64 bits *)
Definition key64 (x : word 64) : Z := Z.shiftr (bits x) 32.
Definition kv64_traits (desc via_cmp : bool) : traits (word 64) := {|
  t_lt := v_lt (ord desc key64);
  t_ltn := v_lt (ord desc (ival false));
  t_first := if desc then v_max (ival false) else v_min (ival false);
  t_last := if desc then v_min (ival false) else v_max (ival false);
  t_sort2 := sort2 via_cmp (v_lt (ord desc key64)) (if desc then v_max (ival false) else v_min (ival false)) (if desc then v_min (ival false) else v_max (ival false));
  t_eq := fun a b => Z.shiftr (bits a) 32 =? Z.shiftr (bits b) 32;
  t_firstv := if desc then highest false 64 else lowest false 64;
  t_lastv := if desc then lowest false 64 else highest false 64;
  t_prev := fun x => if desc then word_of 64 (bits x + 2 ^ 32) else word_of 64 (bits x - 2 ^ 32);
  t_xor := fun a b => word_of 64 (Z.lxor (bits a) (bits b));
  t_kv := true;
  t_128 := false |}.

(** traits128-inl.h: a 128-bit key is two u64 lanes, [lo128] at the lower address *)
Definition lo128 (x : word 128) : Z := bits x mod 2 ^ 64.
Definition hi128 (x : word 128) : Z := Z.shiftr (bits x) 64.
Definition mk128 (lo hi : Z) : word 128 := word_of 128 (Z.shiftl (wrap 64 hi) 64 + wrap 64 lo).
Definition lt128 (a b : word 128) : bool := if hi128 a =? hi128 b then lo128 a <? lo128 b else hi128 a <? hi128 b.
Definition first128 (lt : word 128 -> word 128 -> bool) (a b : word 128) : word 128 := if lt a b then a else b.
Definition last128 (lt : word 128 -> word 128 -> bool) (a b : word 128) : word 128 := if lt b a then a else b.
(** OrderAscending128::PrevValue 213-220, OrderDescending128::PrevValue 270-277 *)
Definition prev128 (desc : bool) (x : word 128) : word 128 :=
  let lo := lo128 x in let hi := hi128 x in
  if desc then
    let added := wrap 64 (lo + 1) in
    mk128 added (hi + (if added <? lo then 1 else 0))
  else mk128 (lo - 1) (hi - (if lo =? 0 then 1 else 0)).
Definition flip {A} (desc : bool) (lt : A -> A -> bool) (a b : A) : bool := if desc then lt b a else lt a b.
Definition ones128 : word 128 := mk128 (2 ^ 64 - 1) (2 ^ 64 - 1).
Definition zeros128 : word 128 := mk128 0 0.
(** Max128(a, b) = IfThenElse(Lt128(b, a), a, b) is First of the descending order *)
Definition u128_traits (desc : bool) : traits (word 128) := {|
  t_lt := flip desc lt128;
  t_ltn := flip desc lt128;
  t_first := if desc then last128 lt128 else first128 lt128;
  t_last := if desc then first128 lt128 else last128 lt128;
  t_sort2 := sort2 true (flip desc lt128) (fun a _ => a) (fun _ b => b);
  t_eq := fun a b => (lo128 a =? lo128 b) && (hi128 a =? hi128 b);
  t_firstv := if desc then ones128 else zeros128;
  t_lastv := if desc then zeros128 else ones128;
  t_prev := prev128 desc;
  t_xor := fun a b => mk128 (Z.lxor (lo128 a) (lo128 b)) (Z.lxor (hi128 a) (hi128 b));
  t_kv := false;
  t_128 := true |}.
(** OrderAscendingKV128, OrderDescendingKV128 (285-425): the key is the upper lane *)
Definition lt128_upper (a b : word 128) : bool := hi128 a <? hi128 b.
Definition kv128_traits (desc : bool) : traits (word 128) := {|
  t_lt := flip desc lt128_upper;
  t_ltn := flip desc lt128;
  t_first := if desc then last128 lt128_upper else first128 lt128_upper;
  t_last := if desc then first128 lt128_upper else last128 lt128_upper;
  t_sort2 := sort2 true (flip desc lt128_upper) (fun a _ => a) (fun _ b => b);
  t_eq := fun a b => hi128 a =? hi128 b;
  t_firstv := if desc then ones128 else zeros128;
  t_lastv := if desc then zeros128 else ones128;
  t_prev := fun x => if desc then mk128 (lo128 x) (hi128 x + 1) else mk128 (lo128 x) (hi128 x - 1);
  t_xor := fun a b => mk128 (Z.lxor (lo128 a) (lo128 b)) (Z.lxor (hi128 a) (hi128 b));
  t_kv := true;
  t_128 := true |}.

(** Floating-point lanes with [e] exponent and [p] stored mantissa bits, as bit
    patterns.  Keys exclude NaN (replaced by LastValue before sorting) and, as a
    precondition on the input, -0.0: EqualKeys and Min/Max do not distinguish it from
    0.0 (see C29_negative_zero_refuted, C30_negative_zero_refuted). *)
Section Float.
Variables (e p : positive).
Definition fw : positive := (1 + e + p)%positive.
Definition fsign : Z := 2 ^ (Zpos e + Zpos p).
Definition finf : Z := Z.shiftl (2 ^ Zpos e - 1) (Zpos p).
Definition fabs (z : Z) : Z := z mod fsign.
Definition is_nan (z : Z) : bool := finf <? fabs z.
Definition is_key (z : Z) : bool := (0 <=? z) && (z <? 2 * fsign) && negb (is_nan z) && negb (z =? fsign).
Definition fkey : Type := { z : Z | is_key z = true }.
(** order of the values: sign and magnitude; 0.0 and -0.0 both give 0 *)
Definition fval (z : Z) : Z := if z <? fsign then z else fsign - z.
Definition fv (x : fkey) : Z := fval (proj1_sig x).
(** IsFinite(v); Neg flips the sign bit *)
Definition is_finite (z : Z) : bool := fabs z <? finf.
Definition fneg (z : Z) : Z := Z.lxor z fsign.
(** 87-111 LargerSortValue, 114-140 SmallerSortValue on bit patterns; HighestValue is
    the pattern before +inf *)
Definition larger_sort_value (z : Z) : Z :=
  let was_pos := z <=? fsign in
  let v := wrap (Zpos fw) (fabs z + (if was_pos then 1 else 2 ^ Zpos fw - 1)) in
  let v := if is_finite v then v else if was_pos then finf else finf - 1 in
  if was_pos then v else fneg v.
Definition smaller_sort_value (z : Z) : Z :=
  let was_pos := 0 <? fval z in
  let v := wrap (Zpos fw) (fabs z + (if was_pos then 2 ^ Zpos fw - 1 else 1)) in
  let v := if is_finite v then v else if was_pos then finf - 1 else finf in
  if was_pos then v else fneg v.
(** Conversion of a result to a key; -0.0, which LargerSortValue(-denorm_min) returns,
    becomes 0.0: PrevValue is only compared with keys (Lt, Eq), never stored. *)
Definition fnorm (z : Z) : Z := if is_key z then z else 0.
End Float.

Section FloatKey.
Variables (e p : positive).
Lemma finf_lt : 0 <= finf e p < fsign e p.
Proof.
  unfold finf, fsign. rewrite Z.shiftl_mul_pow2 by lia. rewrite Z.pow_add_r by lia.
  pose proof (Z.pow_pos_nonneg 2 (Zpos e) ltac:(lia) ltac:(lia)). pose proof (Z.pow_pos_nonneg 2 (Zpos p) ltac:(lia) ltac:(lia)). nia.
Qed.
Lemma is_key_0 : is_key e p 0 = true.
Proof.
  pose proof finf_lt. unfold is_key, is_nan, fabs. rewrite Zmod_0_l.
  rewrite !andb_true_iff, !negb_true_iff, Z.leb_le, Z.ltb_lt, Z.ltb_ge, Z.eqb_neq. lia.
Qed.
Lemma fnorm_key z : is_key e p (fnorm e p z) = true.
Proof. unfold fnorm. destruct (is_key e p z) eqn:E; [exact E|exact is_key_0]. Qed.
Definition fk (z : Z) : fkey e p := exist _ (fnorm e p z) (fnorm_key z).

(** OrderAscending<T> / OrderDescending<T> 287-402 for floating-point T: EqualKeys and
    Equal1 are floating-point ==, Compare is <, First / Last are Min / Max, FirstValue
    and LastValue are infinities (67-84). *)
Definition float_traits (desc via_cmp : bool) : traits (fkey e p) := {|
  t_lt := v_lt (ord desc (fv e p));
  t_ltn := v_lt (ord desc (fv e p));
  t_first := if desc then v_max (fv e p) else v_min (fv e p);
  t_last := if desc then v_min (fv e p) else v_max (fv e p);
  t_sort2 := sort2 via_cmp (v_lt (ord desc (fv e p))) (if desc then v_max (fv e p) else v_min (fv e p)) (if desc then v_min (fv e p) else v_max (fv e p));
  t_eq := fun a b => fv e p a =? fv e p b;
  t_firstv := if desc then fk (finf e p) else fk (fneg e p (finf e p));
  t_lastv := if desc then fk (fneg e p (finf e p)) else fk (finf e p);
  t_prev := fun x => fk (if desc then larger_sort_value e p (proj1_sig x) else smaller_sort_value e p (proj1_sig x));
  t_xor := fun a b => fk (Z.lxor (proj1_sig a) (proj1_sig b));
  t_kv := false;
  t_128 := false |}.
End FloatKey.
