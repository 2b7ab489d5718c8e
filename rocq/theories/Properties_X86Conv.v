(** C116, C117: conversions between integers and floating point on SSE2 to AVX2. Integers are bit patterns ([lane] w: w bits; [signed]: the signed number a pattern stands for,
    Shift_Spec), floats too (Float_Spec, Rounding_Spec). [nan], [nan32]: what arithmetic and CVTPD2PS return for operands that are not finite; arbitrary. *)
From Coq Require Import ZArith Bool Lia.
From Verif Require Import Word Float_Spec Float_Model Rounding_Spec Rounding_Model Pow2_Model Shift_Spec X86Conv_Model X86Conv_Int X86Conv_Odd X86Conv_Trunc X86Conv_Sat X86Conv_Wide.
Open Scope Z_scope.
Definition quiet (nan32 : Z -> Z) : Prop := forall b, is_nan binary64 b -> 0 < nan32 b < 2 ^ 23.
Definition k100 (z : Z) : Prop := Z.abs z <= 2 ^ 64.
Lemma rounded f z : float_type f -> k100 z -> correct_int_conversion f z (of_int f z).
Proof. intros F H. apply correct_of_int; [exact F|]. unfold k100 in H. assert (2 ^ 64 <= 2 ^ 100) by (apply Z.pow_le_mono_r; lia). lia. Qed.
Lemma signed_k w v : 0 < w <= 64 -> lane w v -> k100 (signed w v).
Proof.
  intros Hw H. unfold k100, signed, lane in *. assert (2 ^ w <= 2 ^ 64) by (apply Z.pow_le_mono_r; lia). assert (2 ^ w = 2 * 2 ^ (w - 1)) by (rewrite <- Z.pow_succ_r by lia; f_equal; lia). destruct (Z.ltb_spec v (2 ^ (w - 1))); lia.
Qed.
Lemma lane_k w v : 0 < w <= 64 -> lane w v -> k100 v.
Proof. intros Hw H. unfold k100, lane in *. assert (2 ^ w <= 2 ^ 64) by (apply Z.pow_le_mono_r; lia). lia. Qed.

(** ** C116: integers become the nearest float *)
Theorem C116_u32_f64 : forall nan v, lane 32 v -> correct_int_conversion binary64 v (u32_to_f64 nan v) /\ value binary64 (u32_to_f64 nan v) = v * unit.
Proof.
  intros nan v H. rewrite u32_to_f64_eq by assumption. split; [apply rounded; [right; reflexivity|apply (lane_k 32); [lia|exact H]]|]. apply (of_int_holds f64 F64). apply rep64i. unfold lane in H. lia.
Qed.
Theorem C116_u32_f32 : forall nan has_fma v, lane 32 v -> correct_int_conversion binary32 v (u32_to_f32 nan has_fma v).
Proof. intros nan fm v H. rewrite u32_to_f32_eq by assumption. apply rounded; [left; reflexivity|apply (lane_k 32); [lia|exact H]]. Qed.
Theorem C116_i64_f64 : forall nan v, lane 64 v -> correct_int_conversion binary64 (signed 64 v) (i64_to_f64 nan v).
Proof. intros nan v H. rewrite i64_to_f64_eq by assumption. apply rounded; [right; reflexivity|apply (signed_k 64); [lia|exact H]]. Qed.
Theorem C116_u64_f64 : forall nan has_fma v, lane 64 v -> correct_int_conversion binary64 v (u64_to_f64 nan has_fma v).
Proof. intros nan fm v H. rewrite u64_to_f64_eq by assumption. apply rounded; [right; reflexivity|apply (lane_k 64); [lia|exact H]]. Qed.
Theorem C116_i64_f32 : forall nan nan32 v, quiet nan32 -> lane 64 v -> correct_int_conversion binary32 (signed 64 v) (i64_to_f32 nan (f32_of_f64 nan32) v).
Proof. intros nan nan32 v Q H. now apply i64_to_f32_ok. Qed.
Theorem C116_u64_f32 : forall nan nan32 v, quiet nan32 -> lane 64 v -> correct_int_conversion binary32 v (u64_to_f32 nan (f32_of_f64 nan32) v).
Proof. intros nan nan32 v Q H. now apply u64_to_f32_ok. Qed.
Example C116_quiet : quiet (fun _ => 2 ^ 22). Proof. intros b _. lia. Qed.
(** rounding twice would err: the nearest double of 2^54 + 2^30 + 1 is the midpoint of two floats *)
Example C116_ex :
  let nan := fun _ _ : Z => 0x7fc00000 in let d := f32_of_f64 (fun _ => 2 ^ 22) in
  u32_to_f64 nan 0xFFFFFFFF = 0x41EFFFFFFFE00000 /\ u32_to_f32 nan false 0xFFFFFF7F = 0x4F7FFFFF /\ i64_to_f64 nan (2 ^ 64 - 1) = 0xBFF0000000000000 /\ u64_to_f64 nan true (2 ^ 64 - 1) = 0x43F0000000000000 /\
  u64_to_f32 nan d (2 ^ 54 + 2 ^ 30 + 1) = 0x5A800001 /\ d (u64_to_f64 nan true (2 ^ 54 + 2 ^ 30 + 1)) = 0x5A800000 /\ i64_to_f32 nan d (2 ^ 64 - (2 ^ 54 + 2 ^ 30 + 1)) = 0xDA800001.
Proof. vm_compute. repeat split; reflexivity. Qed.

(** ** C117: floats are truncated and saturate; results for NaN are not constrained *)
(** [r] is what a conversion of [v] to [w]-bit integers returns *)
Definition truncated (sgn : bool) (f : fmt) (w v r : Z) : Prop :=
  lane w r /\ (if sgn then converts is_trunc f (- 2 ^ (w - 1)) (2 ^ (w - 1) - 1) v (signed w r) else converts is_trunc f 0 (2 ^ w - 1) v r).
(** the variants for values in range *)
Definition truncated_in_range (sgn : bool) (f : fmt) (w v r : Z) : Prop :=
  forall n, is_trunc (value f v) n -> (if sgn then - 2 ^ (w - 1) <= n <= 2 ^ (w - 1) - 1 else 0 <= n <= 2 ^ w - 1) -> lane w r /\ (if sgn then signed w r else r) = n.
Definition number (f : fmt) (v : Z) : Prop := is_pattern f v /\ ~ is_nan f v.
Lemma u_lane f w v r : float_type f -> 0 < w <= 64 -> is_pattern f v -> ~ is_nan f v -> converts is_trunc f 0 (2 ^ w - 1) v r -> truncated false f w v r.
Proof.
  intros F Hw P N C. split; [|exact C]. destruct C as [I J]. assert (0 < 2 ^ w) by (apply Z.pow_pos_nonneg; lia). unfold lane. destruct (Z.eq_dec (magnitude f v) (inf_mag f)) as [E|E].
  - specialize (I E). destruct (negative f v); lia.
  - destruct (J ltac:(unfold finite, is_nan in *; lia)) as (n & _ & ->). unfold clamp. destruct (Z.ltb_spec n 0), (Z.ltb_spec (2 ^ w - 1) n); lia.
Qed.
(** ConvertTo float to int32_t, double to int64_t (and GCC's evaluation of constants), DemoteTo double to int32_t *)
Theorem C117_f32_i32 : forall v, number binary32 v -> truncated true binary32 32 v (to_signed binary32 32 v).
Proof. intros v [P N]. apply to_signed_ok; [left; reflexivity|exact P|exact N|lia]. Qed.
Theorem C117_f64_i64 : forall v, number binary64 v -> truncated true binary64 64 v (to_signed binary64 64 v).
Proof. intros v [P N]. apply to_signed_ok; [right; reflexivity|exact P|exact N|lia]. Qed.
Theorem C117_constants : forall f w v, float_type f -> is_pattern f v -> 1 < w <= 64 -> cvtt_constant f w v = cvtt f w v.
Proof. intros. now apply cvtt_constant_eq. Qed.
Theorem C117_f64_i32 : forall v, number binary64 v -> truncated true binary64 32 v (f64_to_i32 v).
Proof. intros v [P N]. now apply f64_to_i32_ok. Qed.
(** to uint32_t *)
Theorem C117_f64_u32 : forall nan v, number binary64 v -> truncated false binary64 32 v (f64_to_u32 nan v).
Proof. intros nan v [P N]. apply u_lane; [right; reflexivity|lia|exact P|exact N|]. now apply f64_to_u32_ok. Qed.
Theorem C117_f64_u32_in_range : forall nan v, is_pattern binary64 v -> finite binary64 v -> truncated_in_range false binary64 32 v (f64_to_u32_in_range nan v).
Proof. intros nan v P Fv n I B. rewrite (f64_to_u32_in_range_ok nan v n P Fv I B). split; [unfold lane; lia|reflexivity]. Qed.
Theorem C117_f32_u32 : forall v, number binary32 v -> truncated false binary32 32 v (f32_to_u32 v).
Proof. intros v [P N]. apply u_lane; [left; reflexivity|lia|exact P|exact N|]. now apply f32_to_u32_ok. Qed.
Theorem C117_f32_u32_in_range : forall v, is_pattern binary32 v -> finite binary32 v -> truncated_in_range false binary32 32 v (f32_to_u32_in_range v).
Proof. intros v P Fv n I B. rewrite (f32_to_u32_in_range_ok v n P Fv I B). split; [unfold lane; lia|reflexivity]. Qed.
(** double to 64-bit integers without a 64-bit conversion instruction *)
Theorem C117_f64_i64_wide : forall v, number binary64 v -> truncated true binary64 64 v (f64_to_i64_wide v).
Proof. intros v [P N]. now apply f64_to_i64_wide_ok. Qed.
Theorem C117_f64_i64_wide_in_range : forall v, is_pattern binary64 v -> finite binary64 v -> truncated_in_range true binary64 64 v (f64_to_i64_wide_in_range v).
Proof. intros v P Fv n I B. now apply f64_to_i64_wide_in_range_ok. Qed.
Theorem C117_f64_u64 : forall v, number binary64 v -> truncated false binary64 64 v (f64_to_u64 v).
Proof. intros v [P N]. apply u_lane; [right; reflexivity|lia|exact P|exact N|]. now apply f64_to_u64_ok. Qed.
Theorem C117_f64_u64_in_range : forall v, is_pattern binary64 v -> finite binary64 v -> truncated_in_range false binary64 64 v (f64_to_u64_in_range v).
Proof. intros v P Fv n I B. rewrite (f64_to_u64_in_range_ok v n P I B). split; [unfold lane; lia|reflexivity]. Qed.
(** PromoteTo float to 64-bit integers *)
Theorem C117_f32_i64 : forall v, number binary32 v -> truncated true binary32 64 v (f32_to_i64 v).
Proof. intros v [P N]. now apply f32_to_i64_ok. Qed.
Theorem C117_f32_i64_in_range : forall v, is_pattern binary32 v -> finite binary32 v -> truncated_in_range true binary32 64 v (f32_to_ui64_in_range true v).
Proof. intros v P Fv n I B. now apply f32_to_i64_in_range_ok. Qed.
Theorem C117_f32_u64 : forall v, number binary32 v -> truncated false binary32 64 v (f32_to_u64 v).
Proof. intros v [P N]. apply u_lane; [left; reflexivity|lia|exact P|exact N|]. now apply f32_to_u64_ok. Qed.
Theorem C117_f32_u64_in_range : forall v, is_pattern binary32 v -> finite binary32 v -> truncated_in_range false binary32 64 v (f32_to_ui64_in_range false v).
Proof. intros v P Fv n I B. rewrite (f32_to_u64_in_range_ok v n P Fv I B). split; [unfold lane; lia|reflexivity]. Qed.
(** 3.0e9f, -3.0e9f, infinities, -0.5f, 1.0e19, -1.0e19, 2^63 *)
Example C117_ex :
  let nan := fun _ _ : Z => 0x7ff8000000000000 in
  number binary32 0x4F32D05E /\ finite binary32 0xBF000000 /\
  f32_to_u32 0x4F32D05E = 3000000000 /\ f32_to_u32 0xCF32D05E = 0 /\ f32_to_u32 0x7F800000 = 2 ^ 32 - 1 /\ f32_to_u32_in_range 0xBF000000 = 0 /\
  to_signed binary32 32 0x4F32D05E = 2 ^ 31 - 1 /\ to_signed binary32 32 0xCF32D05E = 2 ^ 31 /\ f64_to_i32 0xC3E158E460913D00 = 2 ^ 31 /\ f64_to_u32 nan 0x41EFFFFFFFF00000 = 2 ^ 32 - 1 /\
  f64_to_u64 0x43E158E460913D00 = 10000000000000000000 /\ f64_to_i64_wide 0x43E158E460913D00 = 2 ^ 63 - 1 /\ f64_to_i64_wide 0xC3E158E460913D00 = 2 ^ 63 /\ f64_to_i64_wide 0xC004000000000000 = 2 ^ 64 - 2 /\
  f32_to_i64 0x5F000000 = 2 ^ 63 - 1 /\ f32_to_i64 0xDF000000 = 2 ^ 63 /\ f32_to_u64 0x5F000000 = 2 ^ 63 /\ f32_to_u64 0x5F800000 = 2 ^ 64 - 1 /\ f32_to_ui64_in_range true 0xDF000000 = 2 ^ 63 /\ f32_to_i64 0xCF32D05E = 2 ^ 64 - 3000000000.
Proof. unfold number, is_pattern, is_nan, finite. vm_compute. repeat split; try discriminate; try reflexivity. Qed.
