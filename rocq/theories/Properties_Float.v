(** C33-C36, C49, C50: scalar floating-point conversions, comparisons and
    classification; and the order of float sort keys (C32). *)
From Coq Require Import ZArith Bool List.
From Verif Require Import Word Traits_Model VQSort_Model VQSort_Spec Float_Spec Float_Model Float_Proofs Float_Conv Float_F64 Float_More Float_Rank.
Local Open Scope Z_scope.

(** BF16FromF32 rounds correctly, for every float. *)
Theorem C33_bf16_from_f32 : forall b, is_pattern binary32 b ->
  correct_conversion binary32 bfloat16 b (bf16_from_f32 b).
Proof. exact bf16_from_f32_correct. Qed.
Print Assumptions C33_bf16_from_f32.

(** 1 + 2^-8 is a tie and goes to the even 1; one ulp more goes up; the largest
    finite float overflows; NaNs with small payload stay NaN. *)
Example C33_examples : map bf16_from_f32 (0x3F808000 :: 0x3F808001 :: 0x3F818000 :: 0x7F7FFFFF :: 0x7F800001 :: 0x80000001 :: nil)
  = 0x3F80 :: 0x3F81 :: 0x3F82 :: 0x7F80 :: 0x7FC0 :: 0x8000 :: nil.
Proof. vm_compute. reflexivity. Qed.

(** F16FromF32 never fails a debug assertion and rounds correctly, for every float. *)
Theorem C34_f16_from_f32 : forall b, is_pattern binary32 b ->
  exists r, f16_from_f32 b = Some r /\ correct_conversion binary32 binary16 b r.
Proof. exact f16_from_f32_correct. Qed.
Print Assumptions C34_f16_from_f32.

(** Smallest subnormal boundary (2^-25 ties to 0, just above goes to 2^-24),
    subnormal carry into normal, overflow threshold 65520, NaN. *)
Example C34_examples : map f16_from_f32 (0x33000000 :: 0x33000001 :: 0x387FE000 :: 0x477FEFFF :: 0x477FF000 :: 0xFF800001 :: nil)
  = Some 0 :: Some 1 :: Some 0x0400 :: Some 0x7BFF :: Some 0x7C00 :: Some 0xFFFF :: nil.
Proof. vm_compute. reflexivity. Qed.

(** F32FromF16 and F32FromBF16 are exact; converting back restores the bits of
    every non-NaN. *)
Theorem C35_f32_from_f16 : forall b, is_pattern binary16 b ->
  exact_conversion binary16 binary32 b (f32_from_f16 b) /\
  (~ is_nan binary16 b -> f16_from_f32 (f32_from_f16 b) = Some b).
Proof.
  intros b Hb. pose proof (f32_from_f16_exact b Hb) as X. split; [exact X|]. intros N.
  destruct (f16_from_f32_correct (f32_from_f16 b) (proj1 X)) as (r & E & C). rewrite E. f_equal.
  apply (round_trip binary16 binary32 b (f32_from_f16 b) r ok16 ok32 Hb); [|exact X|exact C].
  unfold is_nan in N. apply Z.nlt_ge. exact N.
Qed.
Print Assumptions C35_f32_from_f16.
Theorem C35_f32_from_bf16 : forall b, is_pattern bfloat16 b ->
  exact_conversion bfloat16 binary32 b (f32_from_bf16 b) /\
  (~ is_nan bfloat16 b -> bf16_from_f32 (f32_from_bf16 b) = b).
Proof.
  intros b Hb. pose proof (f32_from_bf16_exact b Hb) as X. split; [exact X|]. intros N.
  apply (round_trip bfloat16 binary32 b (f32_from_bf16 b) _ okb16 ok32 Hb); [|exact X|].
  - unfold is_nan in N. apply Z.nlt_ge. exact N.
  - apply bf16_from_f32_correct. exact (proj1 X).
Qed.
Print Assumptions C35_f32_from_bf16.
Example C35_examples : is_pattern binary16 0x83FF /\ ~ is_nan binary16 0x83FF /\ f32_from_f16 0x83FF = 0xB87FC000
  /\ is_pattern bfloat16 0x7F80 /\ ~ is_nan bfloat16 0x7F80 /\ f32_from_bf16 0x7F80 = 0x7F800000.
Proof. vm_compute. repeat split; discriminate || reflexivity. Qed.

(** F16FromF64 and BF16FromF64 round the double itself correctly (no double
    rounding through float), for every double and whichever NaN the hardware's
    double -> float conversion produces for a NaN. *)
Theorem C36_f16_from_f64 : forall nan, (forall b, is_nan binary64 b -> 0 < nan b < 2 ^ 23) ->
  forall b, is_pattern binary64 b ->
  exists r, f16_from_f64 nan b = Some r /\ correct_conversion binary64 binary16 b r.
Proof. intros nan Hn b. exact (f16_from_f64_correct nan b Hn). Qed.
Print Assumptions C36_f16_from_f64.
Theorem C36_bf16_from_f64 : forall nan, (forall b, is_nan binary64 b -> 0 < nan b < 2 ^ 23) ->
  forall b, is_pattern binary64 b ->
  correct_conversion binary64 bfloat16 b (bf16_from_f64 nan b).
Proof. intros nan Hn b. exact (bf16_from_f64_correct nan b Hn). Qed.
Print Assumptions C36_bf16_from_f64.
(** x86 keeps the top payload bits and sets the quiet bit; 1 + 2^-8 + 2^-52 would
    double-round to 1.0 through a plain float cast. *)
Example C36_examples : let nan b := Z.lor 0x400000 (Z.shiftr b 29 mod 2 ^ 22) in
  0 < nan 0x7FF0000000000001 < 2 ^ 23
  /\ bf16_from_f64 nan 0x3FF0100000000001 = 0x3F81 /\ bf16_from_f32 (f32_of_f64 nan 0x3FF0100000000001) = 0x3F80
  /\ f16_from_f64 nan 0x3FF0020000000001 = Some 0x3C01.
Proof. vm_compute. repeat split. Qed.

(** The representation determines the rounding: nearest-even is unique, so the
    theorems above fix the result of every non-NaN. *)
Theorem C36_nearest_unique : forall f v r r', hwy_float f -> nearest_even f v r -> nearest_even f v r' -> r = r'.
Proof. intros f v r r' Hf. apply nearest_unique. apply fmt_facts. exact Hf. Qed.
Print Assumptions C36_nearest_unique.

(** The comparison operators of float16_t and bfloat16_t agree with the values. *)
Theorem C49_compare_f16 : forall a b, is_pattern binary16 a -> is_pattern binary16 b ->
  (f16_lt a b = true <-> float_lt binary16 a b) /\ (f16_eq a b = true <-> float_eq binary16 a b).
Proof. exact f16_cmp. Qed.
Print Assumptions C49_compare_f16.
Theorem C49_compare_bf16 : forall a b, is_pattern bfloat16 a -> is_pattern bfloat16 b ->
  (bf16_lt a b = true <-> float_lt bfloat16 a b) /\ (bf16_eq a b = true <-> float_eq bfloat16 a b).
Proof. exact bf16_cmp. Qed.
Print Assumptions C49_compare_bf16.
Example C49_examples : map (fun '(a, b) => (f16_lt a b, f16_eq a b)) ((0x8000, 0) :: (0xFC00, 0xFBFF) :: (0x7C01, 0x7C01) :: (1, 2) :: nil)
  = (false, true) :: (true, false) :: (false, false) :: (true, false) :: nil.
Proof. vm_compute. reflexivity. Qed.

(** ScalarIsNaN, ScalarIsInf, ScalarIsFinite, ScalarSignBit, ScalarAbs and
    ScalarCopySign, for every bit pattern of every float type. *)
Theorem C49_classify : forall f b, hwy_float f -> is_pattern f b ->
  (scalar_is_nan f b = true <-> is_nan f b) /\
  (scalar_is_inf f b = true <-> is_inf f b) /\
  (scalar_is_finite f b = true <-> ~ is_nan f b /\ ~ is_inf f b) /\
  scalar_sign_bit f b = negative f b /\
  (is_pattern f (scalar_abs f b) /\ negative f (scalar_abs f b) = false /\ magnitude f (scalar_abs f b) = magnitude f b) /\
  (forall c, is_pattern f c ->
     is_pattern f (scalar_copy_sign f b c) /\ negative f (scalar_copy_sign f b c) = negative f c /\
     magnitude f (scalar_copy_sign f b c) = magnitude f b).
Proof. exact classify_ok. Qed.
Print Assumptions C49_classify.
Example C49_classify_example : hwy_float binary64 /\ is_pattern binary64 0xFFF0000000000000 /\ scalar_is_inf binary64 0xFFF0000000000000 = true.
Proof. split; [right; right; right; reflexivity|]. vm_compute. repeat split; discriminate. Qed.

(** ConvertScalarTo<float16_t>(integer) rounds correctly for every integer. *)
Theorem C50_f16_of_int : forall x, exists r, f16_of_int x = Some r /\ correct_int_conversion binary16 x r.
Proof. exact f16_of_int_correct. Qed.
Print Assumptions C50_f16_of_int.
(** ConvertScalarTo between float16_t and bfloat16_t rounds correctly. *)
Theorem C50_f16_of_bf16 : forall b, is_pattern bfloat16 b -> exists r, f16_of_bf16 b = Some r /\ correct_conversion bfloat16 binary16 b r.
Proof. exact f16_of_bf16_correct. Qed.
Print Assumptions C50_f16_of_bf16.
Theorem C50_bf16_of_f16 : forall b, is_pattern binary16 b -> correct_conversion binary16 bfloat16 b (bf16_of_f16 b).
Proof. exact bf16_of_f16_correct. Qed.
Print Assumptions C50_bf16_of_f16.
(** ConvertScalarTo<bfloat16_t>(integer) rounds correctly only below 2^24: the
    full statement (every integer) is refuted by the theorem that follows. *)
Theorem C50_bf16_of_int_partial : forall x, Z.abs x < 2 ^ 24 -> correct_int_conversion bfloat16 x (bf16_of_int x).
Proof. exact bf16_of_int_small. Qed.
Print Assumptions C50_bf16_of_int_partial.
Theorem C50_bf16_of_int_refuted : exists x, - 2 ^ 31 <= x < 2 ^ 31 /\ ~ correct_int_conversion bfloat16 x (bf16_of_int x).
Proof. exists (2 ^ 30 + 2 ^ 22 + 1). split; [vm_compute; split; discriminate || reflexivity|exact bf16_of_int_bad]. Qed.
Print Assumptions C50_bf16_of_int_refuted.
Example C50_examples : map f16_of_int (65519 :: 65520 :: -2049 :: nil) = Some 0x7BFF :: Some 0x7C00 :: Some 0xE800 :: nil
  /\ map bf16_of_int (257 :: -(2^24-1) :: nil) = 0x4380 :: 0xCB80 :: nil.
Proof. vm_compute. split; reflexivity. Qed.

(** The number by which the sorting theorems (C31, C32) order float keys is the
    order of the values. *)
Theorem C32_rank_order : forall e p (x y : key (FloatKey e p)), key_ok (FloatKey e p) ->
  (VQSort_Spec.value (FloatKey e p) x < VQSort_Spec.value (FloatKey e p) y <->
   float_lt {| ebits := Zpos e; mbits := Zpos p |} (proj1_sig x) (proj1_sig y)).
Proof. exact sort_rank_order. Qed.
Print Assumptions C32_rank_order.
Example C32_rank_order_example : key_ok (FloatKey 8 23) /\ float_lt binary32 0xFF800000 0x80000001 /\ float_lt binary32 0x80000001 1.
Proof. split; [right; left; reflexivity|]. vm_compute. repeat split; intros; discriminate. Qed.
