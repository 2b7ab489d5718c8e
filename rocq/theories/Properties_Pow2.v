(** Theorems C97-C99: MulByPow2, MulByFloorPow2, GetBiasedExponent, GetExponent. Model: Pow2_Model, spec: Pow2_Spec. *)
From Coq Require Import ZArith Bool Lia.
From Verif Require Import Word Word_Proofs Float_Spec Float_Model Float_Proofs Rounding_Model Rounding_Spec Rounding_Core Properties_Rounding Pow2_Spec Pow2_Model Pow2_Round Pow2_Lanes Pow2_Proofs Pow2_Exp.
Open Scope Z_scope.

(** ** C97 MulByPow2 is std::ldexp for every float and every exponent of the lane's integer type: one correct rounding, although the code multiplies three times; [Lmm], [Lss] depend on the target *)
Theorem C97_mul_by_pow2 : forall f Lmm Lss nan v exp, simd_float f -> lanes_ok f Lmm Lss -> (forall a b, is_pattern f (nan a b) /\ is_nan f (nan a b)) ->
  is_pattern f v -> - 2 ^ (fwidth f - 1) <= exp < 2 ^ (fwidth f - 1) -> is_ldexp f v exp (mul_by_pow2 f Lmm Lss nan v exp).
Proof. intros. apply mul_by_pow2_ldexp; auto. Qed.
(** ldexp is a function (up to the NaN), so targets agree *)
Theorem C97_targets_agree : forall f L1 L2 L3 L4 nan nan' v exp, simd_float f -> lanes_ok f L1 L2 -> lanes_ok f L3 L4 -> (forall a b, is_pattern f (nan a b) /\ is_nan f (nan a b)) -> (forall a b, is_pattern f (nan' a b) /\ is_nan f (nan' a b)) ->
  is_pattern f v -> ~ is_nan f v -> - 2 ^ (fwidth f - 1) <= exp < 2 ^ (fwidth f - 1) -> mul_by_pow2 f L1 L2 nan v exp = mul_by_pow2 f L3 L4 nan' v exp.
Proof.
  intros f L1 L2 L3 L4 nan nan' v exp SF H1 H2 N1 N2 Hv Hn He. destruct (C97_mul_by_pow2 f L1 L2 nan v exp SF H1 N1 Hv He) as (P1 & _ & P3 & P4). destruct (C97_mul_by_pow2 f L3 L4 nan' v exp SF H2 N2 Hv He) as (Q1 & _ & Q3 & Q4).
  destruct (Z_lt_le_dec (magnitude f v) (inf_mag f)) as [L|L].
  - destruct (P4 L) as [P5 P6]. destruct (Q4 L) as [Q5 Q6]. assert (E : magnitude f (mul_by_pow2 f L1 L2 nan v exp) = magnitude f (mul_by_pow2 f L3 L4 nan' v exp)). { unfold times_pow2 in *. apply (scaled_unique f (sf_ok f SF) (Z.max 0 (- exp)) ltac:(lia) _ _ _ P6 Q6). }
    rewrite (proj1 (pf_pat f SF _ P1)), (proj1 (pf_pat f SF _ Q1)), E, P5, Q5. reflexivity.
  - assert (I : is_inf f v) by (unfold is_inf, is_nan in *; lia). rewrite (P3 I), (Q3 I). reflexivity.
Qed.
(** the rounding relation determines the result *)
Theorem C97_ldexp_unique : forall f x e r r', simd_float f -> times_pow2 f x e r -> times_pow2 f x e r' -> r = r'.
Proof. intros f x e r r' SF. apply scaled_unique; [exact (sf_ok f SF) | lia]. Qed.
(** the targets: AVX2 float (32, 8), SSE2 double (16, 16), EMU128 float16 (16, 16) and double (64, 64), PPC double (64, 32); 3.0f * 2^-150 rounds to 2^-148 (tie to even), 2^-149 * 2^277 overflows, -2^-1074 * 2^2097 = -2^1023 *)
Example C97_nonvacuous : lanes_ok binary32 32 8 /\ lanes_ok binary64 16 16 /\ lanes_ok binary16 16 16 /\ lanes_ok binary64 64 64 /\ lanes_ok binary64 64 32 /\ lanes_ok binary32 16 8 /\ lanes_ok binary64 32 16 /\
  (let q := fun _ _ => 0x7FC00000 in let q64 := fun _ _ => 0x7FF8000000000000 in
   mul_by_pow2 binary32 32 8 q 0x40400000 (-150) = 2 /\ mul_by_pow2 binary32 16 8 q 1 277 = 0x7F800000 /\ mul_by_pow2 binary64 16 16 q64 0x8000000000000001 2097 = 0xFFE0000000000000).
Proof.
  assert (L : forall f Lmm Lss n m, fwidth f = Z.of_nat n * Lmm -> fwidth f = Z.of_nat m * Lss -> 3 * bias f < 2 ^ (Lmm - 1) -> 0 < Lmm -> ebits f <= Lss -> lanes_ok f Lmm Lss) by (intros f Lmm Lss n m A B; intros; split; [exists n; auto|]; split; [exists m; auto|]; auto).
  split; [apply (L _ _ _ 1%nat 4%nat); vm_compute; congruence|]. split; [apply (L _ _ _ 4%nat 4%nat); vm_compute; congruence|]. split; [apply (L _ _ _ 1%nat 1%nat); vm_compute; congruence|]. split; [apply (L _ _ _ 1%nat 1%nat); vm_compute; congruence|].
  split; [apply (L _ _ _ 1%nat 2%nat); vm_compute; congruence|]. split; [apply (L _ _ _ 2%nat 4%nat); vm_compute; congruence|]. split; [apply (L _ _ _ 2%nat 4%nat); vm_compute; congruence|].
  cbv zeta. split; [vm_compute; reflexivity|]. split; vm_compute; reflexivity.
Qed.

(** ** C98 MulByFloorPow2: v * 2^floor(b), also where floor(b) exceeds the integer type, and the documented special cases; [floor_int]: any FloorInt as in C95 *)
Theorem C98_mul_by_floor_pow2 : forall f Lmm Lss nan floor_int qnan v b, simd_float f -> lanes_ok f Lmm Lss -> (forall a b, is_pattern f (nan a b) /\ is_nan f (nan a b)) -> is_pattern f qnan -> is_nan f qnan ->
  (forall b, is_pattern f b -> ~ is_nan f b -> converts is_floor f (- 2 ^ (fwidth f - 1)) (2 ^ (fwidth f - 1) - 1) b (floor_int b)) -> is_pattern f v -> is_pattern f b ->
  is_floor_pow2 f v b (mul_by_floor_pow2 f Lmm Lss nan floor_int qnan v b).
Proof. intros. apply floor_pow2_ok; auto. Qed.
(** with the FloorInt of EMU128 and SCALAR *)
Theorem C98_emu128 : forall f nan qnan v b, float_type f -> (forall a b, is_pattern f (nan a b) /\ is_nan f (nan a b)) -> is_pattern f qnan -> is_nan f qnan -> is_pattern f v -> is_pattern f b ->
  is_floor_pow2 f v b (mul_by_floor_pow2 f (fwidth f) (fwidth f) nan (fun x => match generic_floor_int f x with Some i => i | None => 0 end) qnan v b).
Proof.
  intros f nan qnan v b F HN Q1 Q2 Hv Hb. apply C98_mul_by_floor_pow2; auto.
  - destruct F as [-> | ->]; unfold simd_float; auto.
  - destruct F as [-> | ->]; (split; [exists 1%nat; vm_compute; reflexivity|]; split; [exists 1%nat; vm_compute; reflexivity|]; vm_compute; repeat split; congruence).
  - intros c Hc Nc. destruct (C95_floor_int_generic f c (fwidth f) F eq_refl Hc Nc) as (i & -> & C). exact C.
Qed.
(** 3.0f with exponents 2.75f, -inf, 1e20f; 0.0f with +inf; inf with -inf *)
Example C98_nonvacuous : let fi := fun x => match generic_floor_int binary32 x with Some i => i | None => 0 end in let m := mul_by_floor_pow2 binary32 32 32 (fun _ _ => 0x7FC00000) fi 0x7FFFFFFF in
  m 0x40400000 0x40300000 = 0x41400000 /\ m 0xC0400000 0xFF800000 = 0x80000000 /\ m 0x40400000 0x60AD78EC = 0x7F800000 /\ m 0 0x7F800000 = 0x7FFFFFFF /\ m 0x7F800000 0xFF800000 = 0x7FFFFFFF.
Proof. cbv zeta. split; [vm_compute; reflexivity|]. split; [vm_compute; reflexivity|]. split; [vm_compute; reflexivity|]. split; vm_compute; reflexivity. Qed.

(** ** C99 GetExponent returns e with 2^e <= |v| < 2^(e+1) for every normal v, exactly; GetBiasedExponent the same plus the bias *)
Theorem C99_get_exponent : forall f v, simd_float f -> is_pattern f v -> is_pattern f (get_exponent f v) /\ magnitude f (get_exponent f v) < inf_mag f /\ exists e, value f (get_exponent f v) = e * unit /\ is_exponent f v e.
Proof. intros. apply get_exponent_ok; auto. Qed.
Theorem C99_get_biased_exponent : forall f v, simd_float f -> is_pattern f v -> is_exponent f v (get_biased_exponent f v - bias f).
Proof. intros. apply biased_ok; auto. Qed.
(** the documentation says floor(log2(x)); for subnormal x the result is not that: 2^-149 (float) yields -127 *)
Theorem C99_subnormal_refuted : exists v, is_pattern binary32 v /\ 0 < value binary32 v /\ value binary32 v = pow2_value (-149) /\ value binary32 (get_exponent binary32 v) = -127 * unit.
Proof. exists 1. split; [vm_compute; split; congruence|]. split; [vm_compute; reflexivity|]. split; vm_compute; reflexivity. Qed.
(** 10.0f; -0.75 (double); 1.0 (float16) *)
Example C99_nonvacuous : get_exponent binary32 0x41200000 = 0x40400000 /\ get_biased_exponent binary32 0x41200000 = 130 /\ get_exponent binary64 0xBFE8000000000000 = 0xBFF0000000000000 /\ get_exponent binary16 0x3C00 = 0 /\ is_exponent binary32 0x41200000 3.
Proof. split; [vm_compute; reflexivity|]. split; [vm_compute; reflexivity|]. split; [vm_compute; reflexivity|]. split; [vm_compute; reflexivity|]. pose proof (C99_get_biased_exponent binary32 0x41200000 ltac:(right; left; reflexivity) ltac:(vm_compute; split; congruence)) as H. exact H. Qed.
