(** C92-C96: rounding of floats, and conversion of floats to integers and to narrower floats. [nan] and [junk] stand for results the code must not depend on (arithmetic on NaN or infinity; ConvertInRangeTo out of range). *)
From Coq Require Import ZArith Bool Lia.
From Verif Require Import Word Float_Spec Float_Model Float_Proofs Float_More Rounding_Model Rounding_Spec Rounding_Core Rounding_Proofs Rounding_Ops Rounding_Ops2 Rounding_Bits Rounding_Int.
Open Scope Z_scope.

(** ** C92 Round, Trunc, Ceil, Floor return the correctly rounded integer for every lane; infinities and NaN are kept; no cast is undefined *)
Theorem C92_round_emu128 : forall f nan v, float_type f -> is_pattern f v -> exists r, emu_round f nan v = Some r /\ rounds is_nearest f v r.
Proof. intros f nan v F Hv. apply emu_round_ok; auto. Qed.
Theorem C92_round_scalar : forall f nan v, float_type f -> is_pattern f v -> exists r, scalar_round f nan v = Some r /\ rounds is_nearest f v r.
Proof. intros f nan v F Hv. apply scalar_round_ok; auto. Qed.
Theorem C92_round_sse2 : forall f nan v, float_type f -> is_pattern f v -> rounds is_nearest f v (sse2_round f nan v).
Proof. intros f nan v F Hv. apply sse2_round_ok; auto. Qed.
Theorem C92_trunc_emu128 : forall f v, float_type f -> is_pattern f v -> exists r, emu_trunc f v = Some r /\ rounds is_trunc f v r.
Proof. intros f v F Hv. apply emu_trunc_ok; auto. Qed.
Theorem C92_trunc_scalar : forall f v, float_type f -> is_pattern f v -> exists r, scalar_trunc f v = Some r /\ rounds is_trunc f v r.
Proof. intros f v F Hv. apply scalar_trunc_ok; auto. Qed.
Theorem C92_trunc_sse2 : forall f junk v, float_type f -> is_pattern f v -> rounds is_trunc f v (sse2_trunc f junk v).
Proof. intros f junk v F Hv. apply sse2_trunc_ok; auto. Qed.
Theorem C92_ceil_emu128 : forall f v, float_type f -> is_pattern f v -> rounds is_ceil f v (emu_ceil f v).
Proof. intros f v F Hv. apply emu_ceil_ok; auto. Qed.
Theorem C92_ceil_sse2 : forall f nan junk v, float_type f -> is_pattern f v -> rounds is_ceil f v (sse2_ceil f nan junk v).
Proof. intros f nan junk v F Hv. apply sse2_ceil_ok; auto. Qed.
Theorem C92_floor_emu128 : forall f v, float_type f -> is_pattern f v -> rounds is_floor f v (emu_floor f v).
Proof. intros f v F Hv. apply emu_floor_ok; auto. Qed.
Theorem C92_floor_sse2 : forall f nan junk v, float_type f -> is_pattern f v -> rounds is_floor f v (sse2_floor f nan junk v).
Proof. intros f nan junk v F Hv. apply sse2_floor_ok; auto. Qed.
(** the rounded integer is unique, so implementations agree on every input, up to the sign of zero *)
Theorem C92_unique : forall v n n', (is_nearest v n -> is_nearest v n' -> n = n') /\ (is_trunc v n -> is_trunc v n' -> n = n') /\ (is_ceil v n -> is_ceil v n' -> n = n') /\ (is_floor v n -> is_floor v n' -> n = n').
Proof.
  intros v n n'. pose proof u_pos as U. unfold is_trunc, is_floor, is_ceil, is_nearest. rewrite one_unit. revert U. generalize (2 ^ 1074). intros u U. split; [|split; [|split; [nia | nia]]].
  - intros [H1 | [H1 E1]] [H2 | [H2 E2]]; try nia. assert (- 1 <= n - n' <= 1) by nia. destruct (Z.eq_dec n n'); auto. exfalso. assert (Z.even (n - n') = true) by (rewrite Z.even_sub, E1, E2; reflexivity). destruct (Z.eq_dec (n - n') 1) as [E|E]; [rewrite E in H0; discriminate|]. assert (EE : n - n' = -1) by lia. rewrite EE in H0. discriminate.
  - intros [H1 H2] [H3 H4]. destruct (Z_le_gt_dec 0 v); [specialize (H1 ltac:(lia)); specialize (H3 ltac:(lia)) | specialize (H2 ltac:(lia)); specialize (H4 ltac:(lia))]; nia.
Qed.
(** patterns of 0.49999997f, 8388607.5f (largest fraction), -2.5f; the first adds to 1.0 when 0.5 is added *)
Example C92_nonvacuous : emu_round binary32 (fun _ _ => 0) 0x3EFFFFFF = Some 0 /\ emu_round binary32 (fun _ _ => 0) 0x4AFFFFFF = Some 0x4B000000 /\ sse2_round binary32 (fun _ _ => 0) 0xC0200000 = 0xC0000000 /\
  emu_ceil binary32 0x4AFFFFFF = 0x4B000000 /\ emu_floor binary32 0xC0200000 = 0xC0400000 /\ float_type binary32 /\ is_pattern binary32 0x3EFFFFFF.
Proof. unfold float_type, is_pattern. split; [vm_compute; reflexivity|]. split; [vm_compute; reflexivity|]. split; [vm_compute; reflexivity|]. split; [vm_compute; reflexivity|]. split; [vm_compute; reflexivity|]. split; [auto|]. vm_compute. split; [discriminate | reflexivity]. Qed.
(** the sign of a zero result is not that of IEEE 754: Round(-0.25) and Floor(-0.0) are +0 and Ceil(+0.0) is -0 on EMU128, whereas SCALAR's Round returns -0 *)
Theorem C92_sign_of_zero_refuted : emu_round binary32 (fun _ _ => 0) 0xBE800000 = Some 0 /\ scalar_round binary32 (fun _ _ => 0) 0xBE800000 = Some (2 ^ 31) /\ sse2_round binary32 (fun _ _ => 0) 0xBE800000 = 0 /\
  emu_ceil binary32 0 = 2 ^ 31 /\ emu_floor binary32 (2 ^ 31) = 0 /\ emu_trunc binary32 (2 ^ 31) = Some 0 /\ scalar_trunc binary32 (2 ^ 31) = Some (2 ^ 31).
Proof. split; [vm_compute; reflexivity|]. split; [vm_compute; reflexivity|]. split; [vm_compute; reflexivity|]. split; [vm_compute; reflexivity|]. split; [vm_compute; reflexivity|]. split; vm_compute; reflexivity. Qed.

(** ** C93 ConvertTo, DemoteTo (double to 32 bits), PromoteTo (float to 64 bits): round toward zero and saturate; never an undefined cast, not even for NaN *)
Theorem C93_signed : forall f w v, float_type f -> 1 < w <= 64 -> is_pattern f v ->
  exists r, cast_f2i f true w v = Some r /\ (~ is_nan f v -> converts is_trunc f (- 2 ^ (w - 1)) (2 ^ (w - 1) - 1) v r).
Proof. intros f w v F Hw Hv. apply (cast_f2i_ok f F true w v Hv Hw). Qed.
Theorem C93_unsigned : forall f w v, float_type f -> 1 < w <= 64 -> is_pattern f v ->
  exists r, cast_f2i f false w v = Some r /\ (~ is_nan f v -> converts is_trunc f 0 (2 ^ w - 1) v r).
Proof. intros f w v F Hw Hv. apply (cast_f2i_ok f F false w v Hv Hw). Qed.
(** ...InRangeTo returns the same if the value is in range *)
Theorem C93_in_range_signed : forall f w v n, float_type f -> 1 < w <= 64 -> is_pattern f v -> finite f v -> is_trunc (value f v) n -> - 2 ^ (w - 1) <= n <= 2 ^ (w - 1) - 1 -> cast_in_range_f2i f true w v = Some n.
Proof. intros f w v n F Hw Hv Hf HT Hn. apply (cast_in_range_ok f F); auto. discriminate. Qed.
Theorem C93_in_range_unsigned : forall f w v n, float_type f -> 1 < w <= 64 -> is_pattern f v -> finite f v -> negative f v = false -> is_trunc (value f v) n -> n <= 2 ^ w - 1 -> cast_in_range_f2i f false w v = Some n.
Proof.
  intros f w v n F Hw Hv Hf Hs HT Hn. apply (cast_in_range_ok f F); auto. unfold lowest, highest. split; [|lia]. destruct (pat_mk f F v Hv) as [_ Hm]. destruct (trunc_sign _ _ HT) as [_ T]. apply T. rewrite value_sg, Hs. apply V_nonneg; [apply ft_ok; auto | lia].
Qed.
(** 3e9f to int32 and uint32, -1.5f to uint32, -2^31 and infinity to int32 *)
Example C93_nonvacuous : cast_f2i binary32 true 32 0x4F32D05E = Some (2 ^ 31 - 1) /\ cast_f2i binary32 false 32 0x4F32D05E = Some 3000000000 /\ cast_f2i binary32 false 32 0xBFC00000 = Some 0 /\
  cast_f2i binary32 true 32 0xCF000000 = Some (- 2 ^ 31) /\ cast_f2i binary32 true 64 0x7F800000 = Some (2 ^ 63 - 1) /\ ~ is_nan binary32 0x7F800000.
Proof. split; [vm_compute; reflexivity|]. split; [vm_compute; reflexivity|]. split; [vm_compute; reflexivity|]. split; [vm_compute; reflexivity|]. split; [vm_compute; reflexivity|]. vm_compute. discriminate. Qed.

(** ** C94 NearestInt and DemoteToNearestInt: the nearest integer (ties to even), saturated. Missing: NearestInt of exactly 2^31 (float) or 2^63 (double), and DemoteToNearestInt of values strictly between -2147483647.5 and -2147483647 *)
Theorem C94_nearest_int_partial : forall f nan v w, float_type f -> w = fwidth f -> is_pattern f v -> ~ is_nan f v -> (finite f v -> value f v <> 2 ^ (w - 1) * unit) ->
  exists r, nearest_int f nan v = Some r /\ converts is_nearest f (- 2 ^ (w - 1)) (2 ^ (w - 1) - 1) v r.
Proof. intros f nan v w F -> Hv Hn Hx. apply (nearest_int_ok f F); auto. Qed.
Theorem C94_demote_nearest_partial : forall nan v, is_pattern binary64 v -> ~ is_nan binary64 v -> (finite binary64 v -> ~ (- (2 ^ 32 - 1) * unit < 2 * value binary64 v /\ value binary64 v < - (2 ^ 31 - 1) * unit)) ->
  exists r, demote_to_nearest_int binary64 nan v = Some r /\ converts is_nearest binary64 (- 2 ^ 31) (2 ^ 31 - 1) v r.
Proof. intros nan v Hv Hn Hx. apply demote_nearest_ok; auto. Qed.
(** NearestInt casts 2147483648.0f (resp. 2^63) to int32_t (int64_t), which is undefined behavior *)
Theorem C94_nearest_int_refuted : (value binary32 0x4F000000 = 2 ^ 31 * unit /\ forall nan, nearest_int binary32 nan 0x4F000000 = None) /\ (value binary64 0x43E0000000000000 = 2 ^ 63 * unit /\ forall nan, nearest_int binary64 nan 0x43E0000000000000 = None).
Proof. split; (split; [vm_compute; reflexivity | intros nan; vm_compute; reflexivity]). Qed.
(** DemoteToNearestInt(-2147483647.25) returns -2147483648, whereas DemoteTo(d, Round(v)) returns -2147483647 *)
Theorem C94_demote_nearest_refuted : forall nan, 4 * value binary64 0xC1DFFFFFFFD00000 = - (4 * 2147483647 + 1) * unit /\ demote_to_nearest_int binary64 nan 0xC1DFFFFFFFD00000 = Some (-2147483648) /\
  (exists r, emu_round binary64 nan 0xC1DFFFFFFFD00000 = Some r /\ cast_f2i binary64 true 32 r = Some (-2147483647)) /\ ~ converts is_nearest binary64 (- 2 ^ 31) (2 ^ 31 - 1) 0xC1DFFFFFFFD00000 (-2147483648).
Proof.
  intros nan. split; [vm_compute; reflexivity|]. split; [vm_compute; reflexivity|]. split; [exists 0xC1DFFFFFFFC00000; split; [vm_compute; reflexivity | vm_compute; reflexivity]|]. intros [_ H]. destruct (H ltac:(vm_compute; reflexivity)) as (n & N & E). assert (n = -2147483647).
  { destruct (C92_unique (value binary64 0xC1DFFFFFFFD00000) n (-2147483647)) as [U _]. apply U; auto. left. vm_compute. reflexivity. } subst n. vm_compute in E. discriminate.
Qed.
(** equivalence to DemoteTo(d, Round(v)) elsewhere *)
Theorem C94_demote_of_round : forall nan v, is_pattern binary64 v -> ~ is_nan binary64 v -> exists r i, emu_round binary64 nan v = Some r /\ cast_f2i binary64 true 32 r = Some i /\ converts is_nearest binary64 (- 2 ^ 31) (2 ^ 31 - 1) v i.
Proof.
  intros nan v Hv Hn. assert (F : float_type binary64) by (right; reflexivity). destruct (C92_round_emu128 binary64 nan v F Hv) as (r & E1 & R1 & R2 & R3 & R4). destruct (C93_signed binary64 32 r F ltac:(lia) R1) as (i & E2 & C). exists r, i. split; auto. split; auto.
  unfold is_nan, is_inf, finite, converts in *. split.
  - intros Hi. rewrite (R3 Hi) in C. destruct (C ltac:(lia)) as [C1 _]. apply C1. exact Hi.
  - intros Hf. destruct (R4 Hf) as (Fr & n & Ev & N). destruct (C ltac:(lia)) as [_ C2]. destruct (C2 Fr) as (n' & T & Ei). exists n. split; auto. rewrite Ei. f_equal. rewrite Ev in T. destruct (exact_ok n) as (_ & _ & K & _). destruct (C92_unique (n * unit) n' n) as (_ & U & _). auto.
Qed.
Example C94_nonvacuous : nearest_int binary32 (fun _ _ => 0) 0x40200000 = Some 2 /\ nearest_int binary32 (fun _ _ => 0) 0xCF000000 = Some (- 2 ^ 31) /\ demote_to_nearest_int binary64 (fun _ _ => 0) 0x41DFFFFFFFA00000 = Some 2147483646 /\
  value binary32 0xCF000000 <> 2 ^ 31 * unit.
Proof. split; [vm_compute; reflexivity|]. split; [vm_compute; reflexivity|]. split; [vm_compute; reflexivity|]. vm_compute. discriminate. Qed.

(** ** C95 CeilInt and FloorInt: rounded up resp. down, then saturated; SSE2 version relies on ConvertTo as specified in C93 *)
Theorem C95_ceil_int_generic : forall f v w, float_type f -> w = fwidth f -> is_pattern f v -> ~ is_nan f v -> exists i, generic_ceil_int f v = Some i /\ converts is_ceil f (- 2 ^ (w - 1)) (2 ^ (w - 1) - 1) v i.
Proof.
  intros f v w F -> Hv Hn. destruct (C92_ceil_emu128 f v F Hv) as (R1 & R2 & R3 & R4). destruct (C93_signed f (wd f) (emu_ceil f v) F ltac:(destruct F as [-> | ->]; vm_compute; (split; [reflexivity | discriminate])) R1) as (i & E2 & C). exists i. split; auto.
  unfold is_nan, is_inf, finite, converts in *. split.
  - intros Hi. rewrite (R3 Hi) in C. destruct (C ltac:(lia)) as [C1 _]. apply C1. exact Hi.
  - intros Hf. destruct (R4 Hf) as (Fr & n & Ev & N). destruct (C ltac:(lia)) as [_ C2]. destruct (C2 Fr) as (n' & T & Ei). exists n. split; auto. rewrite Ei. unfold wd. f_equal. rewrite Ev in T. destruct (exact_ok n) as (_ & _ & K & _). destruct (C92_unique (n * unit) n' n) as (_ & U & _). auto.
Qed.
Theorem C95_floor_int_generic : forall f v w, float_type f -> w = fwidth f -> is_pattern f v -> ~ is_nan f v -> exists i, generic_floor_int f v = Some i /\ converts is_floor f (- 2 ^ (w - 1)) (2 ^ (w - 1) - 1) v i.
Proof.
  intros f v w F -> Hv Hn. destruct (C92_floor_emu128 f v F Hv) as (R1 & R2 & R3 & R4). destruct (C93_signed f (wd f) (emu_floor f v) F ltac:(destruct F as [-> | ->]; vm_compute; (split; [reflexivity | discriminate])) R1) as (i & E2 & C). exists i. split; auto.
  unfold is_nan, is_inf, finite, converts in *. split.
  - intros Hi. rewrite (R3 Hi) in C. destruct (C ltac:(lia)) as [C1 _]. apply C1. exact Hi.
  - intros Hf. destruct (R4 Hf) as (Fr & n & Ev & N). destruct (C ltac:(lia)) as [_ C2]. destruct (C2 Fr) as (n' & T & Ei). exists n. split; auto. rewrite Ei. unfold wd. f_equal. rewrite Ev in T. destruct (exact_ok n) as (_ & _ & K & _). destruct (C92_unique (n * unit) n' n) as (_ & U & _). auto.
Qed.
Theorem C95_ceil_int_sse2 : forall f conv v w, float_type f -> w = fwidth f -> is_pattern f v -> ~ is_nan f v -> converts is_trunc f (- 2 ^ (w - 1)) (2 ^ (w - 1) - 1) v (conv v) ->
  converts is_ceil f (- 2 ^ (w - 1)) (2 ^ (w - 1) - 1) v (sse2_ceil_int f conv v).
Proof. intros f conv v w F -> Hv Hn HC. apply (sse2_ceil_int_ok f F); auto. Qed.
Theorem C95_floor_int_sse2 : forall f conv v w, float_type f -> w = fwidth f -> is_pattern f v -> ~ is_nan f v -> converts is_trunc f (- 2 ^ (w - 1)) (2 ^ (w - 1) - 1) v (conv v) ->
  converts is_floor f (- 2 ^ (w - 1)) (2 ^ (w - 1) - 1) v (sse2_floor_int f conv v).
Proof. intros f conv v w F -> Hv Hn HC. apply (sse2_floor_int_ok f F); auto. Qed.
(** 2.5f, -2.5f; a saturating conversion exists (C93), so the SSE2 hypotheses are met *)
Example C95_nonvacuous : generic_ceil_int binary32 0x40200000 = Some 3 /\ generic_floor_int binary32 0xC0200000 = Some (-3) /\ sse2_ceil_int binary32 (fun _ => 2) 0x40200000 = 3 /\ sse2_floor_int binary32 (fun _ => -2) 0xC0200000 = -3 /\
  exists conv, forall v, is_pattern binary32 v -> ~ is_nan binary32 v -> converts is_trunc binary32 (- 2 ^ 31) (2 ^ 31 - 1) v (conv v).
Proof.
  split; [vm_compute; reflexivity|]. split; [vm_compute; reflexivity|]. split; [vm_compute; reflexivity|]. split; [vm_compute; reflexivity|].
  exists (fun v => match cast_f2i binary32 true 32 v with Some r => r | None => 0 end). intros v Hv Hn. destruct (C93_signed binary32 32 v ltac:(left; reflexivity) ltac:(lia) Hv) as (r & -> & C). exact (C Hn).
Qed.

(** ** C96 DemoteTo from double to float: correctly rounded, and saturated to the largest finite float, also for infinities *)
Theorem C96_demote_f64_f32 : forall nan b, (forall b, is_nan binary64 b -> 0 < nan b < 2 ^ 23) -> is_pattern binary64 b -> narrows binary64 binary32 b (demote_f64_f32 nan b).
Proof. intros. apply demote_f64_f32_ok; auto. Qed.
(** 1e300, minus infinity, 0.1 *)
Example C96_nonvacuous : demote_f64_f32 (fun _ => 1) 0x7E37E43C8800759C = 0x7F7FFFFF /\ demote_f64_f32 (fun _ => 1) 0xFFF0000000000000 = 0xFF7FFFFF /\ demote_f64_f32 (fun _ => 1) 0x3FB999999999999A = 0x3DCCCCCD /\
  is_nan binary32 (demote_f64_f32 (fun _ => 1) 0x7FF8000000000000).
Proof. split; [vm_compute; reflexivity|]. split; [vm_compute; reflexivity|]. split; [vm_compute; reflexivity|]. vm_compute. reflexivity. Qed.
