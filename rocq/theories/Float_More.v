(** Comparisons, classification, integer and cross-format conversions. *)
From Coq Require Import ZArith Bool List Lia.
From Verif Require Import Word Word_Proofs Float_Spec Float_Model Float_Proofs Float_Conv Float_F64.
Local Open Scope Z_scope.

Lemma conv_trans f g h b r r' : fmt_ok f -> fmt_ok g -> is_pattern f b ->
  exact_conversion f g b r -> correct_conversion g h r r' -> correct_conversion f h b r'.
Proof.
  intros Of Og Hb (X1 & X2 & X3 & X4 & X5) (C1 & C2 & C3 & C4 & C5).
  split; [exact C1|]. split; [congruence|]. split; [auto|]. split; [auto|].
  intros L. destruct (X5 L) as (Y1 & Y2). rewrite <- (value_mag f g b r Of Og Hb X1 X2 Y2). auto.
Qed.

Lemma bf16_of_f16_correct b : is_pattern binary16 b -> correct_conversion binary16 bfloat16 b (bf16_of_f16 b).
Proof.
  intros Hb. pose proof (f32_from_f16_exact b Hb) as X. unfold bf16_of_f16.
  apply (conv_trans binary16 binary32 _ b (f32_from_f16 b) _ ok16 ok32 Hb X).
  apply bf16_from_f32_correct. apply X.
Qed.
Lemma f16_of_bf16_correct b : is_pattern bfloat16 b -> exists r, f16_of_bf16 b = Some r /\ correct_conversion bfloat16 binary16 b r.
Proof.
  intros Hb. pose proof (f32_from_bf16_exact b Hb) as X. unfold f16_of_bf16.
  destruct (f16_from_f32_correct (f32_from_bf16 b) (proj1 X)) as (r & E & C). exists r. split; [exact E|].
  exact (conv_trans bfloat16 binary32 _ b (f32_from_bf16 b) _ okb16 ok32 Hb X C).
Qed.

(** --- comparisons --- *)
Lemma value_bound f b : fmt_ok f -> is_pattern f b -> magnitude f b <= inf_mag f ->
  - mag_value f (inf_mag f) <= value f b <= mag_value f (inf_mag f) /\
  (magnitude f b < inf_mag f -> - mag_value f (inf_mag f) < value f b < mag_value f (inf_mag f)) /\
  (magnitude f b = inf_mag f -> value f b = if negative f b then - mag_value f (inf_mag f) else mag_value f (inf_mag f)).
Proof.
  intros O Hb Hm. destruct (pat_split f b O Hb) as (s & _ & _ & _ & Hr).
  pose proof (V_mono f O _ _ (proj1 Hr) Hm) as M. pose proof (V_nonneg f O _ (proj1 Hr)).
  unfold value. split; [destruct (negative f b); lia|]. split.
  - intros L. pose proof (V_mono_lt f O _ _ (proj1 Hr) L). destruct (negative f b); lia.
  - intros ->. reflexivity.
Qed.

Lemma value_order f g a b a' b' : fmt_ok f -> fmt_ok g -> is_pattern f a -> is_pattern f b ->
  exact_conversion f g a a' -> exact_conversion f g b b' ->
  magnitude f a <= inf_mag f -> magnitude f b <= inf_mag f ->
  magnitude g a' <= inf_mag g /\ magnitude g b' <= inf_mag g /\
  (value g a' ?= value g b') = (value f a ?= value f b).
Proof.
  intros Of Og Ha Hb (A1 & A2 & _ & A4 & A5) (B1 & B2 & _ & B4 & B5) La Lb.
  unfold is_inf in *.
  assert (La' : magnitude g a' <= inf_mag g) by (destruct (Z.eq_dec (magnitude f a) (inf_mag f)) as [I|I]; [rewrite (A4 I)|destruct (A5 ltac:(lia))]; lia).
  assert (Lb' : magnitude g b' <= inf_mag g) by (destruct (Z.eq_dec (magnitude f b) (inf_mag f)) as [I|I]; [rewrite (B4 I)|destruct (B5 ltac:(lia))]; lia).
  split; [exact La'|]. split; [exact Lb'|].
  destruct (value_bound f a Of Ha La) as (_ & P2 & P3). destruct (value_bound f b Of Hb Lb) as (_ & Q2 & Q3).
  destruct (value_bound g a' Og A1 La') as (_ & R2 & R3). destruct (value_bound g b' Og B1 Lb') as (_ & S2 & S3).
  assert (If : 0 < mag_value f (inf_mag f)).
  { pose proof (inf_pos f Of). pose proof (pm_pos f Of). rewrite <- (V_0 f Of). apply V_mono_lt; [exact Of|lia|lia]. }
  assert (Ig : 0 < mag_value g (inf_mag g)).
  { pose proof (inf_pos g Og). pose proof (pm_pos g Og). rewrite <- (V_0 g Og). apply V_mono_lt; [exact Og|lia|lia]. }
  destruct (Z.eq_dec (magnitude f a) (inf_mag f)) as [Ia|Ia]; destruct (Z.eq_dec (magnitude f b) (inf_mag f)) as [Ib|Ib].
  - rewrite (R3 (A4 Ia)), (S3 (B4 Ib)), (P3 Ia), (Q3 Ib), A2, B2.
    destruct (negative f a), (negative f b); rewrite ?Z.compare_refl; try reflexivity.
    + transitivity Lt; [|symmetry]; apply Z.compare_lt_iff; lia.
    + transitivity Gt; [|symmetry]; apply Z.compare_gt_iff; lia.
  - destruct (B5 ltac:(lia)) as (Y1 & Y2). specialize (S2 Y1). specialize (Q2 ltac:(lia)).
    rewrite (R3 (A4 Ia)), (P3 Ia), A2. destruct (negative f a).
    + transitivity Lt; [|symmetry]; apply Z.compare_lt_iff; lia.
    + transitivity Gt; [|symmetry]; apply Z.compare_gt_iff; lia.
  - destruct (A5 ltac:(lia)) as (Y1 & Y2). specialize (R2 Y1). specialize (P2 ltac:(lia)).
    rewrite (S3 (B4 Ib)), (Q3 Ib), B2. destruct (negative f b).
    + transitivity Gt; [|symmetry]; apply Z.compare_gt_iff; lia.
    + transitivity Lt; [|symmetry]; apply Z.compare_lt_iff; lia.
  - destruct (A5 ltac:(lia)) as (_ & ->). destruct (B5 ltac:(lia)) as (_ & ->). reflexivity.
Qed.

Lemma f32_nan_iff b : f32_nan b = true <-> is_nan binary32 b.
Proof. unfold f32_nan, is_nan. apply Z.ltb_lt. Qed.

Lemma nan_iff f g b r : exact_conversion f g b r -> (is_nan g r <-> is_nan f b).
Proof.
  intros (X1 & X2 & X3 & X4 & X5). unfold is_nan, is_inf in *. split; [|exact X3].
  intros H. destruct (Z.lt_trichotomy (magnitude f b) (inf_mag f)) as [L|[L|L]].
  - destruct (X5 L). lia.
  - rewrite (X4 L) in H. lia.
  - exact L.
Qed.

Lemma cmp_ok f conv : fmt_ok f -> (forall b, is_pattern f b -> exact_conversion f binary32 b (conv b)) ->
  forall a b, is_pattern f a -> is_pattern f b ->
  (f32_lt (conv a) (conv b) = true <-> float_lt f a b) /\ (f32_eq (conv a) (conv b) = true <-> float_eq f a b).
Proof.
  intros O HX a b Ha Hb. pose proof (HX a Ha) as Xa. pose proof (HX b Hb) as Xb.
  pose proof (nan_iff _ _ _ _ Xa) as Na. pose proof (nan_iff _ _ _ _ Xb) as Nb.
  unfold f32_lt, f32_eq, float_lt, float_eq.
  rewrite !andb_true_iff, !negb_true_iff. rewrite <- !not_true_iff_false, !f32_nan_iff, Na, Nb, Z.ltb_lt, Z.eqb_eq.
  assert (K : ~ is_nan f a -> ~ is_nan f b -> (value binary32 (conv a) ?= value binary32 (conv b)) = (value f a ?= value f b)).
  { intros A B. unfold is_nan in A, B. apply (value_order f binary32 a b); try assumption; try lia. apply ok32. }
  split; split.
  - intros ((A & B) & C). split; [exact A|]. split; [exact B|]. apply (proj1 (Z.compare_lt_iff _ _)). rewrite <- K by assumption. apply Z.compare_lt_iff. exact C.
  - intros (A & B & C). split; [split; assumption|]. apply (proj1 (Z.compare_lt_iff _ _)). rewrite K by assumption. apply Z.compare_lt_iff. exact C.
  - intros ((A & B) & C). split; [exact A|]. split; [exact B|]. apply (proj1 (Z.compare_eq_iff _ _)). rewrite <- K by assumption. apply Z.compare_eq_iff. exact C.
  - intros (A & B & C). split; [split; assumption|]. apply (proj1 (Z.compare_eq_iff _ _)). rewrite K by assumption. apply Z.compare_eq_iff. exact C.
Qed.

Lemma f16_cmp a b : is_pattern binary16 a -> is_pattern binary16 b ->
  (f16_lt a b = true <-> float_lt binary16 a b) /\ (f16_eq a b = true <-> float_eq binary16 a b).
Proof. apply (cmp_ok binary16 f32_from_f16 ok16 f32_from_f16_exact). Qed.
Lemma bf16_cmp a b : is_pattern bfloat16 a -> is_pattern bfloat16 b ->
  (bf16_lt a b = true <-> float_lt bfloat16 a b) /\ (bf16_eq a b = true <-> float_eq bfloat16 a b).
Proof. apply (cmp_ok bfloat16 f32_from_bf16 okb16 f32_from_bf16_exact). Qed.

(** --- classification --- *)
Lemma fmt_facts f : hwy_float f -> fmt_ok f /\ exponent_mask f = inf_mag f /\
  bit_not (fwidth f) (sign_mask f) = 2 ^ (ebits f + mbits f) - 1 /\
  wrap (fwidth f) (max_exponent_times2 f) = 2 * inf_mag f /\ sign_mask f = 2 ^ (ebits f + mbits f) /\
  2 ^ fwidth f = 2 * 2 ^ (ebits f + mbits f) /\ inf_mag f < 2 ^ (ebits f + mbits f).
Proof.
  intros [->|[->|[->| ->]]]; (split; [|vm_compute; repeat split; reflexivity]).
  apply ok16. apply okb16. apply ok32. apply ok64.
Qed.

Lemma classify_ok f b : hwy_float f -> is_pattern f b ->
  (scalar_is_nan f b = true <-> is_nan f b) /\
  (scalar_is_inf f b = true <-> is_inf f b) /\
  (scalar_is_finite f b = true <-> ~ is_nan f b /\ ~ is_inf f b) /\
  scalar_sign_bit f b = negative f b /\
  (is_pattern f (scalar_abs f b) /\ negative f (scalar_abs f b) = false /\ magnitude f (scalar_abs f b) = magnitude f b) /\
  (forall c, is_pattern f c ->
     is_pattern f (scalar_copy_sign f b c) /\ negative f (scalar_copy_sign f b c) = negative f c /\
     magnitude f (scalar_copy_sign f b c) = magnitude f b).
Proof.
  intros Hf Hb. destruct (fmt_facts f Hf) as (O & F1 & F2 & F3 & F4 & F5 & F6).
  set (w := ebits f + mbits f) in *.
  assert (W : 0 <= w) by (unfold w; destruct O as (?&?&?); lia).
  assert (A : forall c, Z.land c (bit_not (fwidth f) (sign_mask f)) = magnitude f c).
  { intros c. rewrite F2. apply land_ones'. exact W. }
  destruct (pat_split f b O Hb) as (s & Hs & E & Hn & Hm). fold w in E, Hm.
  assert (S : forall c, is_pattern f c -> Z.land c (sign_mask f) = if negative f c then 2 ^ w else 0).
  { intros c Hc. rewrite F4. rewrite land_bit by exact W.
    destruct (pat_split f c O Hc) as (s' & Hs' & E' & Hn' & Hm'). fold w in E', Hm'.
    replace (Z.testbit c w) with (negative f c); [reflexivity|]. rewrite Hn', E'.
    rewrite <- lor_shift_add by lia. rewrite Z.lor_spec, (testbit_small (magnitude f c) w w) by lia.
    rewrite Z.mul_pow2_bits by lia. rewrite Z.sub_diag, Z.bit0_odd. destruct Hs'; subst s'; reflexivity. }
  unfold scalar_is_nan, scalar_is_inf, scalar_is_finite, scalar_sign_bit, scalar_abs, scalar_copy_sign, is_nan, is_inf.
  rewrite F1, F3, A, !Z.ltb_lt, Z.eqb_eq, (S b Hb).
  split; [tauto|]. split.
  { rewrite Z.shiftl_mul_pow2 by lia. change (2 ^ 1) with 2. unfold wrap. rewrite F5, (Z.mul_comm b 2), Zmult_mod_distr_l.
    change (b mod 2 ^ w) with (magnitude f b). lia. }
  split; [lia|]. split; [destruct (negative f b); [|reflexivity]; destruct (Z.eqb_spec (2 ^ w) 0); [|reflexivity]; assert (0 < 2 ^ w) by (apply pow2_gt0; lia); lia|].
  assert (G : forall s', s' = 0 \/ s' = 1 -> is_pattern f (s' * 2 ^ w + magnitude f b) /\ negative f (s' * 2 ^ w + magnitude f b) = (s' =? 1) /\
              magnitude f (s' * 2 ^ w + magnitude f b) = magnitude f b).
  { intros s' Hs'. apply (pat_make f s' (magnitude f b) O Hs' Hm). }
  split; [pose proof (G 0 ltac:(lia)) as G0; rewrite Z.mul_0_l, Z.add_0_l in G0; exact G0|].
  intros c Hc. rewrite (S c Hc), Z.lor_comm.
  destruct (negative f c).
  - replace (2 ^ w) with (1 * 2 ^ w) by lia. rewrite lor_shift_add by lia. apply (G 1); lia.
  - rewrite Z.lor_0_l. pose proof (G 0 ltac:(lia)) as G0; rewrite Z.mul_0_l, Z.add_0_l in G0; exact G0.
Qed.

(** --- integers --- *)
Lemma f32_of_int_eq x : exists s c, f32_of_int x = s * 2 ^ 31 + c /\ (s = 0 \/ s = 1) /\ (s =? 1) = (x <? 0) /\
  0 <= c <= inf_mag binary32 /\ nearest_even binary32 (Z.abs x * 2 ^ 1074) c /\
  (Z.abs x < 2 ^ 24 -> mag_value binary32 c = Z.abs x * 2 ^ 1074).
Proof.
  unfold f32_of_int, f32_of_uint.
  assert (P : 0 <= Z.abs x * 2 ^ 1074) by (apply Z.mul_nonneg_nonneg; [lia|apply Z.lt_le_incl, pow2_gt0; lia]).
  pose proof (ieee_round_range binary32 ok32 _ P) as R. pose proof (ieee_round_nearest binary32 ok32 _ P) as N.
  set (c := ieee_round binary32 (Z.abs x * 2 ^ 1074)) in *.
  exists (if x <? 0 then 1 else 0), c. change (inf_mag binary32) with (255 * 2 ^ 23) in R.
  split; [|split; [destruct (x <? 0); lia|split; [destruct (x <? 0); reflexivity|split; [exact R|split; [exact N|]]]]].
  - replace (if x <? 0 then 2 ^ 31 else 0) with ((if x <? 0 then 1 else 0) * 2 ^ 31) by (destruct (x <? 0); reflexivity).
    apply lor_shift_add; lia.
  - intros L. unfold c. apply round_repr; [apply ok32|lia| |vm_compute; discriminate|apply V32_le_inf; lia].
    intros. change (mbits binary32) with 23. apply (log2_small _ 24); lia.
Qed.

Lemma int_conv g x r : fmt_ok g -> mag_value g (inf_mag g) <= mag_value binary32 (inf_mag binary32) ->
  (Z.abs x < 2 ^ 24 \/ mag_value g (inf_mag g) <= 2 ^ 24 * 2 ^ 1074) ->
  correct_conversion binary32 g (f32_of_int x) r -> correct_int_conversion g x r.
Proof.
  intros Og Hi Hx (C1 & C2 & _ & C4 & C5). destruct (f32_of_int_eq x) as (s & c & E & Hs & Hneg & Rc & N & X).
  destruct (pat_make binary32 s c ok32 Hs ltac:(change (inf_mag binary32) with (255 * 2 ^ 23) in Rc; change (ebits binary32 + mbits binary32) with 31; lia)) as (M1 & M2 & M3).
  change (ebits binary32 + mbits binary32) with 31 in *. rewrite <- E in *.
  unfold is_inf in C4. rewrite M2, M3 in *.
  split; [exact C1|]. split; [congruence|].
  assert (Nr : nearest_even g (mag_value binary32 c) (magnitude g r)).
  { destruct (Z.eq_dec c (inf_mag binary32)) as [I|I].
    - rewrite (C4 I), I. apply nearest_big; assumption.
    - apply C5. lia. }
  destruct (Z.lt_ge_cases (Z.abs x) (2 ^ 24)) as [L|L].
  - rewrite <- (X L). exact Nr.
  - destruct Hx as [Hx|Hx]; [lia|].
    assert (L2 : 2 ^ 24 * 2 ^ 1074 <= Z.abs x * 2 ^ 1074) by (apply Z.mul_le_mono_nonneg_r; [apply Z.lt_le_incl, pow2_gt0; lia|lia]).
    assert (Lc : 2 ^ 24 * 2 ^ 1074 <= mag_value binary32 c).
    { assert (Vz : mag_value binary32 0x4B800000 = 2 ^ 24 * 2 ^ 1074) by (vm_compute; reflexivity).
      rewrite <- Vz. apply (nearest_ge binary32 _ c _ ok32 N); [vm_compute; split; discriminate|rewrite Vz; exact L2]. }
    assert (magnitude g r = inf_mag g).
    { apply (nearest_unique g Og (mag_value binary32 c)); [exact Nr|]. apply nearest_big; [exact Og|lia]. }
    rewrite H. apply nearest_big; [exact Og|lia].
Qed.

Lemma f16_of_int_correct x : exists r, f16_of_int x = Some r /\ correct_int_conversion binary16 x r.
Proof.
  assert (P : is_pattern binary32 (f32_of_int x)).
  { destruct (f32_of_int_eq x) as (s & c & E & Hs & _ & Rc & _).
    rewrite E. change 31 with (ebits binary32 + mbits binary32). apply pat_make; [apply ok32|exact Hs|].
    change (inf_mag binary32) with (255 * 2 ^ 23) in Rc; change (ebits binary32 + mbits binary32) with 31; lia. }
  destruct (f16_from_f32_correct _ P) as (r & E & C). exists r. split; [exact E|].
  apply int_conv; [apply ok16|vm_compute; discriminate|right; vm_compute; discriminate|exact C].
Qed.

Lemma bf16_of_int_small x : Z.abs x < 2 ^ 24 -> correct_int_conversion bfloat16 x (bf16_of_int x).
Proof.
  intros L.
  assert (P : is_pattern binary32 (f32_of_int x)).
  { destruct (f32_of_int_eq x) as (s & c & E & Hs & _ & Rc & _).
    rewrite E. change 31 with (ebits binary32 + mbits binary32). apply pat_make; [apply ok32|exact Hs|].
    change (inf_mag binary32) with (255 * 2 ^ 23) in Rc; change (ebits binary32 + mbits binary32) with 31; lia. }
  apply int_conv; [apply okb16|vm_compute; discriminate|left; exact L|]. apply bf16_from_f32_correct. exact P.
Qed.

(** 2^30 + 2^22 + 1 is just above the midpoint of 2^30 and 2^30 + 2^23; the
    intermediate float loses the +1 and the tie then goes down. *)
Lemma bf16_of_int_bad : ~ correct_int_conversion bfloat16 (2 ^ 30 + 2 ^ 22 + 1) (bf16_of_int (2 ^ 30 + 2 ^ 22 + 1)).
Proof.
  intros (_ & _ & _ & N).
  specialize (N 20097 ltac:(vm_compute; split; discriminate) ltac:(vm_compute; discriminate)).
  revert N. vm_compute. intros [N|[N _]]; discriminate.
Qed.

(** --- the order vqsort sorts floats by is the order of their values --- *)
Definition signed_mag (f : fmt) (z : Z) : Z := if z <? 2 ^ (ebits f + mbits f) then z else - (z - 2 ^ (ebits f + mbits f)).
Lemma rank_order f a b : fmt_ok f -> is_pattern f a -> is_pattern f b -> ~ is_nan f a -> ~ is_nan f b ->
  (signed_mag f a < signed_mag f b <-> float_lt f a b).
Proof.
  intros O Ha Hb Na Nb. unfold float_lt.
  assert (G : forall c, is_pattern f c -> signed_mag f c = (if negative f c then - magnitude f c else magnitude f c) /\ 0 <= magnitude f c).
  { intros c Hc. destruct (pat_split f c O Hc) as (s & Hs & E & Hn & Hm). split; [|lia].
    unfold signed_mag. rewrite Hn. destruct Hs; subst s; cbn [Z.eqb Pos.eqb].
    - destruct (Z.ltb_spec c (2 ^ (ebits f + mbits f))); lia.
    - destruct (Z.ltb_spec c (2 ^ (ebits f + mbits f))); lia. }
  destruct (G a Ha) as (-> & Pa). destruct (G b Hb) as (-> & Pb). unfold value.
  set (x := magnitude f a) in *. set (y := magnitude f b) in *.
  pose proof (V_0 f O). pose proof (V_nonneg f O x Pa). pose proof (V_nonneg f O y Pb).
  assert (Z1 : x = 0 \/ 0 < mag_value f x) by (destruct (Z.eq_dec x 0); [lia|right; pose proof (V_mono_lt f O 0 x); lia]).
  assert (Z2 : y = 0 \/ 0 < mag_value f y) by (destruct (Z.eq_dec y 0); [lia|right; pose proof (V_mono_lt f O 0 y); lia]).
  assert (Zx : x = 0 -> mag_value f x = 0) by (intros ->; assumption).
  assert (Zy : y = 0 -> mag_value f y = 0) by (intros ->; assumption).
  destruct (Z.lt_trichotomy x y) as [C|[C|C]].
  - pose proof (V_mono_lt f O x y Pa C). destruct (negative f a), (negative f b); split; intros; try lia; (split; [assumption|split; [assumption|]]); lia.
  - rewrite C in *. destruct (negative f a), (negative f b); split; intros; try lia; (split; [assumption|split; [assumption|]]); lia.
  - pose proof (V_mono_lt f O y x Pb C). destruct (negative f a), (negative f b); split; intros; try lia; (split; [assumption|split; [assumption|]]); lia.
Qed.
