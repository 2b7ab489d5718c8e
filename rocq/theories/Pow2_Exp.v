(** MulByFloorPow2, GetBiasedExponent, GetExponent. *)
From Coq Require Import ZArith Bool Lia.
From Verif Require Import Word Word_Proofs Float_Spec Float_Model Float_Proofs Float_Conv Float_F64 Float_More Rounding_Model Rounding_Spec Pow2_Spec Pow2_Model Pow2_Round Pow2_Lanes Pow2_Proofs.
Open Scope Z_scope.
Arguments Z.pow : simpl never.
Arguments Z.mul : simpl never.
Section S.
Context (f : fmt) (SF : simd_float f).
Notation B := (bias f).
Notation M := (mbits f).
Notation V := (mag_value f).
Notation I := (inf_mag f).
Let O : fmt_ok f := sf_ok f SF.
Notation lo := (- 2 ^ (fwidth f - 1)).
Notation hi := (2 ^ (fwidth f - 1) - 1).
Lemma lohi : 8 * B <= hi /\ lo <= - 8 * B /\ in_s (fwidth f) lo /\ in_s (fwidth f) hi.
Proof. destruct (sf_num f SF) as (_ & N1 & _ & _ & N8 & _). unfold wd in N8. unfold in_s. lia. Qed.
Lemma pow2_big x e r : 0 < x < I -> 3 * B <= e -> times_pow2 f x e r -> r = I.
Proof.
  intros Hx He H. destruct (sf_num f SF) as (N0 & N1 & N2 & HM & _ & _ & _ & _ & ES & _). pose proof O as (O1 & O2 & S0). unfold times_pow2 in H. rewrite (Z.max_r 0 e), (Z.max_l 0 (- e)) in H by lia. rewrite scaled_0 in H.
  apply (nearest_unique f O _ _ _ H). apply nearest_big; auto. rewrite (V_inf f SF). pose proof (V_lower f SF x ltac:(lia)) as VL. replace (1075 + B) with (s0 f + (B + B + M)) by lia. rewrite Z.pow_add_r by lia.
  assert (P1 : 2 ^ (B + B + M) <= 2 ^ e) by (apply Z.pow_le_mono_r; lia). assert (P2 : 0 < 2 ^ s0 f) by (apply pow2_gt0; lia). assert (P3 : 0 < 2 ^ (B + B + M)) by (apply pow2_gt0; lia). clear - VL P1 P2 P3. apply Z.mul_le_mono_nonneg; lia.
Qed.
Lemma pow2_tiny x e r : 0 <= x < I -> e <= 3 - 3 * B -> times_pow2 f x e r -> r = 0.
Proof.
  intros Hx He H. destruct (sf_num f SF) as (N0 & N1 & N2 & HM & _ & E & _ & _ & ES & _). pose proof O as (O1 & O2 & S0). assert (V0 : 0 <= V x) by (apply V_nonneg; auto; lia).
  assert (PM : 0 < 2 ^ M) by (apply pow2_gt0; lia). assert (EF : x / 2 ^ M < 2 ^ ebits f - 1). { unfold inf_mag in Hx. apply Z.div_lt_upper_bound; lia. }
  unfold times_pow2 in H. rewrite (Z.max_l 0 e), (Z.max_r 0 (- e)) in H by lia. change (2 ^ 0) with 1 in H. rewrite Z.mul_1_r in H. apply (scaled_unique f O (- e) ltac:(lia) _ _ _ H). apply scaled_tiny; auto; [lia|].
  pose proof (V_upper f SF x ltac:(lia)) as VU. assert (Q : 0 <= x / 2 ^ M) by (apply Z.div_pos; lia). assert (PL : 2 ^ (1 + (1075 + Z.max 1 (x / 2 ^ M) - B)) <= 2 ^ (s0 f + - e)) by (apply Z.pow_le_mono_r; lia). rewrite Z.pow_add_r in PL by lia. change (2 ^ 1) with 2 in PL. lia.
Qed.
(** saturating the exponent does not change the result *)
Lemma clamp_pow2 x n r : 0 <= x < I -> times_pow2 f x (clamp lo hi n) r -> times_pow2 f x n r.
Proof.
  intros Hx. pose proof lohi as (H1 & H2 & _). destruct (sf_num f SF) as (N0 & N1 & _). unfold clamp. destruct (Z.ltb_spec n lo); [|destruct (Z.ltb_spec hi n); auto].
  - apply under_case; auto; lia.
  - apply over_case; auto; lia.
Qed.
Context (Lmm Lss : Z) (HL : lanes_ok f Lmm Lss).
Lemma floor_pow2_ok nan floor_int qnan v b : (forall a b, is_pattern f (nan a b) /\ is_nan f (nan a b)) -> is_pattern f qnan -> is_nan f qnan ->
  (forall b, is_pattern f b -> ~ is_nan f b -> converts is_floor f lo hi b (floor_int b)) -> is_pattern f v -> is_pattern f b ->
  is_floor_pow2 f v b (mul_by_floor_pow2 f Lmm Lss nan floor_int qnan v b).
Proof.
  intros HN Hq1 Hq2 HF Hv Hb. pose proof (pf_inf f SF) as PI. pose proof lohi as (L1 & L2 & L3 & L4). destruct (sf_num f SF) as (N0 & N1 & _).
  destruct (classify_ok f b (sf_hwy f SF) Hb) as (CN & CI & _ & CS & _). destruct (classify_ok f v (sf_hwy f SF) Hv) as (_ & _ & _ & _ & (A1 & A2 & A3) & _). destruct (pf_pat f SF v Hv) as [_ Rv].
  unfold mul_by_floor_pow2. destruct (scalar_is_nan f b) eqn:EN.
  { assert (NB : is_nan f b) by (apply CN; reflexivity). cbn [orb]. unfold is_floor_pow2. split; [exact Hq1|]. split; [auto|]. unfold is_nan, is_inf in *. split; [lia|]. split; lia. }
  assert (NB : ~ is_nan f b) by (intros K; apply CN in K; discriminate). cbn [orb]. specialize (HF b Hb NB). destruct HF as [HF1 HF2].
  destruct (scalar_is_inf f b) eqn:EI.
  - assert (IB : is_inf f b) by (apply CI; reflexivity). specialize (HF1 IB). rewrite andb_true_r. rewrite CS.
    assert (FE : feq f (scalar_abs f v) (if negative f b then I else 0) = (magnitude f v =? if negative f b then I else 0)).
    { unfold feq, not_nan. rewrite A3. set (w := if negative f b then I else 0). assert (W : 0 <= w <= I) by (unfold w; destruct (negative f b); lia).
      assert (K : magnitude f w = w /\ negative f w = false). { unfold magnitude, negative. split; [apply Z.mod_small; lia | apply Z.leb_gt; lia]. } destruct K as [K1 K2]. rewrite K1. unfold value. rewrite A2, A3, K1, K2.
      destruct (Z.leb_spec w I); [|lia]. destruct (Z.leb_spec (magnitude f v) I); cbn [andb].
      - destruct (Z.eqb_spec (magnitude f v) w) as [->|Nw]; [apply Z.eqb_refl|]. apply Z.eqb_neq. intros Q. apply Nw. apply (V_inj f O); auto; lia.
      - symmetry. apply Z.eqb_neq. lia. }
    rewrite FE. clear FE. destruct (Z.eqb_spec (magnitude f v) (if negative f b then I else 0)) as [Es|Es].
    + unfold is_floor_pow2. split; [exact Hq1|]. split; [auto|]. unfold is_inf in IB. split; [intros _ Nb; rewrite Nb in Es; split; [auto | lia]|]. split; [intros _ Nb; rewrite Nb in Es; split; [auto | lia]|]. lia.
    + assert (Sf : in_s (fwidth f) (floor_int b)) by (rewrite HF1; destruct (negative f b); auto).
      destruct (mul_by_pow2_ldexp f SF Lmm Lss HL nan v (floor_int b) HN Hv Sf) as (R1 & R2 & R3 & R4). set (r := mul_by_pow2 f Lmm Lss nan v (floor_int b)) in *. clearbody r.
      unfold is_floor_pow2. split; [exact R1|]. split; [intros [K|K]; [auto | contradiction]|]. unfold is_inf in *.
      split; [|split; [|lia]]; intros _ Nb; rewrite Nb in *; (split; [intros K; lia|]); intros K.
      * destruct (Z.eq_dec (magnitude f v) I) as [Ev|Nv]; [rewrite (R3 Ev); auto|]. destruct (R4 ltac:(lia)) as [R5 R6]. split; [|exact R5]. apply (pow2_big (magnitude f v) (floor_int b)); [lia | lia | exact R6].
      * destruct (R4 K) as [R5 R6]. split; [|exact R5]. apply (pow2_tiny (magnitude f v) (floor_int b)); [lia | lia | exact R6].
  - assert (IB : ~ is_inf f b) by (intros K; apply CI in K; discriminate). rewrite andb_false_r. assert (FB : magnitude f b < I) by (unfold is_inf, is_nan in *; lia).
    destruct (HF2 FB) as (n & F1 & F2). assert (Sf : in_s (fwidth f) (floor_int b)). { rewrite F2. unfold clamp. destruct (Z.ltb_spec n lo); auto. destruct (Z.ltb_spec hi n); auto. unfold in_s. lia. }
    destruct (mul_by_pow2_ldexp f SF Lmm Lss HL nan v (floor_int b) HN Hv Sf) as (R1 & R2 & R3 & R4). set (r := mul_by_pow2 f Lmm Lss nan v (floor_int b)) in *. clearbody r.
    unfold is_floor_pow2. split; [exact R1|]. split; [intros [K|K]; [auto | contradiction]|]. split; [intros; contradiction|]. split; [intros; contradiction|]. intros _ n' F'. 
    assert (n' = n). { unfold is_floor, unit in *. clear - F1 F'. assert (0 < 2 ^ 1074) by (apply pow2_gt0; lia). nia. } subst n'. split; [exact R1|]. split; [exact R2|]. split; [exact R3|]. intros K. destruct (R4 K) as [R5 R6]. split; [exact R5|]. apply clamp_pow2; [lia|]. rewrite <- F2. exact R6.
Qed.
End S.
Section E.
Context (f : fmt) (SF : simd_float f).
Notation B := (bias f).
Notation M := (mbits f).
Notation V := (mag_value f).
Notation I := (inf_mag f).
Let O : fmt_ok f := sf_ok f SF.
Lemma biased_eq v : is_pattern f v -> get_biased_exponent f v = efield f v.
Proof.
  intros Hv. destruct (classify_ok f v (sf_hwy f SF) Hv) as (_ & _ & _ & _ & (A1 & A2 & A3) & _). unfold get_biased_exponent, efield. rewrite Z.shiftr_div_pow2 by (destruct O as (?&?&?); lia). f_equal. rewrite <- A3. unfold magnitude. symmetry. apply Z.mod_small. unfold negative in A2. apply Z.leb_gt in A2. unfold is_pattern in A1. lia.
Qed.
Lemma exponent_spec v : is_pattern f v -> is_exponent f v (efield f v - B).
Proof.
  intros Hv. destruct (sf_num f SF) as (N0 & N1 & N2 & HM & _ & E & _ & _ & ES & _). pose proof O as (O1 & O2 & S0). destruct (pf_pat f SF v Hv) as [_ Rv]. pose proof (efield_range f SF v Hv) as ER. unfold efield in *. set (x := magnitude f v) in *.
  assert (PM : 0 < 2 ^ M) by (apply pow2_gt0; lia). pose proof (Z.div_mod x (2 ^ M) ltac:(lia)) as D. pose proof (Z.mod_pos_bound x (2 ^ M) ltac:(lia)) as D'.
  assert (VE : x / 2 ^ M = 0 -> V x < pow2_value (1 - B)).
  { intros Z0. unfold mag_value, pow2_value. rewrite Z0. cbn [Z.eqb]. replace (1074 + (1 - B)) with (M + (1074 + 1 - B - M)) by lia. rewrite Z.pow_add_r by lia. assert (0 < 2 ^ (1074 + 1 - B - M)) by (apply pow2_gt0; lia). apply Z.mul_lt_mono_pos_r; lia. }
  assert (VN : 1 <= x / 2 ^ M -> pow2_value (x / 2 ^ M - B) <= V x < pow2_value (x / 2 ^ M - B + 1)).
  { intros Z0. unfold mag_value, pow2_value. destruct (Z.eqb_spec (x / 2 ^ M) 0); [lia|]. replace (1074 + (x / 2 ^ M - B)) with (M + (1074 + x / 2 ^ M - B - M)) by lia. replace (1074 + (x / 2 ^ M - B + 1)) with (1 + M + (1074 + x / 2 ^ M - B - M)) by lia. rewrite !Z.pow_add_r by lia. change (2 ^ 1) with 2.
    assert (0 < 2 ^ (1074 + x / 2 ^ M - B - M)) by (apply pow2_gt0; lia). split; [apply Z.mul_le_mono_nonneg_r; lia | apply Z.mul_lt_mono_pos_r; lia]. }
  assert (MONO : 1 <= x / 2 ^ M -> pow2_value (1 - B) <= V x). { intros Z0. eapply Z.le_trans; [|apply (VN Z0)]. unfold pow2_value. apply Z.pow_le_mono_r; lia. }
  unfold is_exponent. fold x. cbv zeta. split; [intros K; destruct (Z.eq_dec (x / 2 ^ M) 0); [lia | specialize (MONO ltac:(lia)); lia]|]. split.
  - intros K. unfold inf_mag in K. assert (2 ^ ebits f - 1 <= x / 2 ^ M) by (apply Z.div_le_lower_bound; lia). lia.
  - intros K1 K2. apply VN. destruct (Z.eq_dec (x / 2 ^ M) 0) as [Z0|]; [specialize (VE Z0); lia | lia].
Qed.
Lemma of_int_exact z : - B <= z <= B + 1 -> is_pattern f (of_int f z) /\ magnitude f (of_int f z) < I /\ value f (of_int f z) = z * unit.
Proof.
  intros Hz. pose proof (pf_inf f SF) as PI. destruct (sf_num f SF) as (N0 & N1 & N2 & HM & _ & E & _ & _ & ES & _). pose proof O as (O1 & O2 & S0).
  assert (BM : B + 1 < 2 ^ M). { clear - SF. destruct SF as [->|[->| ->]]; vm_compute; reflexivity. }
  assert (R : V (ieee_round f (Z.abs z * 2 ^ 1074)) = Z.abs z * 2 ^ 1074).
  { apply round_repr; auto; [lia | | lia |]. { intros K. apply Z.lt_le_incl. apply Z.log2_lt_pow2; lia. } rewrite (V_inf f SF). replace (1075 + B) with (B + 1 + 1074) by lia. rewrite Z.pow_add_r by lia. apply Z.mul_le_mono_nonneg_r; [apply Z.pow_nonneg; lia|].
    assert (B + 1 < 2 ^ (B + 1)) by (apply Z.pow_gt_lin_r; lia). lia. }
  pose proof (ieee_round_range f O (Z.abs z * 2 ^ 1074) ltac:(apply Z.mul_nonneg_nonneg; [lia | apply Z.pow_nonneg; lia])) as RR. unfold of_int, one. set (r := ieee_round f (Z.abs z * 2 ^ 1074)) in *.
  assert (r <> I). { intros K. rewrite K, (V_inf f SF) in R. replace (1075 + B) with (B + 1 + 1074) in R by lia. rewrite Z.pow_add_r in R by lia. assert (0 < 2 ^ 1074) by (apply pow2_gt0; lia). assert (B + 1 < 2 ^ (B + 1)) by (apply Z.pow_gt_lin_r; lia). assert (2 ^ (B + 1) = Z.abs z) by nia. lia. }
  destruct (pf_mk f SF (z <? 0) r ltac:(lia)) as (P1 & P2 & P3). split; [exact P1|]. split; [rewrite P3; lia|]. unfold value. rewrite P2, P3, R. unfold unit. destruct (Z.ltb_spec z 0); rewrite ?Z.abs_neq, ?Z.abs_eq by lia; ring.
Qed.
Lemma get_exponent_ok v : is_pattern f v -> is_pattern f (get_exponent f v) /\ magnitude f (get_exponent f v) < I /\ exists e, value f (get_exponent f v) = e * unit /\ is_exponent f v e.
Proof.
  intros Hv. destruct (sf_num f SF) as (N0 & N1 & _). pose proof (efield_range f SF v Hv) as ER. unfold get_exponent. rewrite biased_eq by auto. change (Z.shiftr (2 ^ ebits f - 1) 1) with (exp_bias f). rewrite N0.
  rewrite (small_s f SF (efield f v)) by lia. rewrite small_s by (auto; lia). destruct (of_int_exact (efield f v - B) ltac:(lia)) as (P1 & P2 & P3). split; [exact P1|]. split; [exact P2|]. eexists. split; [exact P3|]. apply exponent_spec; auto.
Qed.
Lemma biased_ok v : is_pattern f v -> is_exponent f v (get_biased_exponent f v - B).
Proof. intros Hv. rewrite biased_eq by auto. apply exponent_spec; auto. Qed.
End E.
