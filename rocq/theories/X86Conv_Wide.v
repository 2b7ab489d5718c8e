(** Floating point to 64-bit integers on x86. *)
From Coq Require Import ZArith Bool List Lia.
From Verif Require Import Word Word_Proofs Float_Spec Float_Model Float_Proofs Float_Conv Float_F64 Float_More Rounding_Model Rounding_Spec Rounding_Core Rounding_Proofs Rounding_Bits Rounding_Int
  Pow2_Spec Pow2_Model Pow2_Round Shift_Spec Shift_Proofs Cmp_Model Cmp_Proofs X86Conv_Model X86Conv_Int X86Conv_Odd X86Conv_Trunc X86Conv_Sat.
Open Scope Z_scope.
Ltac Zify.zify_post_hook ::= idtac.
Arguments Z.pow : simpl never.
Arguments Z.mul : simpl never.
Arguments R : simpl never.
Arguments mag_value : simpl never.

(** -- double to 64-bit integers -- *)
Definition scaled64 (e m : Z) : Z := shl64 (shr64 (2 ^ 52 + m) (satsub 1075 e)) (satsub e 1075).
Lemma scaled64_big e m : 1139 <= e -> scaled64 e m = 0.
Proof. intros H. unfold scaled64, shl64, satsub. rewrite (proj2 (Z.ltb_lt 63 _)) by lia. reflexivity. Qed.
Lemma scaled64_Tm v : is_pattern f64 v -> fld f64 v <= 1086 -> scaled64 (fld f64 v) (man f64 v) = Tm f64 (magnitude f64 v) /\ Tm f64 (magnitude f64 v) < 2 ^ 64.
Proof.
  intros H L. destruct (pat_mk f64 F64 v H) as [_ Hm]. destruct (fld_man f64 F64 v ltac:(lia)) as (A & Bf & Bm). change (mbits f64) with 52 in *.
  split; [|apply (Tm_lt f64 F64); [exact H|lia|change (bias f64) with 1023; lia]].
  unfold scaled64, shl64, shr64, satsub. destruct (Z_lt_le_dec 1075 (fld f64 v)) as [G|G].
  - rewrite (Tm_int f64 F64) by (try exact H; change (bias f64 + mbits f64) with 1075; lia). change (mbits f64) with 52. replace (fld f64 v - bias f64 - 52) with (fld f64 v - 1075) by (change (bias f64) with 1023; lia).
    rewrite (Z.max_l 0 (1075 - _)) by lia. rewrite (Z.max_r 0) by lia. change (63 <? 0) with false. rewrite Z.shiftr_0_r. rewrite (proj2 (Z.ltb_ge 63 _)) by lia. rewrite Z.shiftl_mul_pow2 by lia. apply Z.mod_small.
    assert (0 < 2 ^ (fld f64 v - 1075) <= 2 ^ 11) by (split; [apply pow_pos; lia|apply Z.pow_le_mono_r; lia]). nia.
  - rewrite (Z.max_l 0 (fld f64 v - 1075)) by lia. rewrite (Z.max_r 0) by lia. change (63 <? 0) with false. rewrite Z.shiftl_0_r.
    destruct (Z.ltb_spec 63 (1075 - fld f64 v)) as [Q|Q].
    + change (wrap 64 0) with 0. pose proof (Tm_nonneg f64 F64 v H). pose proof (Tm_lt f64 F64 v 0 H ltac:(lia) ltac:(change (bias f64) with 1023; lia)). change (2 ^ 0) with 1 in *. lia.
    + rewrite Z.shiftr_div_pow2 by lia. unfold Tm. rewrite (V_fields f64) by (assumption || lia). change (mbits f64) with 52. replace (1074 + (fld f64 v - bias f64) - 52) with (fld f64 v - 1) by (change (bias f64) with 1023; lia).
      replace 1074 with (1075 - fld f64 v + (fld f64 v - 1)) by lia. rewrite Z.pow_add_r by lia. assert (0 < 2 ^ (fld f64 v - 1)) by (apply pow_pos; lia). assert (0 < 2 ^ (1075 - fld f64 v)) by (apply pow_pos; lia). rewrite Z.div_mul_cancel_r by lia.
      apply wrap_id. split; [apply Z.div_pos; lia|]. apply Z.div_lt_upper_bound; [lia|]. apply Z.lt_le_trans with (1 * 2 ^ 64); [lia|]. apply Z.mul_le_mono_nonneg_r; lia.
Qed.
Lemma abs_parts v s : is_pattern f64 v -> f64_abs_parts s v = (let e := if s then fld f64 v else Z.b2z (negative f64 v) * 2048 + fld f64 v in (scaled64 e (man f64 v), e)).
Proof.
  intros H. unfold f64_abs_parts. pose proof (shr_field f64 F64 v H) as S. change (mbits f64) with 52 in S. change (2 ^ ebits f64) with 2048 in S. rewrite S. rewrite (land_ones_mod v 52) by (lia || reflexivity). pose proof (man_mod f64 F64 v H) as E. change (mbits f64) with 52 in E. rewrite E.
  pose proof (fld_lt f64 F64 v H) as Lf. change (2 ^ ebits f64) with 2048 in Lf. destruct (pat_mk f64 F64 v H) as [_ Hm]. destruct (fld_man f64 F64 v ltac:(lia)) as (A & Bf & Bm). change (mbits f64) with 52 in *.
  assert (L : Z.lor (man f64 v) (2 ^ 52) = 2 ^ 52 + man f64 v) by (rewrite <- (Z.mul_1_l (2 ^ 52)) at 1; rewrite lor_fields by lia; lia). rewrite L.
  rewrite (land_ones_mod _ 11) by (lia || reflexivity). assert (Q : (Z.b2z (negative f64 v) * 2048 + fld f64 v) mod 2 ^ 11 = fld f64 v).
  { change 2048 with (2 ^ 11). rewrite Z.add_comm, Z.mod_add by lia. apply Z.mod_small. change (2 ^ 11) with 2048. lia. }
  rewrite Q. destruct s; reflexivity.
Qed.
Lemma lxor_ones x : 0 <= x < 2 ^ 64 -> Z.lxor x (2 ^ 64 - 1) = 2 ^ 64 - 1 - x.
Proof.
  intros H. assert (E : Z.lxor x (Z.ones 64) = Z.ones 64 - x).
  { rewrite Z.sub_nocarry_ldiff.
    - apply Z.bits_inj'. intros k Hk. rewrite Z.lxor_spec, Z.ldiff_spec. destruct (Z_lt_le_dec k 64).
      + rewrite Z.ones_spec_low by lia. destruct (Z.testbit x k); reflexivity.
      + rewrite Z.ones_spec_high by lia. rewrite (tb_high 64 x) by lia. reflexivity.
    - apply Z.bits_inj'. intros k Hk. rewrite Z.ldiff_spec, Z.bits_0. destruct (Z_lt_le_dec k 64).
      + rewrite Z.ones_spec_low by lia. apply andb_false_r.
      + rewrite (tb_high 64 x) by lia. reflexivity. }
  change (2 ^ 64 - 1) with (Z.ones 64). exact E.
Qed.
Lemma negate_ok neg x : 0 <= x < 2 ^ 64 -> negate_if neg x = wrap 64 (sg neg x).
Proof.
  intros H. unfold negate_if, onesw. destruct neg; cbn [sg].
  - rewrite lxor_ones by assumption. f_equal. lia.
  - rewrite Z.lxor_0_r, Z.sub_0_r. reflexivity.
Qed.
Lemma msb64 v : is_pattern f64 v -> msb 64 v = negative f64 v.
Proof. intros H. apply (msb_of f64 F64 v H). Qed.
Lemma i64_wide_clamp v : is_pattern f64 v -> lane 64 (f64_to_i64_wide v) /\ signed 64 (f64_to_i64_wide v) = clamp (- 2 ^ 63) (2 ^ 63 - 1) (T64 v).
Proof.
  intros H. unfold f64_to_i64_wide. rewrite abs_parts, msb64 by assumption. cbv zeta. pose proof (Tm_nonneg f64 F64 v H) as P.
  destruct (Z_lt_le_dec (fld f64 v) 1086) as [L|L]; [rewrite (proj2 (Z.ltb_lt _ _)) by exact L|rewrite (proj2 (Z.ltb_ge _ _)) by exact L].
  - destruct (scaled64_Tm v H ltac:(lia)) as [E _]. rewrite E. pose proof (Tm_lt f64 F64 v 63 H ltac:(lia) ltac:(change (bias f64) with 1023; lia)) as B. rewrite negate_ok by lia. fold (T64 v).
    assert (B2 : - 2 ^ 63 <= T64 v <= 2 ^ 63 - 1) by (unfold T; destruct (negative f64 v); cbn [sg]; lia). rewrite clamp_id by lia. unfold T in *. apply signed_wrap; [lia|]. change (64 - 1) with 63. lia.
  - pose proof (Tm_ge f64 F64 v 63 H ltac:(change (bias f64) with 1023; lia)) as B. unfold T. destruct (negative f64 v); cbn [sg].
    + rewrite clamp_lo by lia. vm_compute. repeat split; discriminate || reflexivity.
    + rewrite clamp_hi by lia. vm_compute. repeat split; discriminate || reflexivity.
Qed.
Theorem f64_to_i64_wide_ok v : is_pattern f64 v -> lane 64 (f64_to_i64_wide v) /\ converts is_trunc f64 (- 2 ^ 63) (2 ^ 63 - 1) v (signed 64 (f64_to_i64_wide v)).
Proof. intros H. destruct (i64_wide_clamp v H) as [L E]. split; [exact L|]. apply (conv_clamp f64 F64); [exact H|lia|lia|exact E]. Qed.
Lemma fld_of_T v e : is_pattern f64 v -> 0 <= e -> Tm f64 (magnitude f64 v) < 2 ^ e -> fld f64 v < 1023 + e.
Proof. intros H He L. destruct (Z_lt_le_dec (fld f64 v) (1023 + e)) as [|G]; [assumption|]. pose proof (Tm_ge f64 F64 v e H ltac:(change (bias f64) with 1023; lia)). lia. Qed.
Theorem f64_to_i64_wide_in_range_ok v n : is_pattern f64 v -> is_trunc (value f64 v) n -> - 2 ^ 63 <= n <= 2 ^ 63 - 1 -> lane 64 (f64_to_i64_wide_in_range v) /\ signed 64 (f64_to_i64_wide_in_range v) = n.
Proof.
  intros H I B. pose proof (T_range f64 F64 v n H I) as <-. unfold f64_to_i64_wide_in_range. rewrite abs_parts, msb64 by assumption. cbv zeta. cbn [fst]. pose proof (Tm_nonneg f64 F64 v H) as P.
  assert (Bt : Tm f64 (magnitude f64 v) < 2 ^ 64) by (unfold T in B; destruct (negative f64 v); cbn [sg] in B; lia). pose proof (fld_of_T v 64 H ltac:(lia) Bt) as Lf. destruct (scaled64_Tm v H ltac:(lia)) as [E _]. rewrite E. rewrite negate_ok by lia. fold (T64 v). apply signed_wrap; [lia|]. change (64 - 1) with 63. lia.
Qed.
Theorem f64_to_u64_in_range_ok v n : is_pattern f64 v -> is_trunc (value f64 v) n -> 0 <= n <= 2 ^ 64 - 1 -> f64_to_u64_in_range v = n.
Proof.
  intros H I B. pose proof (T_range f64 F64 v n H I) as <-. unfold f64_to_u64_in_range. rewrite abs_parts by assumption. cbv zeta. cbn [fst]. pose proof (Tm_nonneg f64 F64 v H) as P. destruct (pat_mk f64 F64 v H) as [_ Hm]. destruct (fld_man f64 F64 v ltac:(lia)) as (_ & Bf & _). unfold T in *. destruct (negative f64 v); cbn [sg Z.b2z] in *.
  - rewrite scaled64_big by lia. lia.
  - rewrite Z.mul_0_l, Z.add_0_l. pose proof (fld_of_T v 64 H ltac:(lia) ltac:(lia)) as Lf. apply scaled64_Tm; [exact H|lia].
Qed.
Theorem f64_to_u64_ok v : is_pattern f64 v -> converts is_trunc f64 0 (2 ^ 64 - 1) v (f64_to_u64 v).
Proof.
  intros H. apply (conv_clamp f64 F64); [exact H|lia|lia|]. destruct (zero_if_neg_T f64 F64 v H) as (Z1 & Z0 & Z2 & _). unfold f64_to_u64. set (x := zero_if_neg f64 v) in *. rewrite abs_parts by assumption. cbv zeta. rewrite Z0. cbn [Z.b2z]. rewrite Z.mul_0_l, Z.add_0_l.
  assert (ET : T64 x = Tm f64 (magnitude f64 x)) by (unfold T; rewrite Z0; reflexivity). rewrite clampE by lia. destruct (Z.ltb_spec 1086 (fld f64 x)) as [L|L].
  - pose proof (Tm_ge f64 F64 x 64 Z1 ltac:(change (bias f64) with 1023; lia)) as B. change (onesw 64 true) with (2 ^ 64 - 1). rewrite Z.min_l by lia. rewrite Z.max_r by lia.
    assert (W : 0 <= scaled64 (fld f64 x) (man f64 x) < 2 ^ 64) by (unfold scaled64, shl64; destruct (63 <? _); [lia|apply Z.mod_pos_bound; lia]). change (2 ^ 64 - 1) with (Z.ones 64). apply Z.bits_inj'. intros k Hk. rewrite Z.lor_spec. destruct (Z_lt_le_dec k 64).
    + rewrite Z.ones_spec_low by lia. apply orb_true_r.
    + rewrite Z.ones_spec_high by lia. rewrite (tb_high 64) by lia. reflexivity.
  - change (onesw 64 false) with 0. rewrite Z.lor_0_r. destruct (scaled64_Tm x Z1 L) as [E B]. rewrite E. lia.
Qed.

(** -- float to 64-bit integers -- *)
Definition below (P : Z -> bool) (n : Z) : bool := forallb P (map Z.of_nat (seq 0 (Z.to_nat n))).
Lemma below_ok P n : below P n = true -> forall k, 0 <= k < n -> P k = true.
Proof. intros H k Hk. unfold below in H. rewrite forallb_forall in H. apply H. apply in_map_iff. exists (Z.to_nat k). split; [lia|]. apply in_seq. lia. Qed.
Lemma adj_eq c : c = 32 \/ c = 33 -> forall (n : bool) e, 0 <= e < 256 -> bytes_min (bytes_satsub (Z.b2z n * 256 + e) 157) c = Z.min (Z.max 0 (e - 157)) c.
Proof.
  intros Hc n e He. assert (G : below (fun k => bytes_min (bytes_satsub k 157) c =? Z.min (Z.max 0 (k mod 256 - 157)) c) 512 = true) by (destruct Hc as [-> | ->]; vm_compute; reflexivity).
  pose proof (below_ok _ _ G (Z.b2z n * 256 + e) ltac:(destruct n; cbn [Z.b2z]; lia)) as Q. apply Z.eqb_eq in Q. rewrite Q. rewrite Z.add_comm, Z.mod_add, Z.mod_small by lia. reflexivity.
Qed.
Lemma adj_in (n : bool) e : 0 <= e < 256 -> bytes_satsub (Z.b2z n * 256 + e) 0xFFFFFF9D = Z.max 0 (e - 157).
Proof.
  intros He. assert (G : below (fun k => bytes_satsub k 0xFFFFFF9D =? Z.max 0 (k mod 256 - 157)) 512 = true) by (vm_compute; reflexivity).
  pose proof (below_ok _ _ G (Z.b2z n * 256 + e) ltac:(destruct n; cbn [Z.b2z]; lia)) as Q. apply Z.eqb_eq in Q. rewrite Q. rewrite Z.add_comm, Z.mod_add, Z.mod_small by lia. reflexivity.
Qed.
(** the lowered float *)
Lemma lowered v a : is_pattern f32 v -> ~ is_nan f32 v -> 0 <= a <= Z.max 0 (fld f32 v - 157) -> let v' := wrap 32 (v - wrap 32 (Z.shiftl a 23)) in
  is_pattern f32 v' /\ ~ is_nan f32 v' /\ negative f32 v' = negative f32 v /\ T32 v = T32 v' * 2 ^ a /\
  (a = 0 -> v' = v) /\ (0 < a -> Tm f32 (magnitude f32 v') = (2 ^ 23 + man f32 v) * 2 ^ (fld f32 v - a - 150) /\ 0 <= man f32 v < 2 ^ 23).
Proof.
  intros H N Ha. cbv zeta. destruct (pat_mk f32 F32 v H) as [_ Hm]. destruct (fld_man f32 F32 v ltac:(lia)) as (A & Bf & Bm). pose proof (fld_lt f32 F32 v H) as Lf. change (2 ^ ebits f32) with 256 in Lf. change (mbits f32) with 23 in *.
  destruct (lower f32 F32 v a H ltac:(lia) ltac:(lia)) as (L1 & L2 & L3 & L4 & L5). change (mbits f32) with 23 in *.
  assert (W : wrap 32 (v - wrap 32 (Z.shiftl a 23)) = v - a * 2 ^ 23).
  { rewrite Z.shiftl_mul_pow2 by lia. rewrite (wrap_id 32 (a * 2 ^ 23)) by lia. apply wrap_id. exact L1. }
  rewrite W. split; [exact L1|]. split; [unfold is_nan in *; lia|]. split; [exact L2|].
  assert (Q : 0 < a -> Tm f32 (magnitude f32 (v - a * 2 ^ 23)) = (2 ^ 23 + man f32 v) * 2 ^ (fld f32 v - a - 150)).
  { intros Pa. rewrite (Tm_int f32 F32) by (try exact L1; change (bias f32 + mbits f32) with 150; lia). rewrite L4, L5. change (mbits f32) with 23. change (bias f32) with 127. f_equal. f_equal. lia. }
  split; [|split; [intros ->; lia|intros Pa; split; [now apply Q|exact Bm]]].
  destruct (Z.eq_dec a 0) as [-> | Na]; [rewrite Z.mul_0_l, Z.sub_0_r, Z.mul_1_r; reflexivity|]. unfold T. rewrite L2. rewrite Q by lia. rewrite (Tm_int f32 F32) by (try exact H; change (bias f32 + mbits f32) with 150; lia). change (mbits f32) with 23. change (bias f32) with 127.
  assert (E : (2 ^ 23 + man f32 v) * 2 ^ (fld f32 v - 127 - 23) = (2 ^ 23 + man f32 v) * 2 ^ (fld f32 v - a - 150) * 2 ^ a) by (rewrite <- Z.mul_assoc, <- Z.pow_add_r by lia; f_equal; f_equal; lia).
  rewrite E. destruct (negative f32 v); cbn [sg]; ring.
Qed.
Lemma shr23 v : is_pattern f32 v -> Z.shiftr v 23 = Z.b2z (negative f32 v) * 256 + fld f32 v /\ 0 <= fld f32 v < 256.
Proof.
  intros H. pose proof (shr_field f32 F32 v H) as S. change (mbits f32) with 23 in S. change (2 ^ ebits f32) with 256 in S. pose proof (fld_lt f32 F32 v H) as Lf. change (2 ^ ebits f32) with 256 in Lf. destruct (pat_mk f32 F32 v H) as [_ Hm]. destruct (fld_man f32 F32 v ltac:(lia)) as (_ & Bf & _). split; [exact S|lia].
Qed.
Lemma shl64_wrap x a : 0 <= a <= 63 -> shl64 (wrap 64 x) a = wrap 64 (x * 2 ^ a).
Proof. intros H. unfold shl64, wrap. rewrite (proj2 (Z.ltb_ge 63 _)) by lia. rewrite Z.shiftl_mul_pow2 by lia. rewrite Z.mul_mod_idemp_l by lia. reflexivity. Qed.
Lemma f32_i64_clamp v : is_pattern f32 v -> ~ is_nan f32 v -> lane 64 (f32_to_i64 v) /\ signed 64 (f32_to_i64 v) = clamp (- 2 ^ 63) (2 ^ 63 - 1) (T32 v).
Proof.
  intros H N. unfold f32_to_i64. destruct (shr23 v H) as [S Bf]. rewrite S. rewrite (adj_eq 32) by (auto || lia). cbv zeta. set (a := Z.min (Z.max 0 (fld f32 v - 157)) 32).
  assert (Ba : 0 <= a <= 32) by lia. destruct (lowered v a H N ltac:(lia)) as (L1 & L2 & L3 & L4 & L5 & L6). set (v' := wrap 32 (v - wrap 32 (Z.shiftl a 23))) in *.
  destruct (to_signed_clamp f32 F32 32 v' L1 L2 ltac:(lia)) as [R1 R2]. change (32 - 1) with 31 in R2. set (r := to_signed f32 32 v') in *. rewrite swrap_signed by exact R1. rewrite shl64_wrap by lia. rewrite R2.
  assert (R3 : r = 2 ^ 31 - 1 <-> 2 ^ 31 - 1 <= T32 v').
  { assert (Q : r = 2 ^ 31 - 1 <-> signed 32 r = 2 ^ 31 - 1) by (clear - R1; unfold signed, lane in *; change (32 - 1) with 31; destruct (Z.ltb_spec r (2 ^ 31)); lia). rewrite Q, R2, clampE by lia. lia. }
  pose proof (Tm_nonneg f32 F32 v' L1) as P. rewrite clampE in R2 |- * by lia. rewrite (clampE (- 2 ^ 63)) by lia.
  destruct (Z_lt_le_dec (fld f32 v) 190) as [Le|Le].
  - assert (B : Tm f32 (magnitude f32 v') < 2 ^ 31 - 1).
    { destruct (Z.eq_dec a 0) as [A0|A0].
      - rewrite (L5 A0). pose proof (Tm_nonneg f32 F32 v H). destruct (Z_lt_le_dec (fld f32 v) 150) as [Q|Q].
        + pose proof (Tm_lt f32 F32 v 23 H ltac:(lia) ltac:(change (bias f32) with 127; lia)). lia.
        + rewrite (Tm_int f32 F32) by (try exact H; change (bias f32 + mbits f32) with 150; lia). destruct (pat_mk f32 F32 v H) as [_ Hm]. destruct (fld_man f32 F32 v ltac:(lia)) as (_ & _ & Bm). change (mbits f32) with 23 in *. change (bias f32) with 127.
          assert (0 < 2 ^ (fld f32 v - 127 - 23) <= 2 ^ 7) by (split; [apply pow_pos; lia|apply Z.pow_le_mono_r; lia]). nia.
      - destruct (L6 ltac:(lia)) as [E Bm]. rewrite E. replace (fld f32 v - a - 150) with 7 by lia. lia. }
    assert (Bv : - (2 ^ 31 - 1) < T32 v' < 2 ^ 31 - 1) by (unfold T; destruct (negative f32 v'); cbn [sg]; lia).
    destruct (Z.eqb_spec r (2 ^ 31 - 1)) as [E|E]; [apply R3 in E; lia|]. change (onesw 32 false) with 0. rewrite Z.lor_0_r. rewrite (Z.min_r _ (T32 v')) by lia. rewrite (Z.max_r (- 2 ^ 31)) by lia. rewrite <- L4.
    assert (Bt : - 2 ^ 63 < T32 v < 2 ^ 63 - 1).
    { rewrite L4. assert (0 < 2 ^ a <= 2 ^ 32) by (split; [apply pow_pos; lia|apply Z.pow_le_mono_r; lia]). nia. }
    rewrite Z.min_r, Z.max_r by lia. apply signed_wrap; [lia|]. change (64 - 1) with 63. lia.
  - assert (A2 : a = 32) by lia. destruct (L6 ltac:(lia)) as [E Bm]. rewrite A2 in *. assert (B : 2 ^ 31 <= Tm f32 (magnitude f32 v')).
    { rewrite E. assert (2 ^ 8 <= 2 ^ (fld f32 v - 32 - 150)) by (apply Z.pow_le_mono_r; lia). nia. }
    unfold T in *. rewrite L3 in *. destruct (negative f32 v); cbn [sg] in *.
    + destruct (Z.eqb_spec r (2 ^ 31 - 1)) as [E'|E']; [apply R3 in E'; lia|]. change (onesw 32 false) with 0. rewrite Z.lor_0_r. rewrite (Z.min_r (2 ^ 31 - 1)) by lia. rewrite (Z.max_l (- 2 ^ 31)) by lia. rewrite (Z.min_r (2 ^ 63 - 1)) by lia. rewrite (Z.max_l (- 2 ^ 63)) by lia. vm_compute. repeat split; discriminate || reflexivity.
    + destruct (Z.eqb_spec r (2 ^ 31 - 1)) as [E'|E']; [|exfalso; apply E', R3; lia]. rewrite (Z.min_l (2 ^ 31 - 1)) by lia. rewrite (Z.max_r (- 2 ^ 31)) by lia. rewrite (Z.min_l (2 ^ 63 - 1)) by lia. rewrite (Z.max_r (- 2 ^ 63)) by lia. vm_compute. repeat split; discriminate || reflexivity.
Qed.
Theorem f32_to_i64_ok v : is_pattern f32 v -> ~ is_nan f32 v -> lane 64 (f32_to_i64 v) /\ converts is_trunc f32 (- 2 ^ 63) (2 ^ 63 - 1) v (signed 64 (f32_to_i64 v)).
Proof. intros H N. destruct (f32_i64_clamp v H N) as [L E]. split; [exact L|]. apply (conv_clamp f32 F32); [exact H|lia|lia|exact E]. Qed.
Lemma fld32_of_T v e : is_pattern f32 v -> 0 <= e -> Tm f32 (magnitude f32 v) < 2 ^ e -> fld f32 v < 127 + e.
Proof. intros H He L. destruct (Z_lt_le_dec (fld f32 v) (127 + e)) as [|G]; [assumption|]. pose proof (Tm_ge f32 F32 v e H ltac:(change (bias f32) with 127; lia)). lia. Qed.
Lemma low31 v a : is_pattern f32 v -> ~ is_nan f32 v -> a = Z.max 0 (fld f32 v - 157) -> Tm f32 (magnitude f32 (wrap 32 (v - wrap 32 (Z.shiftl a 23)))) < 2 ^ 31.
Proof.
  intros H N E. destruct (lowered v a H N ltac:(lia)) as (L1 & L2 & L3 & L4 & L5 & L6). destruct (Z.eq_dec a 0) as [A0|A0].
  - rewrite (L5 A0). apply (Tm_lt f32 F32); [exact H|lia|change (bias f32) with 127; lia].
  - destruct (L6 ltac:(lia)) as [E' Bm]. rewrite E'. replace (fld f32 v - a - 150) with 7 by lia. lia.
Qed.
Lemma in_range64 v s : is_pattern f32 v -> finite f32 v -> Tm f32 (magnitude f32 v) < 2 ^ 64 -> (s = false -> 0 <= T32 v) -> f32_to_ui64_in_range s v = wrap 64 (T32 v).
Proof.
  intros H Fv B Hs. assert (N : ~ is_nan f32 v) by (unfold is_nan, finite in *; lia). unfold f32_to_ui64_in_range. destruct (shr23 v H) as [S Bf]. rewrite S. rewrite adj_in by lia. cbv zeta. pose proof (fld32_of_T v 64 H ltac:(lia) B) as Lf.
  set (a := Z.max 0 (fld f32 v - 157)). assert (Ba : 0 <= a <= 33) by lia. destruct (lowered v a H N ltac:(lia)) as (L1 & L2 & L3 & L4 & L5 & L6). pose proof (low31 v a H N eq_refl) as B1. set (v' := wrap 32 (v - wrap 32 (Z.shiftl a 23))) in *.
  pose proof (Tm_nonneg f32 F32 v' L1) as P. assert (Bv : - (2 ^ 31 - 1) <= T32 v' <= 2 ^ 31 - 1) by (unfold T; destruct (negative f32 v'); cbn [sg]; lia).
  rewrite (cvtt_in f32 F32) by (try assumption; change (32 - 1) with 31; lia). destruct (signed_wrap 32 (T32 v') ltac:(lia) ltac:(change (32 - 1) with 31; lia)) as [S1 S2].
  assert (E : (if s then swrap 32 (wrap 32 (T32 v')) else wrap 32 (T32 v')) = T32 v').
  { destruct s; [rewrite swrap_signed by exact S1; exact S2|]. specialize (Hs eq_refl). apply wrap_id. rewrite L4 in Hs. assert (0 < 2 ^ a) by (apply pow_pos; lia). nia. }
  rewrite E, shl64_wrap by lia. rewrite L4. reflexivity.
Qed.
Theorem f32_to_i64_in_range_ok v n : is_pattern f32 v -> finite f32 v -> is_trunc (value f32 v) n -> - 2 ^ 63 <= n <= 2 ^ 63 - 1 -> lane 64 (f32_to_ui64_in_range true v) /\ signed 64 (f32_to_ui64_in_range true v) = n.
Proof.
  intros H Fv I B. pose proof (T_range f32 F32 v n H I) as <-. assert (Bt : Tm f32 (magnitude f32 v) < 2 ^ 64) by (unfold T in B; destruct (negative f32 v); cbn [sg] in B; lia).
  rewrite in_range64 by (try assumption; intros; discriminate). apply signed_wrap; [lia|]. change (64 - 1) with 63. lia.
Qed.
Theorem f32_to_u64_in_range_ok v n : is_pattern f32 v -> finite f32 v -> is_trunc (value f32 v) n -> 0 <= n <= 2 ^ 64 - 1 -> f32_to_ui64_in_range false v = n.
Proof.
  intros H Fv I B. pose proof (T_range f32 F32 v n H I) as <-. pose proof (Tm_nonneg f32 F32 v H) as P. assert (Bt : Tm f32 (magnitude f32 v) < 2 ^ 64) by (unfold T in B; destruct (negative f32 v); cbn [sg] in B; lia).
  rewrite in_range64 by (try assumption; intros; lia). apply wrap_id. lia.
Qed.
Lemma lor_ones64 x : 0 <= x < 2 ^ 64 -> Z.lor x (2 ^ 64 - 1) = 2 ^ 64 - 1.
Proof.
  intros H. change (2 ^ 64 - 1) with (Z.ones 64). apply Z.bits_inj'. intros k Hk. rewrite Z.lor_spec. destruct (Z_lt_le_dec k 64).
  - rewrite Z.ones_spec_low by lia. apply orb_true_r.
  - rewrite Z.ones_spec_high by lia. rewrite (tb_high 64) by lia. reflexivity.
Qed.
Theorem f32_to_u64_ok v : is_pattern f32 v -> ~ is_nan f32 v -> converts is_trunc f32 0 (2 ^ 64 - 1) v (f32_to_u64 v).
Proof.
  intros H N. apply (conv_clamp f32 F32); [exact H|lia|lia|]. destruct (zero_if_neg_T f32 F32 v H) as (Z1 & Z0 & Z2 & _). pose proof (zin_not_nan f32 F32 v H N) as Z3. unfold f32_to_u64. set (x := zero_if_neg f32 v) in *. rewrite clampE by lia.
  destruct (shr23 x Z1) as [S Bf]. rewrite S. rewrite (adj_eq 33) by (auto || lia). cbv zeta. set (a := Z.min (Z.max 0 (fld f32 x - 157)) 33). assert (Ba : 0 <= a <= 33) by lia. destruct (lowered x a Z1 Z3 ltac:(lia)) as (L1 & L2 & L3 & L4 & L5 & L6).
  assert (B1 : fld f32 x < 191 -> Tm f32 (magnitude f32 (wrap 32 (x - wrap 32 (Z.shiftl a 23)))) < 2 ^ 31) by (intros; apply low31; [exact Z1|exact Z3|lia]).
  set (x' := wrap 32 (x - wrap 32 (Z.shiftl a 23))) in *. pose proof (Tm_nonneg f32 F32 x' L1) as P. rewrite Z0 in L3. assert (ET : T32 x' = Tm f32 (magnitude f32 x')) by (unfold T; rewrite L3; reflexivity).
  destruct (Z_lt_le_dec (fld f32 x) 191) as [Le|Le].
  - specialize (B1 Le). rewrite (cvtt_in f32 F32) by (try assumption; change (32 - 1) with 31; lia). rewrite (wrap_id 32 (T32 x')) by lia. unfold msb. change (32 - 1) with 31. rewrite (tb_high 31) by lia. change (onesw 64 false) with 0. rewrite Z.lor_0_r, shl64_wrap by lia. rewrite <- L4.
    pose proof (Tm_lt f32 F32 x 64 Z1 ltac:(lia) ltac:(change (bias f32) with 127; lia)) as B. assert (EX : T32 x = Tm f32 (magnitude f32 x)) by (unfold T; rewrite Z0; reflexivity). pose proof (Tm_nonneg f32 F32 x Z1). rewrite wrap_id by lia. lia.
  - assert (A2 : a = 33) by lia. destruct (L6 ltac:(lia)) as [E Bm]. rewrite A2 in *. assert (B : 2 ^ 31 <= Tm f32 (magnitude f32 x')).
    { rewrite E. assert (2 ^ 8 <= 2 ^ (fld f32 x - 33 - 150)) by (apply Z.pow_le_mono_r; lia). nia. }
    rewrite (cvtt_out f32 F32) by (try assumption; change (32 - 1) with 31; lia). change (onesw 64 (msb 32 (2 ^ (32 - 1)))) with (2 ^ 64 - 1). change (shl64 (wrap 64 (2 ^ (32 - 1))) 33) with 0. rewrite lor_ones64 by lia.
    assert (2 ^ 64 <= T32 x) by (rewrite L4, ET; change (2 ^ 64) with (2 ^ 31 * 2 ^ 33); apply Z.mul_le_mono_nonneg_r; lia). lia.
Qed.
