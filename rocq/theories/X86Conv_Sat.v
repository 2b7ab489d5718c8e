(** Floating point to integers on x86: the conversions composed of several instructions. *)
From Coq Require Import ZArith Bool List Lia.
From Verif Require Import Word Word_Proofs Float_Spec Float_Model Float_Proofs Float_Conv Float_F64 Float_More Rounding_Model Rounding_Spec Rounding_Core Rounding_Proofs Rounding_Bits Rounding_Int
  Pow2_Spec Pow2_Model Pow2_Round Shift_Spec Shift_Proofs Cmp_Model Cmp_Proofs X86Conv_Model X86Conv_Int X86Conv_Odd X86Conv_Trunc.
Open Scope Z_scope.
Ltac Zify.zify_post_hook ::= idtac.
Arguments Z.pow : simpl never.
Arguments Z.mul : simpl never.
Arguments R : simpl never.
Arguments mag_value : simpl never.
Notation T64 := (T f64).
Notation T32 := (T f32).
Lemma clampE lo hi x : lo <= hi -> clamp lo hi x = Z.max lo (Z.min hi x).
Proof. intros. unfold clamp. destruct (Z.ltb_spec x lo), (Z.ltb_spec hi x); lia. Qed.

(** minpd with a positive integer *)
Lemma minpd_T f (F : float_type f) c z v : is_pattern f v -> ~ is_nan f v -> holds f c z -> 0 < z -> is_pattern f (minpd f v c) /\ ~ is_nan f (minpd f v c) /\ T f (minpd f v c) = Z.min z (T f v).
Proof.
  intros H N C Hz. unfold minpd. rewrite (flt_c f F c z v H N C Hz). pose proof (T_holds f F c z C) as E. destruct (Z.ltb_spec (T f v) z).
  - split; [exact H|]. split; [exact N|lia].
  - split; [apply C|]. split; [|lia]. destruct C as (_ & C & _). unfold is_nan. lia.
Qed.
Theorem f64_to_i32_ok v : is_pattern f64 v -> ~ is_nan f64 v -> lane 32 (f64_to_i32 v) /\ converts is_trunc f64 (- 2 ^ 31) (2 ^ 31 - 1) v (signed 32 (f64_to_i32 v)).
Proof.
  intros H N. pose proof (of_int_holds f64 F64 (2 ^ 31 - 1) (rep64i (2 ^ 31 - 1) ltac:(lia))) as C. change (2 ^ 31 - 1) with 2147483647 in C. destruct (minpd_T f64 F64 _ _ v H N C ltac:(lia)) as (M1 & M2 & M3).
  assert (G : lane 32 (f64_to_i32 v) /\ signed 32 (f64_to_i32 v) = clamp (- 2 ^ 31) (2 ^ 31 - 1) (T64 v)).
  { unfold f64_to_i32. rewrite clampE by lia. set (x := minpd f64 v _) in *. destruct (Z_lt_le_dec (T64 x) (- 2 ^ 31)) as [L|L].
    - rewrite (cvtt_out f64 F64) by (try assumption; change (32 - 1) with 31; lia). change (32 - 1) with 31. change (2 ^ 31) with (2 ^ (32 - 1)) at 1 2. split; [apply (signed_min 32); lia|]. rewrite (proj2 (signed_min 32 ltac:(lia))). change (32 - 1) with 31. lia.
    - rewrite (cvtt_in f64 F64) by (try assumption; change (32 - 1) with 31; lia). destruct (signed_wrap 32 (T64 x) ltac:(lia) ltac:(change (32 - 1) with 31; lia)) as [S1 S2]. split; [exact S1|]. rewrite S2. lia. }
  destruct G as [G1 G2]. split; [exact G1|]. apply (conv_clamp f64 F64); [exact H|lia|lia|exact G2].
Qed.
(** -- double to uint32_t -- *)
Lemma fld_31 v : is_pattern f64 v -> negative f64 v = false -> 2 ^ 31 <= T64 v < 2 ^ 32 -> value f64 v - 2 ^ 31 * 2 ^ 1074 = man f64 v * 2 ^ 1053 /\ 0 <= man f64 v < 2 ^ 52.
Proof.
  intros H N B. unfold T in B. rewrite N in B. cbn [sg] in B. pose proof (pat_mk f64 F64 v H) as [_ Hm]. destruct (fld_man f64 F64 v ltac:(lia)) as (A & Bf & Bm). change (mbits f64) with 52 in *.
  assert (E : fld f64 v = 1054).
  { destruct (Z_lt_le_dec (fld f64 v) 1054) as [L|L]; [pose proof (Tm_lt f64 F64 v 31 H ltac:(lia) ltac:(change (bias f64) with 1023; lia)); lia|].
    destruct (Z_lt_le_dec 1054 (fld f64 v)) as [G|G]; [pose proof (Tm_ge f64 F64 v 32 H ltac:(change (bias f64) with 1023; lia)); lia|lia]. }
  split; [|exact Bm]. rewrite value_sg, N. cbn [sg]. rewrite (V_fields f64) by (assumption || lia). rewrite E. change (mbits f64) with 52. change (1074 + (1054 - bias f64) - 52) with 1053.
  replace (2 ^ 31 * 2 ^ 1074) with (2 ^ 52 * 2 ^ 1053) by (rewrite <- !Z.pow_add_r by lia; reflexivity). ring.
Qed.
Lemma small_inf : 2 ^ 32 * 2 ^ 1074 < mag_value f64 (inf_mag f64).
Proof. vm_compute. reflexivity. Qed.
Lemma lor_31 x : 0 <= x < 2 ^ 31 -> Z.lor x (2 ^ 31) = 2 ^ 31 + x.
Proof. intros H. rewrite <- (Z.mul_1_l (2 ^ 31)) at 1. rewrite lor_fields by lia. lia. Qed.
Lemma f64_u32_core nan v : is_pattern f64 v -> magnitude f64 v < inf_mag f64 -> 0 <= T64 v < 2 ^ 32 -> f64_to_u32_in_range nan v = T64 v.
Proof.
  intros H Fv B. assert (N : ~ is_nan f64 v) by (unfold is_nan; lia). pose proof u_pos as U.
  pose proof (of_int_holds f64 F64 (2 ^ 31) (rep64i (2 ^ 31) ltac:(lia))) as C. unfold f64_to_u32_in_range. change 2147483648 with (2 ^ 31). rewrite (fle_c f64 F64 _ _ v H N C ltac:(lia)).
  destruct (Z.leb_spec (2 ^ 31) (T64 v)) as [G|G].
  - assert (Nv : negative f64 v = false) by (unfold T in G; pose proof (Tm_nonneg f64 F64 v H); destruct (negative f64 v); [cbn [sg] in G; lia|reflexivity]).
    destruct (fld_31 v H Nv ltac:(lia)) as [E Bm]. destruct C as (C1 & C2 & C3 & C4). assert (Pm : 0 <= man f64 v * 2 ^ 1053) by (apply Z.mul_nonneg_nonneg; [lia|apply Z.pow_nonneg; lia]).
    assert (Lt : man f64 v * 2 ^ 1053 < 2 ^ 31 * 2 ^ 1074).
    { replace (2 ^ 31 * 2 ^ 1074) with (2 ^ 52 * 2 ^ 1053) by (rewrite <- !Z.pow_add_r by lia; reflexivity). apply Z.mul_lt_mono_pos_r; [apply pow_pos; lia|lia]. }
    destruct (fsub_exact f64 F64 nan v (of_int f64 (2 ^ 31)) H C1 Fv C2) as (S1 & S2 & S3).
    { rewrite C3, E, Z.abs_eq by exact Pm. apply (R_exact f64 F64); [change (mbits f64 + 1) with 53; lia|change (s0 f64) with 0; lia|]. change (mbits f64 + 2) with 54. apply Z.lt_le_incl. eapply Z.lt_le_trans; [exact Lt|]. apply Z.mul_le_mono_nonneg_r; lia. }
    { rewrite C3, E, Z.abs_eq by exact Pm. eapply Z.lt_trans; [exact Lt|]. eapply Z.lt_trans; [|exact small_inf]. apply Z.mul_lt_mono_pos_r; lia. }
    assert (Tx : T64 (fsub f64 nan v (of_int f64 (2 ^ 31))) = T64 v - 2 ^ 31).
    { apply (T_range f64 F64); [exact S1|]. rewrite S3, C3. pose proof (T_trunc f64 F64 v H) as [I _]. assert (V0 : 2 ^ 31 * 2 ^ 1074 <= value f64 v) by (clear - E Pm; lia). specialize (I ltac:(clear - V0 U; lia)). clear - I V0 U G. unfold is_trunc, is_floor, is_ceil, unit in *.
      set (u := 2 ^ 1074) in *. set (k := 2 ^ 31) in *. set (t := T64 v) in *. set (x := value f64 v) in *. clearbody u k t x. assert (E1 : (t - k) * u = t * u - k * u) by ring. assert (0 <= (t - k) * u) by (apply Z.mul_nonneg_nonneg; lia). split; intros; nia. }
    rewrite (cvtt_in f64 F64) by (try assumption; try (unfold is_nan; lia); change (32 - 1) with 31; lia). rewrite Tx. unfold wrap at 1. rewrite Z.mod_small by lia.
    assert (K : wrap 32 (Z.shiftl (wrap 32 (onesw 64 true)) 31) = 2 ^ 31) by (vm_compute; reflexivity). rewrite K, lor_31 by lia. lia.
  - destruct (fzero_facts f64 F64) as (_ & A1 & A2 & A3 & _). destruct (fsub_exact f64 F64 nan v 0 H A1 Fv ltac:(vm_compute; reflexivity)) as (S1 & S2 & S3).
    { rewrite A3, Z.sub_0_r. pose proof (Vn f64 F64 v H) as P. rewrite value_sg. replace (Z.abs (sg (negative f64 v) (mag_value f64 (magnitude f64 v)))) with (mag_value f64 (magnitude f64 v)) by (clear - P; destruct (negative f64 v); cbn [sg]; lia).
      apply (R_V f64 F64). pose proof (pat_mk f64 F64 v H) as [_ Hm]. lia. }
    { rewrite A3, Z.sub_0_r. pose proof (Vn f64 F64 v H) as P. rewrite value_sg. replace (Z.abs (sg (negative f64 v) (mag_value f64 (magnitude f64 v)))) with (mag_value f64 (magnitude f64 v)) by (clear - P; destruct (negative f64 v); cbn [sg]; lia).
      apply (V_mono_lt f64 ok64); [|exact Fv]. pose proof (pat_mk f64 F64 v H) as [_ Hm]. lia. }
    rewrite A3, Z.sub_0_r in S3.
    assert (Tx : T64 (fsub f64 nan v 0) = T64 v) by (apply (T_range f64 F64); [exact S1|]; rewrite S3; now apply (T_trunc f64 F64)).
    rewrite (cvtt_in f64 F64) by (try assumption; try (unfold is_nan; lia); change (32 - 1) with 31; lia). rewrite Tx.
    assert (K : wrap 32 (Z.shiftl (wrap 32 (onesw 64 false)) 31) = 0) by (vm_compute; reflexivity). rewrite K, Z.lor_0_r. unfold wrap. apply Z.mod_small. lia.
Qed.
Theorem f64_to_u32_in_range_ok nan v n : is_pattern f64 v -> finite f64 v -> is_trunc (value f64 v) n -> 0 <= n <= 2 ^ 32 - 1 -> f64_to_u32_in_range nan v = n.
Proof. intros H Fv I B. pose proof (T_range f64 F64 v n H I) as <-. apply f64_u32_core; [exact H|exact Fv|lia]. Qed.
Lemma zin_not_nan f (F : float_type f) v : is_pattern f v -> ~ is_nan f v -> ~ is_nan f (zero_if_neg f v).
Proof. intros H N. destruct (zero_if_neg_T f F v H) as (_ & _ & _ & L & _). unfold is_nan in *. lia. Qed.
Theorem f64_to_u32_ok nan v : is_pattern f64 v -> ~ is_nan f64 v -> converts is_trunc f64 0 (2 ^ 32 - 1) v (f64_to_u32 nan v).
Proof.
  intros H N. pose proof (of_int_holds f64 F64 (2 ^ 32 - 1) (rep64i (2 ^ 32 - 1) ltac:(lia))) as C. change (2 ^ 32 - 1) with 4294967295 in C.
  destruct (zero_if_neg_T f64 F64 v H) as (Z1 & _ & Z2 & _). pose proof (zin_not_nan f64 F64 v H N) as Z3. destruct (minpd_T f64 F64 _ _ _ Z1 Z3 C ltac:(lia)) as (M1 & M2 & M3).
  apply (conv_clamp f64 F64); [exact H|lia|lia|]. unfold f64_to_u32. rewrite f64_u32_core; [|exact M1| |lia].
  - rewrite M3, Z2, clampE by lia. lia.
  - unfold is_nan in M2. destruct (Z.eq_dec (magnitude f64 (minpd f64 (zero_if_neg f64 v) (of_int f64 4294967295))) (inf_mag f64)) as [E|E]; [|lia]. exfalso. pose proof (T_inf f64 F64 _ M1 E) as I. assert (J : 0 <= T64 (minpd f64 (zero_if_neg f64 v) (of_int f64 4294967295)) < 2 ^ 32) by lia. unfold T in J.
    destruct (negative f64 (minpd f64 (zero_if_neg f64 v) (of_int f64 4294967295))); cbn [sg] in J; lia.
Qed.
(** -- the fields of a pattern -- *)
Lemma shr_field f (F : float_type f) v : is_pattern f v -> Z.shiftr v (mbits f) = Z.b2z (negative f v) * 2 ^ ebits f + fld f v.
Proof.
  intros H. destruct (pat_mk f F v H) as [Em Hm]. destruct (ft_M f F) as [B _]. destruct (ft_ok f F) as (O1 & O2 & _). rewrite Z.shiftr_div_pow2 by lia. rewrite Em at 1. unfold mk, fld. assert (P : 0 < 2 ^ mbits f) by (apply pow_pos; lia).
  destruct (negative f v); cbn [Z.b2z].
  - rewrite Z.pow_add_r by lia. rewrite Z.add_comm, Z.div_add by lia. lia.
  - rewrite Z.add_0_l. lia.
Qed.
Lemma man_mod f (F : float_type f) v : is_pattern f v -> v mod 2 ^ mbits f = man f v.
Proof.
  intros H. destruct (pat_mk f F v H) as [Em Hm]. destruct (ft_M f F) as [B _]. destruct (ft_ok f F) as (O1 & O2 & _). rewrite Em at 1. unfold mk, man. assert (P : 0 < 2 ^ mbits f) by (apply pow_pos; lia).
  destruct (negative f v); [|now rewrite Z.add_0_l]. rewrite Z.pow_add_r, Z.add_comm, Z.mod_add by lia. reflexivity.
Qed.
(** lowering the exponent *)
Lemma lower f (F : float_type f) v a : is_pattern f v -> 0 <= a -> a <= fld f v -> let v' := v - a * 2 ^ mbits f in is_pattern f v' /\ negative f v' = negative f v /\ magnitude f v' = magnitude f v - a * 2 ^ mbits f /\ fld f v' = fld f v - a /\ man f v' = man f v.
Proof.
  intros H Ha L. cbv zeta. destruct (pat_mk f F v H) as [Em Hm]. destruct (fld_man f F v ltac:(lia)) as (A & Bf & Bm). assert (P : 0 < 2 ^ mbits f) by (apply pow_pos; destruct (ft_M f F); lia).
  assert (B : 0 <= magnitude f v - a * 2 ^ mbits f < 2 ^ (ebits f + mbits f)) by nia. destruct (mk_facts f F (negative f v) _ B) as (M1 & M2 & M3).
  assert (E : v - a * 2 ^ mbits f = mk f (negative f v) (magnitude f v - a * 2 ^ mbits f)) by (unfold mk in *; lia). rewrite E. split; [exact M1|]. split; [exact M2|]. split; [exact M3|]. unfold fld, man in *. rewrite M3.
  replace (magnitude f v - a * 2 ^ mbits f) with (magnitude f v + (- a) * 2 ^ mbits f) by lia. rewrite Z.div_add, Z.mod_add by lia. split; lia.
Qed.
(** -- float to uint32_t -- *)
Lemma wrap_neg w x k : 0 <= w -> - 2 ^ w <= x < 0 -> k = x + 2 ^ w -> wrap w x = k.
Proof. intros Hw H ->. unfold wrap. replace x with (x + 2 ^ w + (-1) * 2 ^ w) by lia. rewrite Z.mod_add by (apply Z.pow_nonzero; lia). rewrite Z.mod_small by lia. lia. Qed.
Lemma wrap_id w x : 0 <= x < 2 ^ w -> wrap w x = x.
Proof. apply Z.mod_small. Qed.
Lemma parts32 v : is_pattern f32 v -> ~ is_nan f32 v -> 0 <= T32 v -> negative f32 v = false \/ T32 v = 0 ->
  f32_to_u32_parts v = (if T32 v <? 2 ^ 32 then T32 v else 2 ^ 31, wrap 32 (158 - Z.shiftr v 23)) /\ (negative f32 v = false -> msb 32 (wrap 32 (158 - Z.shiftr v 23)) = (2 ^ 32 <=? T32 v)).
Proof.
  intros H N Tp Hn. pose proof (shr_field f32 F32 v H) as S. change (mbits f32) with 23 in S. change (2 ^ ebits f32) with 256 in S. unfold f32_to_u32_parts. rewrite S. pose proof (pat_mk f32 F32 v H) as [_ Hm]. destruct (fld_man f32 F32 v ltac:(lia)) as (A & Bf & Bm).
  pose proof (fld_lt f32 F32 v H) as Lf. change (2 ^ ebits f32) with 256 in Lf. change (mbits f32) with 23 in *. change (ebits f32 + 23) with 31 in *. pose proof (Tm_nonneg f32 F32 v H) as Tn.
  assert (Vr : 0 <= v < 2 ^ 32) by exact H.
  assert (Cv : 0 <= T32 v < 2 ^ 31 -> cvtt f32 32 v = T32 v) by (intros B; rewrite (cvtt_in f32 F32) by (try assumption; change (32 - 1) with 31; lia); apply wrap_id; lia).
  destruct (negative f32 v) eqn:E; cbn [Z.b2z].
  - assert (T0 : T32 v = 0) by (destruct Hn as [Hn|Hn]; [discriminate|exact Hn]). rewrite Z.mul_1_l. rewrite (wrap_neg 32 (158 - (256 + fld f32 v)) (2 ^ 32 - 98 - fld f32 v)) by lia. destruct (Z.eqb_spec (2 ^ 32 - 98 - fld f32 v) 0); [lia|].
    change (onesw 32 false) with 0. change (wrap 32 (Z.shiftl 0 23)) with 0. rewrite Z.add_0_r, (wrap_id 32 v) by lia. rewrite Cv by lia. rewrite T0. split; [reflexivity|]. intros; discriminate.
  - rewrite Z.mul_0_l, Z.add_0_l. set (e := fld f32 v) in *. assert (ET : T32 v = Tm f32 (magnitude f32 v)) by (unfold T; rewrite E; reflexivity).
    destruct (Z.eq_dec e 158) as [E8|E8].
    + rewrite E8. change (wrap 32 (158 - 158)) with 0. change (0 =? 0) with true. change (wrap 32 (Z.shiftl (onesw 32 true) 23)) with (2 ^ 32 - 2 ^ 23). change (onesw 32 true) with (2 ^ 32 - 1).
      destruct (lower f32 F32 v 1 H ltac:(lia) ltac:(fold e; lia)) as (L1 & L2 & L3 & L4 & L5). change (mbits f32) with 23 in *. rewrite Z.mul_1_l in *. fold e in L4. rewrite E8 in L4. change (158 - 1) with 157 in L4.
      replace (wrap 32 (v + (2 ^ 32 - 2 ^ 23))) with (v - 2 ^ 23) by (unfold wrap; replace (v + (2 ^ 32 - 2 ^ 23)) with (v - 2 ^ 23 + 1 * 2 ^ 32) by lia; rewrite Z.mod_add, Z.mod_small by (lia || (unfold is_pattern in L1; change (fwidth f32) with 32 in L1; lia)); reflexivity).
      assert (Ta : T32 v = (2 ^ 23 + man f32 v) * 2 ^ 8) by (rewrite ET, (Tm_int f32 F32) by (assumption || (change (bias f32 + mbits f32) with 150; fold e; lia)); fold e; rewrite E8; reflexivity).
      assert (Tb : T32 (v - 2 ^ 23) = (2 ^ 23 + man f32 v) * 2 ^ 7).
      { unfold T. rewrite L2, E. cbn [sg]. rewrite (Tm_int f32 F32); [|exact L1|change (bias f32 + mbits f32) with 150; lia]. rewrite L4, L5. reflexivity. }
      rewrite (cvtt_in f32 F32 32 (v - 2 ^ 23) L1); [|unfold is_nan in *; lia|lia|change (32 - 1) with 31; lia]. rewrite Tb. rewrite (wrap_id 32 ((2 ^ 23 + man f32 v) * 2 ^ 7)) by lia. rewrite (land_ones_mod _ 32) by (lia || reflexivity). rewrite (Z.mod_small ((2 ^ 23 + man f32 v) * 2 ^ 7)) by lia.
      split; [|intros _; rewrite Ta; symmetry; apply Z.leb_gt; lia]. rewrite (proj2 (Z.ltb_lt _ _)) by lia. f_equal. rewrite wrap_id by lia. lia.
    + assert (M0 : (wrap 32 (158 - e) =? 0) = false).
      { apply Z.eqb_neq. destruct (Z_lt_le_dec (158 - e) 0); [rewrite (wrap_neg 32 _ (158 - e + 2 ^ 32)) by lia; lia|rewrite wrap_id by lia; lia]. }
      rewrite M0. change (onesw 32 false) with 0. change (wrap 32 (Z.shiftl 0 23)) with 0. rewrite Z.add_0_r, (wrap_id 32 v) by lia. rewrite Z.land_0_r, Z.add_0_r.
      destruct (Z_lt_le_dec e 158) as [L|L].
      * assert (B : T32 v < 2 ^ 31) by (rewrite ET; apply (Tm_lt f32 F32); [exact H|lia|change (bias f32) with 127; fold e; lia]). rewrite Cv by lia. rewrite (wrap_id 32 (T32 v)) by lia. rewrite (proj2 (Z.ltb_lt _ _)) by lia. split; [reflexivity|].
        intros _. rewrite (proj2 (Z.leb_gt _ _)) by lia. rewrite wrap_id by lia. unfold msb. change (32 - 1) with 31. apply (tb_high 31); lia.
      * assert (B : 2 ^ 32 <= T32 v) by (rewrite ET; apply (Tm_ge f32 F32); [exact H|change (bias f32) with 127; fold e; lia]). rewrite (cvtt_out f32 F32) by (try assumption; change (32 - 1) with 31; lia). change (32 - 1) with 31. rewrite (wrap_id 32 (2 ^ 31)) by lia.
        rewrite (proj2 (Z.ltb_ge _ _)) by lia. split; [reflexivity|]. intros _. rewrite (proj2 (Z.leb_le _ _)) by lia. rewrite (wrap_neg 32 _ (158 - e + 2 ^ 32)) by lia. unfold msb. change (32 - 1) with 31.
        replace (158 - e + 2 ^ 32) with (1 * 2 ^ 31 + (2 ^ 31 + 158 - e)) by lia. rewrite <- lor_shift_add by lia. rewrite Z.lor_spec, Z.mul_pow2_bits, Z.sub_diag by lia. reflexivity.
Qed.
Theorem f32_to_u32_in_range_ok v n : is_pattern f32 v -> finite f32 v -> is_trunc (value f32 v) n -> 0 <= n <= 2 ^ 32 - 1 -> f32_to_u32_in_range v = n.
Proof.
  intros H Fv I B. pose proof (T_range f32 F32 v n H I) as <-. assert (N : ~ is_nan f32 v) by (unfold is_nan, finite in *; lia). unfold f32_to_u32_in_range.
  destruct (parts32 v H N ltac:(lia)) as [E _]; [|rewrite E; cbn [fst]; rewrite (proj2 (Z.ltb_lt _ _)) by lia; reflexivity].
  pose proof (Tm_nonneg f32 F32 v H). unfold T in *. destruct (negative f32 v); [right|left; reflexivity]. cbn [sg] in *. lia.
Qed.
Theorem f32_to_u32_ok v : is_pattern f32 v -> ~ is_nan f32 v -> converts is_trunc f32 0 (2 ^ 32 - 1) v (f32_to_u32 v).
Proof.
  intros H N. apply (conv_clamp f32 F32); [exact H|lia|lia|]. destruct (zero_if_neg_T f32 F32 v H) as (Z1 & Z0 & Z2 & _). pose proof (zin_not_nan f32 F32 v H N) as Z3. unfold f32_to_u32.
  destruct (parts32 _ Z1 Z3 ltac:(lia) (or_introl Z0)) as [E Q]. specialize (Q Z0). rewrite E, Q, Z2, clampE by lia. destruct (Z.leb_spec (2 ^ 32) (Z.max 0 (T32 v))), (Z.ltb_spec (Z.max 0 (T32 v)) (2 ^ 32)); try lia.
  - change (onesw 32 true) with (2 ^ 32 - 1). rewrite Z.min_l by lia. reflexivity.
  - change (onesw 32 false) with 0. rewrite Z.lor_0_r. lia.
Qed.
