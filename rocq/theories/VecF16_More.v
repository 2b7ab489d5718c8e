(** PromoteTo from float16_t, DemoteTo from double, bfloat16_t vectors. *)
From Coq Require Import ZArith Bool List Lia Permutation.
From Verif Require Import Word Word_Proofs Float_Spec Float_Model Float_Proofs Float_Conv Float_F64 Float_More Rounding_Model Rounding_Spec Pow2_Spec Pow2_Model Pow2_Round Pow2_Lanes Pow2_Proofs VecF16_Model VecF16_Proofs.
Import ListNotations.
Open Scope Z_scope.
Arguments Z.pow : simpl never.
Arguments Z.mul : simpl never.
Arguments Z.add : simpl never.

(** --- PromoteTo(f32, f16) --- *)
Lemma sub_eq nan m : 0 <= m < 1024 -> fmul binary32 nan (of_int binary32 (swrap 32 m)) 0x33800000 = f32_mul_mag 0x38800000 (f32_mul_mag (f32_of_uint m) 0x3A800000).
Proof.
  intros H. destruct (f32_sub16 m H) as (A & R). cbv zeta in A, R. set (r := f32_mul_mag 0x38800000 (f32_mul_mag (f32_of_uint m) 0x3A800000)) in *.
  assert (SF : simd_float binary32) by (right; left; reflexivity).
  change 0x33800000 with (factor binary32 (-24)). rewrite swrap_small by (unfold in_s; change (2 ^ (32 - 1)) with 2147483648; lia).
  unfold of_int. rewrite (proj2 (Z.ltb_ge m 0)) by lia. rewrite Z.abs_eq by lia. change (m * one) with (m * 2 ^ 1074). change (ieee_round binary32 (m * 2 ^ 1074)) with (f32_of_uint m).
  assert (E : mag_value binary32 (f32_of_uint m) = m * 2 ^ 1074).
  { unfold f32_of_uint. apply round_repr; [apply ok32|lia| |change (s0 binary32) with 925; lia|apply V32_le_inf; lia].
    intros. change (mbits binary32) with 23. apply (log2_small m 24); lia. }
  assert (RR : 0 <= f32_of_uint m <= inf_mag binary32) by (apply ieee_round_range; [apply ok32|apply Z.mul_nonneg_nonneg; [lia|apply Z.pow_nonneg; lia]]).
  assert (NI : f32_of_uint m <> inf_mag binary32).
  { intros C. rewrite C in E. replace (mag_value binary32 (inf_mag binary32)) with (2 ^ 128 * 2 ^ 1074) in E by (vm_compute; reflexivity). assert (P : 0 < 2 ^ 1074) by (apply pow2_gt0; lia). apply Z.mul_reg_r in E; [change (2 ^ 128) with 340282366920938463463374607431768211456 in E; lia|lia]. }
  rewrite (fmul_step binary32 SF) by (change (bias binary32) with 127; lia). unfold mk.
  rewrite Z.add_0_l. pose proof (step_near binary32 SF (f32_of_uint m) (-24) ltac:(lia) ltac:(lia)) as N. unfold times_pow2 in N. change (Z.max 0 (-24)) with 0 in N. change (Z.max 0 (- -24)) with 24 in N. change (2 ^ 0) with 1 in N. rewrite Z.mul_1_r in N.
  apply (scaled_unique binary32 ok32 24 ltac:(lia) _ _ _ N). replace (mag_value binary32 (f32_of_uint m)) with (mag_value binary32 r * 2 ^ 24) by (rewrite A, E; change 1074 with (1050 + 24); rewrite Z.pow_add_r by lia; ring).
  apply (scaled_exact binary32 ok32 24 ltac:(lia)). exact R.
Qed.
Lemma promote_finite nan v : is_pattern binary16 v -> magnitude binary16 v < inf_mag binary16 -> promote_f16 nan v = f32_from_f16 v.
Proof.
  intros Hv Hm. destruct (pat_split binary16 v ok16 Hv) as (s & Hs & E & _ & Hr). change (ebits binary16 + mbits binary16) with 15 in *. change (inf_mag binary16) with 31744 in Hm.
  set (x := magnitude binary16 v) in *. unfold promote_f16, f32_from_f16.
  assert (S : Z.shiftr v 15 = s) by (rewrite shiftr_div by lia; symmetry; apply Z.div_unique with x; lia). rewrite S.
  assert (BE : Z.land (Z.shiftr v 10) 31 = x / 1024).
  { rewrite shiftr_div by lia. change 31 with (2 ^ 5 - 1). rewrite land_ones' by lia. rewrite E. change (2 ^ 15) with 32768. change (2 ^ 10) with 1024. change (2 ^ 5) with 32.
    replace (s * 32768 + x) with (x + s * 32 * 1024) by ring. rewrite Z.div_add, Z.mod_add by lia. apply Z.mod_small. split; [apply Z.div_pos; lia|apply Z.div_lt_upper_bound; lia]. }
  rewrite BE. assert (x / 1024 < 31) by (apply Z.div_lt_upper_bound; lia). assert (0 <= x / 1024) by (apply Z.div_pos; lia).
  destruct (Z.eqb_spec (x / 1024) 0) as [Z0|NZ].
  - assert (MR : 0 <= Z.land v 1023 < 1024) by (change 1024 with (2 ^ 10); rewrite Z.land_comm; apply land_range; [lia|split; [lia|reflexivity]]).
    rewrite sub_eq by exact MR. rewrite Z.shiftl_mul_pow2 by lia.
    destruct Hs; subst s; cbn [Z.eqb negb]; [reflexivity|]. rewrite Z.lor_comm. reflexivity.
  - rewrite (proj2 (Z.eqb_neq (x / 1024) 31)) by lia. rewrite Z.lor_assoc. reflexivity.
Qed.
Lemma promote_f16_ok nan v : is_pattern binary16 v -> is_pattern binary32 (promote_f16 nan v) /\ negative binary32 (promote_f16 nan v) = negative binary16 v /\
  magnitude binary32 (promote_f16 nan v) < inf_mag binary32 /\ value binary32 (promote_f16 nan v) = value binary16 v.
Proof.
  intros Hv. destruct (Z.lt_ge_cases (magnitude binary16 v) (inf_mag binary16)) as [L|L].
  - rewrite promote_finite by assumption. destruct (f32_from_f16_exact v Hv) as (A1 & A2 & _ & _ & A5). specialize (A5 L). tauto.
  - destruct (pat_split binary16 v ok16 Hv) as (s & Hs & E & Hneg & Hr). change (ebits binary16 + mbits binary16) with 15 in *. change (inf_mag binary16) with 31744 in L.
    set (x := magnitude binary16 v) in *. change (2 ^ 15) with 32768 in *.
    set (m := x - 31744).
    assert (P : promote_f16 nan v = s * 2 ^ 31 + (143 * 2 ^ 23 + m * 2 ^ 13)).
    { unfold promote_f16. assert (S : Z.shiftr v 15 = s) by (rewrite shiftr_div by lia; change (2 ^ 15) with 32768; symmetry; apply Z.div_unique with x; lia). rewrite S.
      assert (BE : Z.land (Z.shiftr v 10) 31 = 31).
      { rewrite shiftr_div by lia. change 31 with (2 ^ 5 - 1) at 1. rewrite land_ones' by lia. rewrite E. change (2 ^ 10) with 1024. change (2 ^ 5) with 32.
        replace (s * 32768 + x) with (m + (31 + s * 32) * 1024) by (unfold m; ring). rewrite Z.div_add by lia. rewrite (Z.div_small m) by (unfold m; lia). rewrite Z.add_0_l. rewrite Z.mod_add by lia. reflexivity. }
      assert (MA : Z.land v 1023 = m).
      { change 1023 with (2 ^ 10 - 1). rewrite land_ones' by lia. change (2 ^ 10) with 1024. rewrite E. replace (s * 32768 + x) with (m + (31 + s * 32) * 1024) by (unfold m; ring). rewrite Z.mod_add by lia. apply Z.mod_small. unfold m; lia. }
      rewrite BE, MA. change (31 =? 0) with false. cbv iota. change (wrap 32 (31 + (127 - 15))) with 143. change (wrap 32 (Z.shiftl 143 23)) with (143 * 2 ^ 23).
      rewrite !Z.shiftl_mul_pow2 by lia. change (23 - 10) with 13. rewrite (wrap_small 32 (m * 2 ^ 13)) by (unfold m; change (2 ^ 13) with 8192; change (2 ^ 32) with 4294967296; lia).
      rewrite (wrap_small 32 (s * 2 ^ 31)) by (change (2 ^ 31) with 2147483648; change (2 ^ 32) with 4294967296; lia).
      rewrite (lor_shift_add 143 (m * 2 ^ 13) 23) by (unfold m; change (2 ^ 13) with 8192; change (2 ^ 23) with 8388608; lia).
      rewrite lor_shift_add by (unfold m; change (2 ^ 13) with 8192; change (2 ^ 23) with 8388608; change (2 ^ 31) with 2147483648; lia). reflexivity. }
    rewrite P. assert (R : 0 <= 143 * 2 ^ 23 + m * 2 ^ 13 < 2 ^ 31) by (unfold m; change (2 ^ 13) with 8192; change (2 ^ 23) with 8388608; change (2 ^ 31) with 2147483648; lia).
    destruct (make32 s _ Hs R) as (M1 & M2 & M3). split; [exact M1|]. split; [rewrite M2, Hneg; reflexivity|]. rewrite M3.
    split; [change (inf_mag binary32) with (255 * 8388608); unfold m; change (2 ^ 13) with 8192; change (2 ^ 23) with 8388608; lia|].
    unfold value. rewrite M2, M3, Hneg. fold x.
    assert (VV : mag_value binary32 (143 * 2 ^ 23 + m * 2 ^ 13) = mag_value binary16 x).
    { replace x with (30 * 2 ^ mbits binary16 + (1024 + m)) by (unfold m; change (2 ^ mbits binary16) with 1024; lia). rewrite (V_grid binary16 ok16 30 (1024 + m)) by (unfold m; change (2 ^ mbits binary16) with 1024; lia).
      rewrite V32_ef by (unfold m; change (2 ^ 13) with 8192; change (2 ^ 23) with 8388608; lia). rewrite s0_16. change (143 - 1 + 925) with 1067. change (30 + 1050) with (13 + 1067). rewrite Z.pow_add_r by lia. change (2 ^ 23) with (1024 * 2 ^ 13). ring. }
    rewrite VV. reflexivity.
Qed.
Lemma exact_trans f g h b r t : exact_conversion f g b r -> exact_conversion g h r t -> magnitude f b < inf_mag f -> is_pattern h t /\ negative h t = negative f b /\ magnitude h t < inf_mag h /\ value h t = value f b.
Proof. intros (A1 & A2 & A3 & A4 & A5) (B1 & B2 & B3 & B4 & B5) H. destruct (A5 H) as (A6 & A7). destruct (B5 A6) as (B6 & B7). split; [exact B1|split; [congruence|split; [exact B6|congruence]]]. Qed.

(** --- DemoteTo(f16, f64) --- *)
Section F64.
Context (nan : Z -> Z -> Z) (nan64 : Z -> Z) (Hn : nan32_ok nan) (Hn64 : forall b, is_nan binary64 b -> 0 < nan64 b < 2 ^ 23).
Lemma odd64 b : is_pattern binary64 b -> is_pattern binary64 (rto 29 b) /\ negative binary64 (rto 29 b) = negative binary64 b /\
  (magnitude binary64 (rto 29 b) ?= inf_mag binary64) = (magnitude binary64 b ?= inf_mag binary64).
Proof.
  intros Hb. destruct (pat_split binary64 b ok64 Hb) as (s & Hs & E & Hsn & Hm).
  change (ebits binary64 + mbits binary64) with 63 in *. set (x := magnitude binary64 b) in *.
  rewrite E. destruct (rto_eq 29 s x ltac:(lia) Hs Hm) as (-> & Ro).
  destruct (pat_make binary64 s (odd_mag 29 x) ok64 Hs Ro) as (M1 & M2 & M3). change (ebits binary64 + mbits binary64) with 63 in *.
  split; [exact M1|]. rewrite M2, M3. rewrite <- E, Hsn. split; [reflexivity|].
  apply odd_mag_compare; [lia|lia|]. vm_compute. reflexivity.
Qed.
Lemma f32_class b : is_pattern binary64 b -> is_pattern binary32 (f32_of_f64 nan64 b) /\ negative binary32 (f32_of_f64 nan64 b) = negative binary64 b /\
  (is_nan binary64 b <-> is_nan binary32 (f32_of_f64 nan64 b)) /\
  (mag_value binary32 (inf_mag binary32 - 1) < mag_value binary64 (magnitude binary64 b) -> ~ is_nan binary64 b -> inf_mag binary32 - 1 <= magnitude binary32 (f32_of_f64 nan64 b) <= inf_mag binary32).
Proof.
  intros Hb. destruct (pat_split binary64 b ok64 Hb) as (s & Hs & E & Hsn & Hm).
  change (ebits binary64 + mbits binary64) with 63 in *. unfold is_nan. set (x := magnitude binary64 b) in *. rewrite E at 1 2 4 5 6.
  destruct (f32_of_f64_eq nan64 s x Hs Hm Hn64) as (c & -> & Rc & C1 & C2 & C3).
  destruct (make32 s c Hs Rc) as (M1 & M2 & M3). split; [exact M1|]. rewrite M2, M3, Hsn. split; [reflexivity|].
  assert (RR : x < inf_mag binary64 -> 0 <= c <= inf_mag binary32).
  { intros L. rewrite (C3 L). apply ieee_round_range; [apply ok32|]. apply V_nonneg; [apply ok64|lia]. }
  split.
  - split; [exact C1|]. intros L. destruct (Z.lt_trichotomy x (inf_mag binary64)) as [H|[H|H]]; [specialize (RR H); lia|specialize (C2 H); lia|exact H].
  - intros L N. destruct (Z.lt_ge_cases x (inf_mag binary64)) as [H|H].
    + specialize (RR H). split; [|lia]. assert (G : mag_value binary32 (inf_mag binary32 - 1) <= mag_value binary32 c).
      { rewrite (C3 H). apply (nearest_ge binary32 (mag_value binary64 x)); [apply ok32| |vm_compute; split; discriminate|lia].
        apply ieee_round_nearest; [apply ok32|]. apply V_nonneg; [apply ok64|lia]. }
      destruct (Z.lt_ge_cases c (inf_mag binary32 - 1)) as [LL|LL]; [|lia]. pose proof (V_mono_lt binary32 ok32 c (inf_mag binary32 - 1) ltac:(lia) LL). lia.
    + rewrite (C2 ltac:(lia)). lia.
Qed.
Lemma demote_big u8 s c : (s = 0 \/ s = 1) -> inf_mag binary32 - 1 <= c <= inf_mag binary32 -> demote_f16 nan u8 (s * 2 ^ 31 + c) = s * 2 ^ 15 + 31 * 1024.
Proof.
  intros Hs Hc. assert (C : c = 0x7F7FFFFF \/ c = 0x7F800000) by (change (inf_mag binary32) with 0x7F800000 in Hc; lia).
  destruct Hs; subst s; destruct C; subst c; destruct u8; vm_compute; reflexivity.
Qed.
(** EMU128 limits to the largest float, other targets overflow to infinity: no difference here *)
Lemma emu_same u8 b : is_pattern binary64 b -> demote_f16 nan u8 (demote_f64_f32 nan64 b) = demote_f16 nan u8 (f32_of_f64 nan64 b).
Proof.
  intros Hb. unfold demote_f64_f32.
  assert (HF : hwy_float binary64) by (right; right; right; reflexivity).
  destruct (classify_ok binary64 b HF Hb) as (_ & CI & _ & CS & (A1 & A2 & A3) & _).
  destruct (scalar_is_inf binary64 b || (inf_mag binary64 >=? scalar_abs binary64 b) && (mag_value binary32 (inf_mag binary32 - 1) <? value binary64 (scalar_abs binary64 b))) eqn:C; [|reflexivity].
  assert (SA : scalar_abs binary64 b = magnitude binary64 b).
  { destruct (pat_split binary64 _ ok64 A1) as (s & Hs & E & Hsn & Hm). rewrite A2 in Hsn. rewrite A3 in *. destruct Hs; subst s; [lia|discriminate]. }
  rewrite SA in C. unfold value in C. rewrite <- SA, A2, A3 in C.
  assert (Big : mag_value binary32 (inf_mag binary32 - 1) < mag_value binary64 (magnitude binary64 b) /\ ~ is_nan binary64 b).
  { unfold is_nan. apply orb_true_iff in C. destruct C as [C|C].
    - apply CI in C. unfold is_inf in C. rewrite C. split; [vm_compute; reflexivity|lia].
    - apply andb_true_iff in C. destruct C as (C1 & C2). apply Z.ltb_lt in C2. rewrite <- A3 at 2. rewrite Z.geb_leb in C1. apply Z.leb_le in C1. rewrite ?A3, ?SA in *. split; [exact C2|lia]. }
  destruct (f32_class b Hb) as (F1 & F2 & _ & F4). specialize (F4 (proj1 Big) (proj2 Big)).
  destruct (pat32 _ F1) as (s & Hs & E & Hneg & Hm). rewrite E, demote_big by assumption.
  rewrite CS, <- F2, Hneg. destruct Hs; subst s; cbn [Z.eqb Pos.eqb].
  - rewrite <- (demote_big u8 0 (inf_mag binary32 - 1)) by (auto; lia). reflexivity.
  - rewrite <- (demote_big u8 1 (inf_mag binary32 - 1)) by (auto; lia). reflexivity.
Qed.
Lemma demote_f64_f16_ok u8 b : is_pattern binary64 b ->
  (~ is_nan binary64 b -> correct_conversion binary64 binary16 b (demote_f64_f16 nan u8 (f32_of_f64 nan64) b)) /\
  (is_nan binary64 b -> is_pattern binary16 (demote_f64_f16 nan u8 (f32_of_f64 nan64) b) /\ is_nan binary16 (demote_f64_f16 nan u8 (f32_of_f64 nan64) b)) /\
  demote_f64_f16 nan u8 (demote_f64_f32 nan64) b = demote_f64_f16 nan u8 (f32_of_f64 nan64) b.
Proof.
  intros Hb. unfold demote_f64_f16. change (Z.lor (Z.land b 18446744073172680704) (Z.land (wrap 64 (b + 536870911)) 536870912)) with (rto 29 b).
  destruct (odd64 b Hb) as (O1 & O2 & O3). destruct (f32_class _ O1) as (F1 & F2 & F3 & _).
  destruct (odd_then_f32 binary16 29 ok16 ltac:(lia) ltac:(vm_compute; discriminate) ltac:(vm_compute; discriminate)
    ltac:(vm_compute; reflexivity) ltac:(vm_compute; discriminate) nan64 b Hn64 Hb) as (P & Q).
  destruct (demote_f16_ok nan u8 _ Hn P) as (D1 & D2).
  assert (NN : is_nan binary64 (rto 29 b) <-> is_nan binary64 b).
  { unfold is_nan. rewrite !Z.lt_nge, !Z.le_ngt. rewrite <- !Z.compare_gt_iff, O3. tauto. }
  split; [|split].
  - intros N. apply Q, D1. rewrite <- F3, NN. exact N.
  - intros N. apply D2. apply F3, NN. exact N.
  - apply emu_same. exact O1.
Qed.
End F64.

(** --- bfloat16_t --- *)
Lemma round_bf16_eq v : is_pattern binary32 v -> Z.shiftr (round_bf16 v) 16 = bf16_from_f32 v /\ 0 <= round_bf16 v < 2 ^ 32.
Proof.
  intros Hv. destruct (pat32 v Hv) as (s & Hs & E & _ & Hm). set (x := magnitude binary32 v) in *.
  assert (LA : Z.land v 2147483647 = x) by (apply (land_mod v 31); [lia|reflexivity]).
  unfold round_bf16, bf16_from_f32, f32_bits_to_bf16_round_incr, f32_nan. fold x. rewrite LA. change (inf_mag binary32) with 2139095040.
  assert (V32 : 0 <= v < 2 ^ 32) by exact Hv.
  assert (B01 : 0 <= Z.land (Z.shiftr v 16) 1 <= 1). { rewrite (land_mod _ 1) by (lia || reflexivity). pose proof (Z.mod_pos_bound (Z.shiftr v 16) (2 ^ 1) ltac:(lia)). change (2 ^ 1) with 2 in *. lia. }
  assert (SR : forall y, 0 <= y < 2 ^ 32 -> 0 <= Z.shiftr y 16 < 2 ^ 16) by (intros y Hy; rewrite shiftr_div by lia; split; [apply Z.div_pos; lia|apply Z.div_lt_upper_bound; [lia|exact (proj2 Hy)]]).
  destruct (Z.ltb_spec 2139095040 x) as [N|N].
  - rewrite (proj2 (Z.ltb_ge x _)) by lia. cbn [negb]. rewrite Z.add_0_r, (wrap_small 32 v) by exact V32. change (Z.shiftl 1 6) with (Z.shiftr 4194304 16).
    assert (R : 0 <= Z.lor v 4194304 < 2 ^ 32) by (apply lor_range; [lia|exact V32|split; [lia|reflexivity]]).
    split; [|exact R]. rewrite <- Z.shiftr_lor, wrap_small by (apply SR; exact R). reflexivity.
  - cbn [negb]. change (Z.shiftl 0 6) with 0. rewrite Z.lor_0_r. rewrite (wrap_small 32 (Z.land (Z.shiftr v 16) 1 + 32767)) by (change (2 ^ 32) with 4294967296; lia).
    pose proof (wrap_range 32 (v + (Z.land (Z.shiftr v 16) 1 + 32767)) ltac:(lia)) as R. split; [|exact R].
    destruct (Z.ltb_spec x 2139095040) as [L|L].
    + rewrite (Z.add_comm 32767). rewrite (wrap_small 16) by (apply SR; exact R). reflexivity.
    + (* infinity *) assert (X : x = 2139095040) by lia. rewrite Z.add_0_r, (wrap_small 32 v) by exact V32. rewrite (wrap_small 16) by (apply SR; exact V32).
      rewrite E, X. destruct Hs; subst s; vm_compute; reflexivity.
Qed.
Lemma odd_halves v : odd_lanes (halves v) = map (fun x => Z.shiftr x 16) v.
Proof. unfold halves. induction v as [|x v IH]; [reflexivity|]. cbn [flat_map app odd_lanes map]. rewrite IH. reflexivity. Qed.
Lemma rounds_map v : Forall (is_pattern binary32) v -> map (fun x => Z.shiftr x 16) (map round_bf16 v) = map bf16_from_f32 v.
Proof. intros H. rewrite map_map. apply map_ext_in. intros x Hx. rewrite Forall_forall in H. apply round_bf16_eq, H, Hx. Qed.
Lemma demote_bf16_eq v : Forall (is_pattern binary32) v -> demote_bf16 v = map bf16_from_f32 v.
Proof.
  intros H. unfold demote_bf16, concat_odd. rewrite odd_halves, rounds_map by exact H.
  rewrite firstn_app, map_length, Nat.sub_diag. cbn [firstn]. rewrite app_nil_r. rewrite <- (map_length bf16_from_f32 v) at 1. apply firstn_all.
Qed.
Lemma ordered_demote2_bf16_eq a b : Forall (is_pattern binary32) a -> Forall (is_pattern binary32) b -> ordered_demote2_bf16 a b = map bf16_from_f32 (a ++ b).
Proof. intros Ha Hb. unfold ordered_demote2_bf16, concat_odd. rewrite !odd_halves, !rounds_map by assumption. symmetry. apply map_app. Qed.
Lemma reorder_demote2_bf16_perm a b : Forall (is_pattern binary32) a -> Forall (is_pattern binary32) b -> length a = length b -> Permutation (reorder_demote2_bf16 a b) (map bf16_from_f32 (a ++ b)).
Proof.
  unfold reorder_demote2_bf16, halves. revert b. induction a as [|x a IH]; intros [|y b] Ha Hb L; try discriminate; [constructor|].
  inversion Ha; inversion Hb; subst. cbn [map flat_map app odd_even].
  destruct (round_bf16_eq x) as (X1 & _); [assumption|]. destruct (round_bf16_eq y) as (Y1 & Y2); [assumption|]. rewrite X1, Y1.
  rewrite (wrap_small 16). 2:{ rewrite <- Y1, shiftr_div by lia. split; [apply Z.div_pos; lia|apply Z.div_lt_upper_bound; [lia|exact (proj2 Y2)]]. }
  rewrite map_app. cbn [map]. rewrite perm_swap. apply perm_skip. rewrite <- Permutation_middle. apply perm_skip. rewrite <- map_app. apply IH; try assumption. cbn in L. lia.
Qed.
Lemma promote_bf16_eq v : promote_bf16 v = map f32_from_bf16 v. Proof. reflexivity. Qed.
