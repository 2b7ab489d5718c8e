(** ConvertTo / PromoteTo / DemoteTo from integers: the steps of the code; 64-bit integers to float through rounding to odd. *)
From Coq Require Import ZArith Bool Lia.
From Verif Require Import Word Word_Proofs Float_Spec Float_Model Float_Proofs Float_Conv Float_F64 Float_More Rounding_Model Rounding_Spec Rounding_Core Rounding_Proofs Rounding_Bits
  Pow2_Spec Pow2_Model Pow2_Round Shift_Spec Shift_Proofs Cmp_Model Cmp_Proofs X86Conv_Model X86Conv_Int.
Open Scope Z_scope.
Ltac Zify.zify_post_hook ::= idtac.
Arguments Z.pow : simpl never.
Arguments Z.mul : simpl never.
Arguments R : simpl never.
Definition F32 : float_type f32 := or_introl eq_refl.
Definition F64 : float_type f64 := or_intror eq_refl.

(** bit operations that only place fields *)
Lemma land_fields a x n : 0 <= n -> 0 <= x < 2 ^ n -> Z.land (a * 2 ^ n) x = 0.
Proof.
  intros Hn Hx. apply Z.bits_inj'. intros k Hk. rewrite Z.land_spec, Z.testbit_0_l. destruct (Z_lt_le_dec k n).
  - rewrite Z.mul_pow2_bits_low by lia. reflexivity.
  - rewrite (tb_high n x) by lia. apply andb_false_r.
Qed.
Lemma lor_fields a x n : 0 <= n -> 0 <= x < 2 ^ n -> Z.lor x (a * 2 ^ n) = a * 2 ^ n + x.
Proof. intros. rewrite Z.lor_comm. now apply lor_shift_add. Qed.
Lemma lxor_fields a x y n : 0 <= n -> 0 <= x < 2 ^ n -> 0 <= y < 2 ^ n -> Z.lxor x (a * 2 ^ n + y) = a * 2 ^ n + Z.lxor x y.
Proof.
  intros Hn Hx Hy. assert (E : forall z, 0 <= z < 2 ^ n -> a * 2 ^ n + z = Z.lxor (a * 2 ^ n) z) by (intros; apply Z.add_nocarry_lxor; now apply land_fields).
  assert (L : 0 <= Z.lxor x y < 2 ^ n).
  { split; [rewrite Z.lxor_nonneg; lia|]. destruct (Z.eq_dec (Z.lxor x y) 0) as [->|N]; [apply pow_pos; lia|]. apply Z.log2_lt_cancel. rewrite Z.log2_pow2 by lia.
    assert (0 <= Z.lxor x y) by (rewrite Z.lxor_nonneg; lia). destruct (Z_lt_le_dec (Z.log2 (Z.lxor x y)) n) as [|G]; [assumption|exfalso].
    assert (T := Z.bit_log2 (Z.lxor x y) ltac:(lia)). rewrite Z.lxor_spec, (tb_high n x), (tb_high n y) in T by lia. discriminate. }
  rewrite !E by assumption. rewrite (Z.lxor_comm x), !Z.lxor_assoc. f_equal. apply Z.lxor_comm.
Qed.
Lemma flip w h : 0 < w -> lane w h -> Z.lxor h (2 ^ (w - 1)) = signed w h + 2 ^ (w - 1) /\ lane w (Z.lxor h (2 ^ (w - 1))).
Proof.
  intros Hw Hh. destruct (flip_sign w h Hw Hh) as [L S]. split; [|exact L]. assert (D : 2 ^ w = 2 * 2 ^ (w - 1)) by (rewrite <- Z.pow_succ_r by lia; f_equal; lia).
  unfold lane, signed in *. set (g := Z.lxor h (2 ^ (w - 1))) in *. clearbody g. destruct (Z.ltb_spec g (2 ^ (w - 1))), (Z.ltb_spec h (2 ^ (w - 1))); lia.
Qed.
Lemma signed_split w k v : 0 < k < w -> lane w v -> lane (w - k) (v / 2 ^ k) /\ signed w v = signed (w - k) (v / 2 ^ k) * 2 ^ k + v mod 2 ^ k /\ 0 <= v mod 2 ^ k < 2 ^ k.
Proof.
  intros Hk Hv. assert (Pk : 0 < 2 ^ k) by (apply pow_pos; lia). assert (E : 2 ^ w = 2 ^ (w - k) * 2 ^ k) by (rewrite <- Z.pow_add_r by lia; f_equal; lia).
  assert (E1 : 2 ^ (w - 1) = 2 ^ (w - k - 1) * 2 ^ k) by (rewrite <- Z.pow_add_r by lia; f_equal; lia). assert (P1 : 0 < 2 ^ (w - k - 1)) by (apply pow_pos; lia).
  pose proof (Z.div_mod v (2 ^ k) ltac:(lia)) as D. pose proof (Z.mod_pos_bound v (2 ^ k) Pk) as B. unfold lane, signed in *. rewrite E, E1 in *.
  assert (0 <= v / 2 ^ k) by (apply Z.div_pos; lia). assert (v / 2 ^ k < 2 ^ (w - k)) by (apply Z.div_lt_upper_bound; lia).
  set (q := v / 2 ^ k) in *. set (r := v mod 2 ^ k) in *. set (p := 2 ^ (w - k - 1)) in *. set (u := 2 ^ k) in *. clearbody q r p u.
  split; [lia|]. split; [|lia]. destruct (Z.ltb_spec v (p * u)), (Z.ltb_spec q p); nia.
Qed.
Lemma signed_bound w v : 0 < w -> lane w v -> - 2 ^ (w - 1) <= signed w v < 2 ^ (w - 1).
Proof. intros. now apply signed_range. Qed.
Lemma msb_of f (F : float_type f) a : is_pattern f a -> msb (fwidth f) a = negative f a.
Proof.
  intros Ha. pose proof (sign_bit_eq f F a Ha) as E. destruct (pat_mk f F a Ha) as [Em Hm]. unfold msb, mk in *. assert (EW : fwidth f - 1 = ebits f + mbits f) by (unfold fwidth; lia). rewrite EW.
  destruct (ft_ok f F) as (O1 & O2 & _). set (n := ebits f + mbits f) in *. assert (0 <= n) by lia. destruct (negative f a).
  - rewrite Em. replace (2 ^ n + magnitude f a) with (1 * 2 ^ n + magnitude f a) by lia. rewrite <- lor_shift_add by lia. rewrite Z.lor_spec, Z.mul_pow2_bits by lia. rewrite (tb_high n (magnitude f a)) by lia. rewrite Z.sub_diag. reflexivity.
  - rewrite Em, Z.add_0_l. apply (tb_high n); lia.
Qed.

(** -- to double -- *)
Notation h64 := (holds f64).
Lemma rep64 j p : 0 <= p <= 40 -> Z.abs j < 2 ^ 53 -> repr f64 (j * 2 ^ p).
Proof.
  intros Hp Hj. assert (0 < 2 ^ p) by (apply pow_pos; lia). exists (Z.abs j), p. change (mbits f64 + 1) with 53. split; [lia|]. split; [lia|]. rewrite Z.abs_mul, (Z.abs_eq (2 ^ p)) by lia. split; [reflexivity|].
  change (2 ^ 100) with (2 ^ 60 * 2 ^ 40). apply Z.mul_le_mono_nonneg; [lia|lia|lia|]. apply Z.pow_le_mono_r; lia.
Qed.
Lemma rep64i j : Z.abs j < 2 ^ 53 -> repr f64 j.
Proof. intros H. replace j with (j * 2 ^ 0) by lia. apply rep64; lia. Qed.
Lemma fields64 e m z : 0 <= m < 2 ^ 52 -> 1075 <= e < 2047 -> z = (2 ^ 52 + m) * 2 ^ (e - 1075) -> h64 (e * 2 ^ 52 + m) z.
Proof.
  intros Hm He ->. pose proof (fields_holds f64 F64 e m) as H. change (mbits f64) with 52 in H. change (bias f64) with 1023 in H. change (2 ^ ebits f64 - 1) with 2047 in H.
  replace (e - 1075) with (e - 1023 - 52) by lia. apply H; lia.
Qed.
Theorem i64_to_f64_eq nan v : lane 64 v -> i64_to_f64 nan v = of_int f64 (signed 64 v).
Proof.
  intros Hv. unfold i64_to_f64. destruct (signed_split 64 32 v ltac:(lia) Hv) as (Lh & E & Lr). change (64 - 32) with 32 in *. rewrite Z.shiftr_div_pow2 by lia. unfold wrap. set (h := v / 2 ^ 32) in *. set (r := v mod 2 ^ 32) in *.
  destruct (flip 32 h ltac:(lia) Lh) as [E1 L1]. pose proof (signed_bound 32 h ltac:(lia) Lh) as B. change (32 - 1) with 31 in *.
  assert (U : Z.lxor h 0x4530000080000000 = 0x453 * 2 ^ 52 + (signed 32 h + 2 ^ 31)).
  { change 0x4530000080000000 with (0x45300000 * 2 ^ 32 + 2 ^ 31). rewrite lxor_fields by (unfold lane in *; lia). rewrite E1. lia. }
  rewrite U. set (s := signed 32 h) in *. clearbody s h. unfold lane in *.
  assert (H1 : h64 (0x453 * 2 ^ 52 + (s + 2 ^ 31)) ((2 ^ 52 + (s + 2 ^ 31)) * 2 ^ 32)) by (apply fields64; lia || reflexivity).
  assert (H2 : h64 0x4530000080100000 ((2 ^ 52 + (2 ^ 31 + 2 ^ 20)) * 2 ^ 32)).
  { change 0x4530000080100000 with (0x453 * 2 ^ 52 + (2 ^ 31 + 2 ^ 20)). apply fields64; lia || reflexivity. }
  rewrite (fsub_holds f64 F64 nan _ _ _ _ H1 H2).
  assert (H3 : h64 (0x43300000 * 2 ^ 32 + r) (2 ^ 52 + r)).
  { replace (0x43300000 * 2 ^ 32 + r) with (0x433 * 2 ^ 52 + r) by lia. apply fields64; [lia|lia|]. change (0x433 - 1075) with 0. lia. }
  replace ((2 ^ 52 + (s + 2 ^ 31)) * 2 ^ 32 - (2 ^ 52 + (2 ^ 31 + 2 ^ 20)) * 2 ^ 32) with ((s - 2 ^ 20) * 2 ^ 32) by lia.
  rewrite (fadd_holds f64 nan _ _ _ _ (of_int_holds f64 F64 _ (rep64 (s - 2 ^ 20) 32 ltac:(lia) ltac:(lia))) H3). f_equal. lia.
Qed.
Lemma u64_fast_ok nan w : 0 <= w < 2 ^ 52 -> u64_to_f64_fast nan w = of_int f64 w.
Proof.
  intros H. unfold u64_to_f64_fast. assert (C : of_int f64 0x0010000000000000 = 0x433 * 2 ^ 52) by (vm_compute; reflexivity). rewrite C. rewrite lor_fields by lia.
  assert (H1 : h64 (0x433 * 2 ^ 52 + w) (2 ^ 52 + w)) by (apply fields64; [lia|lia|change (0x433 - 1075) with 0; lia]).
  assert (H2 : h64 (0x433 * 2 ^ 52) (2 ^ 52)) by (replace (0x433 * 2 ^ 52) with (0x433 * 2 ^ 52 + 0) by lia; apply fields64; [lia|lia|change (0x433 - 1075) with 0; lia]).
  rewrite (fsub_holds f64 F64 nan _ _ _ _ H1 H2). f_equal. lia.
Qed.
Lemma land_ones_mod v n k : 0 <= n -> k = 2 ^ n - 1 -> Z.land v k = v mod 2 ^ n.
Proof. apply land_mod. Qed.
Theorem u64_to_f64_eq nan fm v : lane 64 v -> u64_to_f64 nan fm v = of_int f64 v.
Proof.
  intros Hv. unfold u64_to_f64, lane in *. rewrite (land_ones_mod v 32) by (lia || reflexivity). rewrite Z.shiftr_div_pow2 by lia.
  pose proof (Z.div_mod v (2 ^ 32) ltac:(lia)) as D. pose proof (Z.mod_pos_bound v (2 ^ 32) ltac:(lia)) as B. assert (0 <= v / 2 ^ 32) by (apply Z.div_pos; lia). assert (v / 2 ^ 32 < 2 ^ 32) by (apply Z.div_lt_upper_bound; lia).
  set (h := v / 2 ^ 32) in *. set (r := v mod 2 ^ 32) in *. clearbody h r. rewrite !u64_fast_ok by lia.
  change 4294967296 with (2 ^ 32). rewrite (mul_add_holds f64 F64 nan fm _ _ _ (2 ^ 32) h r); [f_equal; lia| | | |lia|lia|].
  - apply of_int_holds; [exact F64|]. apply rep64i. lia.
  - apply of_int_holds; [exact F64|]. apply rep64i. lia.
  - apply of_int_holds; [exact F64|]. apply rep64i. lia.
  - rewrite Z.mul_comm. apply rep64; lia.
Qed.
Lemma small_signed v : 0 <= v < 2 ^ 31 -> swrap 32 v = v.
Proof. intros H. unfold swrap. rewrite Z.mod_small by lia. cbv zeta. change (32 - 1) with 31. destruct (Z.ltb_spec v (2 ^ 31)); lia. Qed.
Theorem u32_to_f64_eq nan v : lane 32 v -> u32_to_f64 nan v = of_int f64 v.
Proof.
  intros Hv. unfold u32_to_f64. rewrite swrap_signed by assumption. pose proof (signed_bound 32 v ltac:(lia) Hv) as B. change (32 - 1) with 31 in *.
  pose proof (of_int_holds f64 F64 (signed 32 v) (rep64i (signed 32 v) ltac:(lia))) as H1. change 64 with (fwidth f64). rewrite (msb_of f64 F64) by apply H1. rewrite (proj2 (proj2 (proj2 H1))).
  change 4294967296 with (2 ^ 32). destruct (Z.ltb_spec (signed 32 v) 0) as [N|N].
  - rewrite (fadd_holds f64 nan _ _ _ _ H1 (of_int_holds f64 F64 (2 ^ 32) (rep64i (2^32) ltac:(lia)))). f_equal. unfold signed, lane in *. change (32 - 1) with 31 in *. destruct (Z.ltb_spec v (2 ^ 31)); lia.
  - assert (H0 : h64 0 0).
    { assert (E : of_int f64 0 = 0) by (vm_compute; reflexivity). rewrite <- E at 1. apply of_int_holds; [exact F64|]. apply rep64i. lia. }
    rewrite (fadd_holds f64 nan _ _ _ _ H1 H0). f_equal. unfold signed, lane in *. change (32 - 1) with 31 in *. destruct (Z.ltb_spec v (2 ^ 31)); lia.
Qed.
Theorem u32_to_f32_eq nan fm v : lane 32 v -> u32_to_f32 nan fm v = of_int f32 v.
Proof.
  intros Hv. unfold u32_to_f32, lane in *. rewrite (land_ones_mod v 16) by (lia || reflexivity). rewrite Z.shiftr_div_pow2 by lia.
  pose proof (Z.div_mod v (2 ^ 16) ltac:(lia)) as D. pose proof (Z.mod_pos_bound v (2 ^ 16) ltac:(lia)) as B. assert (0 <= v / 2 ^ 16) by (apply Z.div_pos; lia). assert (v / 2 ^ 16 < 2 ^ 16) by (apply Z.div_lt_upper_bound; lia).
  set (h := v / 2 ^ 16) in *. set (r := v mod 2 ^ 16) in *. clearbody h r. rewrite !small_signed by lia. change 65536 with (2 ^ 16).
  assert (RS : forall z, Z.abs z < 2 ^ 24 -> repr f32 z) by (intros z Hz; apply repr_small; [exact F32|exact Hz]).
  rewrite (mul_add_holds f32 F32 nan fm _ _ _ (2 ^ 16) h r); [f_equal; lia| | | |lia|lia|].
  - apply of_int_holds; [exact F32|]. apply RS. lia.
  - apply of_int_holds; [exact F32|]. apply RS. lia.
  - apply of_int_holds; [exact F32|]. apply RS. lia.
  - rewrite Z.mul_comm. apply repr_pow; [lia|change (mbits f32 + 1) with 24; lia|lia].
Qed.

(** -- 64-bit integers to float -- *)
(** midpoints between floats are even doubles *)
Lemma mid2_even k : 0 <= k -> exists q, 0 <= q /\ Z.even q = true /\ mid2 f32 k = 2 * mag_value f64 q.
Proof.
  intros Hk. destruct (sig_exp_of f32 k ok32 Hk) as (t & j & E & Ht & Hj & Hj2 & EV). change (mbits f32) with 23 in *.
  assert (M : mid2 f32 k = (2 * j + 1) * 2 ^ (t + s0 f32)).
  { unfold mid2. rewrite EV. rewrite E. rewrite <- Z.add_assoc. change 23 with (mbits f32). rewrite V_grid by (try exact ok32; change (mbits f32) with 23; lia). lia. }
  assert (L : Z.log2 (2 * j + 1) <= 24) by (apply (log2_small (2 * j + 1) 25); lia).
  change (s0 f32) with 925 in *.
  destruct (repr_dyadic f64 (2 * j + 1) (t + 925 - 1) ok64 ltac:(lia) ltac:(change (mbits f64) with 52; lia) ltac:(change (s0 f64) with 0; lia)) as (R1 & R2 & R3).
  set (s := Z.max _ _) in *. change (s0 f64) with 0 in *. change (mbits f64) with 52 in *.
  eexists. split; [exact R2|]. split; [|rewrite R3, M; replace (t + 925) with (1 + (t + 925 - 1)) at 1 by lia; rewrite (Z.pow_add_r 2 1) by lia; change (2 ^ 1) with 2; ring].
  assert (1 <= t + 925 - 1 - s) by lia. set (d := t + 925 - 1 - s) in *. clearbody d s. replace d with (1 + (d - 1)) by lia. rewrite (Z.pow_add_r 2 1) by lia. change (2 ^ 1) with 2.
  rewrite Z.even_add, !Z.even_mul. change (Z.even (2 ^ 52)) with true. change (Z.even 2) with true. rewrite orb_true_l, !orb_true_r. reflexivity.
Qed.
(** rounding to odd and then to float is rounding to float *)
Lemma odd_same_side m v r : 0 <= m < inf_mag f64 -> mag_value f64 m < v < mag_value f64 (m + 1) -> nearest_even f32 (mag_value f64 (if Z.even m then m + 1 else m)) r -> nearest_even f32 v r.
Proof.
  intros Hm Hv. apply (nearest_same_side f32 ok32). intros k Hk. destruct (mid2_even k ltac:(lia)) as (q & Hq & Eq & ->).
  set (m' := if Z.even m then m + 1 else m). assert (Hm' : m <= m' <= m + 1 /\ Z.even m' = false).
  { unfold m'. destruct (Z.even m) eqn:E; split; try lia; [|exact E]. rewrite Z.add_1_r, Z.even_succ, <- Z.negb_even, E. reflexivity. }
  destruct Hm' as [Hr Eo]. assert (Nq : q <> m') by (intros ->; congruence).
  destruct (Z_lt_le_dec q m') as [L|L].
  - assert (q <= m) by (destruct (Z.eq_dec m' (m + 1)); lia). pose proof (V_mono f64 ok64 q m Hq ltac:(lia)). pose proof (V_mono_lt f64 ok64 q m' Hq L).
    rewrite (proj2 (Z.compare_gt_iff _ _)) by lia. symmetry. apply Z.compare_gt_iff. lia.
  - assert (m + 1 <= q) by (destruct (Z.eq_dec m' m); lia). pose proof (V_mono f64 ok64 (m + 1) q ltac:(lia) ltac:(lia)). pose proof (V_mono_lt f64 ok64 m' q ltac:(lia) ltac:(lia)).
    rewrite (proj2 (Z.compare_lt_iff _ _)) by lia. symmetry. apply Z.compare_lt_iff. lia.
Qed.
(** the nearest double of a 64-bit integer is an integer close to it *)
Lemma near_int x : 0 <= x <= 2 ^ 64 -> exists n, R f64 (x * 2 ^ 1074) = n * 2 ^ 1074 /\ Z.abs (n - x) <= 2 ^ 12 /\ 0 <= n /\ (x < 2 ^ 53 -> n = x).
Proof.
  intros Hx. pose proof u_pos as U. destruct (Z_lt_le_dec x (2 ^ 53)) as [L|L].
  { exists x. split; [|split; [|split]; [lia|lia|intros; reflexivity]]. pose proof (R_repr f64 F64 x (rep64i x ltac:(lia))) as E. rewrite Z.abs_eq in E by lia. exact E. }
  set (q := x / 2 ^ 12). pose proof (Z.div_mod x (2 ^ 12) ltac:(lia)) as D. pose proof (Z.mod_pos_bound x (2 ^ 12) ltac:(lia)) as B. fold q in D.
  assert (Hq : 0 <= q <= 2 ^ 52) by (split; [apply Z.div_pos; lia|apply Z.div_le_upper_bound; lia]).
  assert (E1 := R_repr f64 F64 (q * 2 ^ 12) (rep64 q 12 ltac:(lia) ltac:(lia))). assert (E2 := R_repr f64 F64 ((q + 1) * 2 ^ 12) (rep64 (q + 1) 12 ltac:(lia) ltac:(lia))).
  assert (E3 := R_repr f64 F64 (2 ^ 52 * 2 ^ 1) (rep64 (2 ^ 52) 1 ltac:(lia) ltac:(lia))). rewrite Z.abs_eq in E1, E2, E3 by lia.
  assert (G1 : q * 2 ^ 12 * 2 ^ 1074 <= R f64 (x * 2 ^ 1074)) by (apply (R_ge f64 F64); [split; [lia|apply Z.mul_le_mono_nonneg_r; lia]|exact E1]).
  assert (G2 : R f64 (x * 2 ^ 1074) <= (q + 1) * 2 ^ 12 * 2 ^ 1074) by (apply (R_le f64 F64); [split; [lia|apply Z.mul_le_mono_nonneg_r; lia]|exact E2]).
  assert (G3 : 2 ^ 52 * 2 ^ 1 * 2 ^ 1074 <= R f64 (x * 2 ^ 1074)) by (apply (R_ge f64 F64); [split; [lia|apply Z.mul_le_mono_nonneg_r; lia]|exact E3]).
  assert (I : exists n, R f64 (x * 2 ^ 1074) = n * 2 ^ 1074).
  { assert (Bx : Z.abs x <= 2 ^ 100) by lia. destruct (of_int_facts f64 F64 x Bx) as (P & Pm & Pf & _). rewrite Z.abs_eq in Pm by lia. unfold R. rewrite <- Pm. unfold R in G3. rewrite <- Pm in G3.
    assert (Hm0 : 0 <= magnitude f64 (of_int f64 x)) by apply (pat_mk f64 F64 _ P). destruct (fld_man f64 F64 (of_int f64 x) Hm0) as (_ & Hf & Hmn). change (mbits f64) with 52 in *.
    destruct (Z_lt_le_dec (fld f64 (of_int f64 x)) 1075) as [C|C].
    - exfalso. assert (LT : mag_value f64 (magnitude f64 (of_int f64 x)) < 2 ^ 53 * 2 ^ 1074); [|clear - G3 LT; lia].
      destruct (Z.eq_dec (fld f64 (of_int f64 x)) 0) as [Z0|Z0].
      + rewrite (V_fields0 f64) by assumption. change (mbits f64) with 52. change (1074 + (1 - bias f64) - 52) with 0. rewrite Z.pow_0_r, Z.mul_1_r. clear - Hmn U. nia.
      + rewrite (V_fields f64) by (assumption || lia). change (mbits f64) with 52. change (bias f64) with 1023. set (e := fld f64 (of_int f64 x)) in *. clearbody e. set (w := man f64 (of_int f64 x)) in *. clearbody w.
        apply Z.lt_le_trans with (2 ^ 53 * 2 ^ (1074 + (e - 1023) - 52)); [apply Z.mul_lt_mono_pos_r; [apply pow_pos; lia|lia]|]. apply Z.mul_le_mono_nonneg_l; [lia|]. apply Z.pow_le_mono_r; lia.
    - rewrite (V_fields f64) by (assumption || lia). change (mbits f64) with 52. change (bias f64) with 1023. set (e := fld f64 (of_int f64 x)) in *. clearbody e. set (w := man f64 (of_int f64 x)) in *. clearbody w.
      exists ((2 ^ 52 + w) * 2 ^ (e - 1075)). rewrite <- Z.mul_assoc, <- Z.pow_add_r by lia. f_equal. f_equal. lia. }
  destruct I as (n & En). exists n. split; [exact En|]. rewrite En in *. clear En G3 E1 E2 E3.
  set (u := 2 ^ 1074) in *. clearbody u. assert (q * 2 ^ 12 <= n) by (apply Z.mul_le_mono_pos_r with u; lia). assert (n <= (q + 1) * 2 ^ 12) by (apply Z.mul_le_mono_pos_r with u; lia). split; [|split]; [lia|lia|intros; lia].
Qed.

Lemma lor_1 y : 0 <= y -> Z.lor y 1 = if Z.even y then y + 1 else y.
Proof.
  intros H. destruct (Z.even y) eqn:E.
  - apply Z.even_spec in E. destruct E as [k ->]. rewrite <- (Z.add_0_l 1) at 1. replace (2 * k) with (k * 2 ^ 1) by lia. rewrite Z.add_0_l. rewrite lor_shift_add by lia. reflexivity.
  - assert (O : Z.odd y = true) by (rewrite <- Z.negb_even, E; reflexivity). apply Z.odd_spec in O. destruct O as [k ->].
    assert (A : k * 2 ^ 1 + 1 = Z.lor (k * 2 ^ 1) 1) by (symmetry; apply lor_shift_add; lia). replace (2 * k + 1) with (k * 2 ^ 1 + 1) by lia. rewrite A. rewrite <- Z.lor_assoc. reflexivity.
Qed.
Lemma shr63_neg p : is_pattern f64 p -> Z.shiftr p 63 = Z.b2z (negative f64 p).
Proof.
  intros H. unfold negative, is_pattern in *. change (fwidth f64) with 64 in H. change (ebits f64 + mbits f64) with 63. rewrite Z.shiftr_div_pow2 by lia. destruct (Z.leb_spec (2 ^ 63) p); cbn [Z.b2z].
  - symmetry. apply Z.div_unique with (p - 2 ^ 63); lia.
  - apply Z.div_small. lia.
Qed.
Lemma onesw_63 b : Z.shiftr (onesw 64 b) 63 = Z.b2z b.
Proof. destruct b; vm_compute; reflexivity. Qed.
Lemma dec_bits x n : (x <? 0) = (n <? 0) -> Z.land (Z.lxor (Z.b2z (x <? 0)) (Z.b2z (x - n <? 0))) (Z.b2z (negb (x =? n))) = Z.b2z (negb (x =? n) && (Z.abs x <? Z.abs n)).
Proof. intros S. destruct (Z.eqb_spec x n), (Z.ltb_spec x 0), (Z.ltb_spec n 0), (Z.ltb_spec (x - n) 0), (Z.ltb_spec (Z.abs x) (Z.abs n)); try discriminate; try reflexivity; exfalso; lia. Qed.
Lemma abs_eqb x n : (x <? 0) = (n <? 0) -> (Z.abs x =? Z.abs n) = (x =? n).
Proof. intros S. destruct (Z.eqb_spec (Z.abs x) (Z.abs n)), (Z.eqb_spec x n), (Z.ltb_spec x 0), (Z.ltb_spec n 0); try reflexivity; try discriminate; exfalso; lia. Qed.
Lemma dec_u x n : 0 <= x -> 0 <= n -> Z.b2z (x - n <? 0) = Z.b2z (negb (x =? n) && (Z.abs x <? Z.abs n)).
Proof. intros. destruct (Z.eqb_spec x n), (Z.ltb_spec (x - n) 0), (Z.ltb_spec (Z.abs x) (Z.abs n)); try reflexivity; exfalso; lia. Qed.
Section Round2.
Context (nan32 : Z -> Z) (Hnan : forall b, is_nan binary64 b -> 0 < nan32 b < 2 ^ 23).
(** the pattern of the sum, moved one toward zero if it was rounded away from zero, with a sticky bit *)
Lemma adjusted x n : Z.abs x <= 2 ^ 64 -> R f64 (Z.abs x * 2 ^ 1074) = Z.abs n * 2 ^ 1074 ->
  correct_int_conversion f32 x (f32_of_f64 nan32 (Z.lor (wrap 64 (of_int f64 x - Z.b2z (negb (x =? n) && (Z.abs x <? Z.abs n)))) (Z.b2z (negb (Z.abs x =? Z.abs n))))).
Proof.
  intros Bx En. pose proof u_pos as U. destruct (of_int_facts f64 F64 x ltac:(lia)) as (P & Pm & Pf & Pn & _). destruct (pat_mk f64 F64 _ P) as [Em Hm]. rewrite Pn in Em. set (m := magnitude f64 (of_int f64 x)) in *.
  unfold R in En. rewrite <- Pm in En. set (v := Z.abs x * 2 ^ 1074) in *. assert (Hv : 0 <= v) by (unfold v; lia).
  assert (Rv : R f64 v = mag_value f64 m) by (unfold R; rewrite <- Pm; reflexivity).
  assert (I : exists m', 0 <= m' < inf_mag f64 /\ Z.lor (wrap 64 (of_int f64 x - Z.b2z (negb (x =? n) && (Z.abs x <? Z.abs n)))) (Z.b2z (negb (Z.abs x =? Z.abs n))) = Z.b2z (x <? 0) * 2 ^ 63 + m' /\
    (forall r, nearest_even f32 (mag_value f64 m') r -> nearest_even f32 v r)).
  { assert (Ex : of_int f64 x = Z.b2z (x <? 0) * 2 ^ 63 + m) by (rewrite Em; unfold mk; change (ebits f64 + mbits f64) with 63; destruct (x <? 0); cbn [Z.b2z]; lia). rewrite Ex.
    assert (Bb : 0 <= Z.b2z (x <? 0) <= 1) by (destruct (x <? 0); cbn; lia). set (s := Z.b2z (x <? 0)) in *. clearbody s. change (inf_mag f64) with (2047 * 2 ^ 52) in *.
    assert (Ev : forall k, Z.even (s * 2 ^ 63 + k) = Z.even k).
    { intros k. rewrite Z.even_add, Z.even_mul. change (Z.even (2 ^ 63)) with true. rewrite orb_true_r. destruct (Z.even k); reflexivity. }
    destruct (Z.eqb_spec (Z.abs x) (Z.abs n)) as [Q|Q].
    - rewrite <- Q in *. rewrite Z.ltb_irrefl, andb_false_r. cbn [negb Z.b2z]. rewrite Z.sub_0_r. exists m. split; [lia|]. split; [rewrite Z.lor_0_r; unfold wrap; apply Z.mod_small; lia|]. intros r Hr. rewrite En in Hr. exact Hr.
    - destruct (Z.eqb_spec x n) as [->|Q2]; [congruence|]. cbn [negb andb]. change (Z.b2z true) with 1.
      assert (Gap : forall k, 0 <= k < 2047 * 2 ^ 52 -> mag_value f64 k < v -> mag_value f64 m < mag_value f64 (k + 1) -> v < mag_value f64 (k + 1)).
      { intros k Hk _ Hg. destruct (Z_lt_le_dec v (mag_value f64 (k + 1))) as [L|L]; [exact L|exfalso]. pose proof (R_ge f64 F64 v (mag_value f64 (k + 1)) ltac:(split; [apply V_nonneg; [exact ok64|lia]|exact L]) (R_V f64 F64 (k + 1) ltac:(change (inf_mag f64) with (2047 * 2 ^ 52); lia))) as G. rewrite Rv in G. lia. }
      assert (Gap' : forall k, 0 <= k < 2047 * 2 ^ 52 -> mag_value f64 k < mag_value f64 m -> v < mag_value f64 m -> mag_value f64 k < v).
      { intros k Hk Hg _. destruct (Z_lt_le_dec (mag_value f64 k) v) as [L|L]; [exact L|exfalso]. pose proof (R_le f64 F64 v (mag_value f64 k) ltac:(split; [exact Hv|exact L]) (R_V f64 F64 k ltac:(change (inf_mag f64) with (2047 * 2 ^ 52); lia))) as G. rewrite Rv in G. lia. }
      destruct (Z.ltb_spec (Z.abs x) (Z.abs n)) as [L|L]; cbn [Z.b2z].
      + assert (Vm : v < mag_value f64 m) by (rewrite En; unfold v; apply Z.mul_lt_mono_pos_r; lia).
        assert (Pm1 : 1 <= m). { destruct (Z.eq_dec m 0) as [Z0|]; [|lia]. rewrite Z0 in Vm. change (mag_value f64 0) with 0 in Vm. lia. }
        pose proof (V_mono_lt f64 ok64 (m - 1) m ltac:(lia) ltac:(lia)) as V1. pose proof (Gap' (m - 1) ltac:(lia) V1 Vm) as G.
        assert (W : wrap 64 (s * 2 ^ 63 + m - 1) = s * 2 ^ 63 + (m - 1)) by (unfold wrap; rewrite Z.mod_small by lia; lia). rewrite W, lor_1 by lia. rewrite Ev.
        exists (if Z.even (m - 1) then m - 1 + 1 else m - 1). split; [destruct (Z.even (m - 1)); lia|]. split; [destruct (Z.even (m - 1)); lia|].
        intros r. apply odd_same_side; [change (inf_mag f64) with (2047 * 2 ^ 52); lia|]. replace (m - 1 + 1) with m by lia. lia.
      + assert (Vm : mag_value f64 m < v) by (rewrite En; unfold v; apply Z.mul_lt_mono_pos_r; lia).
        pose proof (V_mono_lt f64 ok64 m (m + 1) ltac:(lia) ltac:(lia)) as V1. pose proof (Gap m ltac:(lia) Vm V1) as G.
        rewrite Z.sub_0_r. assert (W : wrap 64 (s * 2 ^ 63 + m) = s * 2 ^ 63 + m) by (unfold wrap; apply Z.mod_small; lia). rewrite W, lor_1 by lia. rewrite Ev.
        exists (if Z.even m then m + 1 else m). split.
        { destruct (Z.even m) eqn:E; [|lia]. apply Z.even_spec in E. destruct E as [j E]. change (2 ^ 52) with (2 * 2 ^ 51) in Pf |- *. lia. }
        split; [destruct (Z.even m); lia|]. intros r. apply odd_same_side; [change (inf_mag f64) with (2047 * 2 ^ 52); lia|lia]. }
  destruct I as (m' & Hm' & -> & Hr). change (inf_mag f64) with (2047 * 2 ^ 52) in Hm'.
  assert (Bb : Z.b2z (x <? 0) = 0 \/ Z.b2z (x <? 0) = 1) by (destruct (x <? 0); cbn; lia).
  destruct (f32_of_f64_eq nan32 (Z.b2z (x <? 0)) m' Bb ltac:(lia) Hnan) as (c & -> & Rc & _ & _ & C). specialize (C ltac:(change (inf_mag binary64) with (2047 * 2 ^ 52); lia)).
  destruct (pat_make binary32 (Z.b2z (x <? 0)) c ok32 Bb Rc) as (M1 & M2 & M3). change (ebits binary32 + mbits binary32) with 31 in *.
  split; [exact M1|]. split; [rewrite M2; destruct (x <? 0); reflexivity|]. rewrite M3. apply Hr. rewrite C. apply ieee_round_nearest; [exact ok32|]. apply V_nonneg; [exact ok64|lia].
Qed.
Lemma near_signed x : Z.abs x <= 2 ^ 64 -> exists n, R f64 (Z.abs x * 2 ^ 1074) = Z.abs n * 2 ^ 1074 /\ Z.abs (n - x) <= 2 ^ 12 /\ h64 (of_int f64 x) n /\ (x <? 0) = (n <? 0).
Proof.
  intros Bx. destruct (near_int (Z.abs x) ltac:(lia)) as (a & E & B & P & S). destruct (of_int_facts f64 F64 x ltac:(lia)) as (A1 & _ & A2 & A3 & A4). rewrite E in A4.
  assert (Q : x < 0 -> 0 < a) by (intros; destruct (Z_lt_le_dec (Z.abs x) (2 ^ 53)); [rewrite S by assumption; lia|lia]).
  exists (if x <? 0 then - a else a). rewrite E. destruct (Z.ltb_spec x 0) as [N|N].
  - split; [lia|]. split; [lia|]. assert (T : true = (- a <? 0)) by (symmetry; apply Z.ltb_lt; lia). split; [|exact T]. split; [exact A1|]. split; [exact A2|]. split; [|rewrite A3; exact T]. rewrite A4. cbn [sg]. ring.
  - split; [lia|]. split; [lia|]. assert (T : false = (a <? 0)) by (symmetry; apply Z.ltb_ge; lia). split; [|exact T]. split; [exact A1|]. split; [exact A2|]. split; [|rewrite A3; exact T]. rewrite A4. reflexivity.
Qed.
(** from the two halves on *)
Lemma tail_i64 nan x hi lo : Z.abs x <= 2 ^ 64 -> h64 hi (x - lo) -> 0 <= lo < 2 ^ 12 ->
  let lo12 := of_int f64 lo in let sum := fadd f64 nan hi lo12 in let carry := fadd f64 nan (fsub f64 nan hi sum) lo12 in
  exists n, R f64 (Z.abs x * 2 ^ 1074) = Z.abs n * 2 ^ 1074 /\ (x <? 0) = (n <? 0) /\ sum = of_int f64 x /\ is_pattern f64 sum /\ negative f64 sum = (x <? 0) /\
   is_pattern f64 carry /\ negative f64 carry = (x - n <? 0) /\ negb (feq f64 carry 0) = negb (x =? n).
Proof.
  intros Bx Hh Hl. cbv zeta. assert (Hlo : h64 (of_int f64 lo) lo) by (apply of_int_holds; [exact F64|apply rep64i; lia]).
  assert (Es : fadd f64 nan hi (of_int f64 lo) = of_int f64 x) by (rewrite (fadd_holds f64 nan _ _ _ _ Hh Hlo); f_equal; lia). rewrite Es.
  destruct (near_signed x Bx) as (n & E & B & Hn & S). exists n. split; [exact E|]. split; [exact S|]. split; [reflexivity|]. split; [apply Hn|]. split; [destruct Hn as (_ & _ & _ & ->); symmetry; exact S|].
  rewrite (fsub_holds f64 F64 nan _ _ _ _ Hh Hn). assert (H1 : h64 (of_int f64 (x - lo - n)) (x - lo - n)) by (apply of_int_holds; [exact F64|apply rep64i; lia]).
  rewrite (fadd_holds f64 nan _ _ _ _ H1 Hlo). replace (x - lo - n + lo) with (x - n) by lia. assert (H2 : h64 (of_int f64 (x - n)) (x - n)) by (apply of_int_holds; [exact F64|apply rep64i; lia]).
  destruct H2 as (C1 & C2 & C3 & C4). split; [exact C1|]. split; [exact C4|]. rewrite feq_fin; [|exact C2|vm_compute; reflexivity]. rewrite C3. change (value f64 0) with 0. f_equal. pose proof u_pos.
  destruct (Z.eqb_spec ((x - n) * 2 ^ 1074) 0) as [Z0|Z0], (Z.eqb_spec x n); try reflexivity; exfalso; [apply Z.mul_eq_0 in Z0; lia|subst; apply Z0; lia].
Qed.
Lemma lo12_eq v : lane 64 v -> swrap 32 (Z.land (wrap 32 v) 0x00000FFF) = v mod 2 ^ 12.
Proof.
  intros Hv. rewrite (land_ones_mod _ 12) by (lia || reflexivity). unfold wrap. change (2 ^ 32) with (2 ^ 12 * 2 ^ 20). rewrite Z.rem_mul_r, Z.mul_comm, Z.mod_add, Z.mod_mod by lia.
  pose proof (Z.mod_pos_bound v (2 ^ 12) ltac:(lia)). apply small_signed. lia.
Qed.
Theorem i64_to_f32_ok nan v : lane 64 v -> correct_int_conversion f32 (signed 64 v) (i64_to_f32 nan (f32_of_f64 nan32) v).
Proof.
  intros Hv. unfold i64_to_f32. rewrite lo12_eq by assumption. destruct (signed_split 64 12 v ltac:(lia) Hv) as (Lh & E & Lr). change (64 - 12) with 52 in *. rewrite Z.shiftr_div_pow2 by lia. set (h := v / 2 ^ 12) in *. set (r := v mod 2 ^ 12) in *.
  destruct (flip 52 h ltac:(lia) Lh) as [E1 L1]. pose proof (signed_bound 52 h ltac:(lia) Lh) as B. change (52 - 1) with 51 in *.
  assert (K : of_int f64 27670116110564327424 = 0x43F * 2 ^ 52 + 2 ^ 51) by (vm_compute; reflexivity). rewrite K. rewrite lxor_fields by (unfold lane in *; lia). rewrite E1. rewrite E. set (s := signed 52 h) in *. clearbody s h r. unfold lane in *.
  assert (H1 : h64 (0x43F * 2 ^ 52 + (s + 2 ^ 51)) ((2 ^ 52 + (s + 2 ^ 51)) * 2 ^ 12)) by (apply fields64; lia || reflexivity).
  assert (H2 : h64 (0x43F * 2 ^ 52 + 2 ^ 51) ((2 ^ 52 + 2 ^ 51) * 2 ^ 12)) by (apply fields64; lia || reflexivity).
  rewrite (fsub_holds f64 F64 nan _ _ _ _ H1 H2). replace ((2 ^ 52 + (s + 2 ^ 51)) * 2 ^ 12 - (2 ^ 52 + 2 ^ 51) * 2 ^ 12) with (s * 2 ^ 12) by lia.
  assert (Hh : h64 (of_int f64 (s * 2 ^ 12)) (s * 2 ^ 12 + r - r)) by (replace (s * 2 ^ 12 + r - r) with (s * 2 ^ 12) by lia; apply of_int_holds; [exact F64|apply rep64; lia]).
  set (x := s * 2 ^ 12 + r) in *. assert (Bx : Z.abs x <= 2 ^ 64) by (unfold x; lia).
  destruct (tail_i64 nan x _ r Bx Hh Lr) as (n & En & S & Es & P1 & N1 & P2 & N2 & I). cbv zeta in *. rewrite I. rewrite onesw_63. rewrite Z.shiftr_lxor, !shr63_neg by assumption. rewrite N1, N2. rewrite Es.
  pose proof (adjusted x n Bx En) as A. clearbody x.
  rewrite dec_bits by assumption. rewrite (abs_eqb x n S) in A. exact A.
Qed.
Theorem u64_to_f32_ok nan v : lane 64 v -> correct_int_conversion f32 v (u64_to_f32 nan (f32_of_f64 nan32) v).
Proof.
  intros Hv. unfold u64_to_f32. rewrite lo12_eq by assumption. rewrite Z.shiftr_div_pow2 by lia. unfold lane in *.
  pose proof (Z.div_mod v (2 ^ 12) ltac:(lia)) as E. pose proof (Z.mod_pos_bound v (2 ^ 12) ltac:(lia)) as Lr. assert (0 <= v / 2 ^ 12) by (apply Z.div_pos; lia). assert (v / 2 ^ 12 < 2 ^ 52) by (apply Z.div_lt_upper_bound; lia).
  set (h := v / 2 ^ 12) in *. set (r := v mod 2 ^ 12) in *. clearbody h r.
  assert (K : of_int f64 18446744073709551616 = 0x43F * 2 ^ 52) by (vm_compute; reflexivity). rewrite K. rewrite lor_fields by lia.
  assert (H1 : h64 (0x43F * 2 ^ 52 + h) ((2 ^ 52 + h) * 2 ^ 12)) by (apply fields64; lia || reflexivity).
  assert (H2 : h64 (0x43F * 2 ^ 52) (2 ^ 52 * 2 ^ 12)) by (replace (0x43F * 2 ^ 52) with (0x43F * 2 ^ 52 + 0) by lia; apply fields64; lia || reflexivity).
  rewrite (fsub_holds f64 F64 nan _ _ _ _ H1 H2). replace ((2 ^ 52 + h) * 2 ^ 12 - 2 ^ 52 * 2 ^ 12) with (h * 2 ^ 12) by lia.
  assert (Hh : h64 (of_int f64 (h * 2 ^ 12)) (v - r)) by (replace (v - r) with (h * 2 ^ 12) by lia; apply of_int_holds; [exact F64|apply rep64; lia]).
  assert (Bx : Z.abs v <= 2 ^ 64) by lia.
  destruct (tail_i64 nan v _ r Bx Hh Lr) as (n & En & S & Es & P1 & N1 & P2 & N2 & I). cbv zeta in *. rewrite I. rewrite onesw_63. rewrite !shr63_neg by assumption. rewrite N2. rewrite Es.
  pose proof (adjusted v n Bx En) as A.
  assert (Hn : 0 <= n) by (apply Z.ltb_ge; rewrite <- S; apply Z.ltb_ge, Hv).
  rewrite dec_u by (apply Hv || exact Hn). rewrite (abs_eqb v n S) in A. exact A.
Qed.
End Round2.
