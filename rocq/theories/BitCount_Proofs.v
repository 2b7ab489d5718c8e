From Coq Require Import ZArith List Bool Lia.
From Verif Require Import Word Word_Proofs Ops_Model Float_Spec Float_Model IntOps_Model IntOps_Proofs IntOps_Mul Targets_Proofs BitCount_Model.
Import ListNotations.
Local Open Scope Z_scope.

(** bit [log2 x - 24] is clear, or [x] has at most 24 bits: the conversion to float does not carry into the exponent *)
Definition nice (x : Z) : Prop := Z.log2 x < 24 \/ Z.testbit x (Z.log2 x - 24) = false.
Definition E (x : Z) : Z := Z.shiftr (f32_of_uint x) 23.

Lemma half_rem x k : 0 <= x -> 0 <= k -> Z.testbit x k = false -> 2 * (x mod 2 ^ (k + 1)) < 2 ^ (k + 1).
Proof.
  intros Hx Hk B. rewrite Z.pow_add_r by lia. change (2 ^ 1) with 2. pose proof (pow2_gt0 k Hk). rewrite Z.rem_mul_r by lia.
  assert (x / 2 ^ k mod 2 = 0). { rewrite <- Z.bit0_mod. rewrite <- Z.shiftr_div_pow2 by lia. rewrite Z.shiftr_spec by lia. rewrite Z.add_0_l, B. reflexivity. }
  rewrite H0, Z.mul_0_r, Z.add_0_r. pose proof (Z.mod_pos_bound x (2 ^ k) ltac:(lia)). lia.
Qed.
Lemma round_shape (N S base inf : Z) (up : bool) : 0 < S -> 2 ^ 23 * S <= N < 2 ^ 24 * S -> 0 <= base -> (base + 3) * 2 ^ 23 <= inf ->
  let q := N / S in let r := Z.shiftr (Z.min (base * 2 ^ 23 + (if up then q + 1 else q)) inf) 23 in
  (r = base + 1 \/ r = base + 2) /\ (up = false -> r = base + 1).
Proof.
  intros HS HN HB HI q r. assert (Q : 2 ^ 23 <= q < 2 ^ 24). { unfold q. split; [apply Z.div_le_lower_bound; lia|apply Z.div_lt_upper_bound; lia]. }
  change (2 ^ 24) with (2 * 2 ^ 23) in Q. clearbody q. assert (R : r = (base * 2 ^ 23 + (if up then q + 1 else q)) / 2 ^ 23). { unfold r. rewrite shiftr_div by lia. f_equal. apply Z.min_l. destruct up; lia. }
  rewrite R, (Z.add_comm (base * 2 ^ 23)), Z.div_add by lia. destruct up.
  - split; [|discriminate]. destruct (Z.eq_dec (q + 1) (2 * 2 ^ 23)) as [->|]; [rewrite Z.div_mul by lia; lia|]. left. replace ((q + 1) / 2 ^ 23) with 1 by (apply (Z.div_unique_pos _ _ _ (q + 1 - 2 ^ 23)); lia). lia.
  - replace (q / 2 ^ 23) with 1 by (apply (Z.div_unique_pos _ _ _ (q - 2 ^ 23)); lia). split; [left|intros _]; lia.
Qed.
Lemma rem_small x L : 0 < x -> Z.log2 x = L -> nice x -> 0 <= L -> 2 * ((x * 2 ^ 1074) mod 2 ^ (L + 1051)) < 2 ^ (L + 1051).
Proof.
  intros Hx HL Hn HL0. pose proof (pow2_gt0 (L + 1051) ltac:(lia)) as P. destruct (Z_lt_ge_dec L 24) as [Hs|Hs].
  - replace 1074 with (23 - L + (L + 1051)) at 1 by lia. rewrite Z.pow_add_r by lia. rewrite Z.mul_assoc, Z.mod_mul by lia. lia.
  - assert (B : Z.testbit x (L - 24) = false) by (destruct Hn as [Hn|Hn]; rewrite HL in Hn; [lia|exact Hn]).
    pose proof (half_rem x (L - 24) ltac:(lia) ltac:(lia) B) as HR. replace (L - 24 + 1) with (L - 23) in HR by lia. replace (L + 1051) with (L - 23 + 1074) by lia. rewrite Z.pow_add_r by lia.
    pose proof (pow2_gt0 (L - 23) ltac:(lia)). pose proof (pow2_gt0 1074 ltac:(lia)). rewrite Z.mul_mod_distr_r by lia. rewrite Z.mul_assoc. apply Z.mul_lt_mono_pos_r; lia.
Qed.
Lemma E_spec x : 0 < x < 2 ^ 64 -> (E x = Z.log2 x + 127 \/ E x = Z.log2 x + 128) /\ (nice x -> E x = Z.log2 x + 127).
Proof.
  intros Hx. set (L := Z.log2 x). assert (HL : 0 <= L < 64). { split; [apply Z.log2_nonneg|]. apply Z.log2_lt_pow2; lia. }
  unfold E, f32_of_uint, ieee_round. rewrite Z.log2_mul_pow2 by lia. fold L. change (1074 + 1 - bias binary32 - mbits binary32) with 925. change (mbits binary32) with 23. change (inf_mag binary32) with (255 * 2 ^ 23).
  replace (Z.max (1074 + L - 23) 925) with (L + 1051) by lia. cbv zeta. replace (L + 1051 - 925) with (L + 126) by lia.
  pose proof (pow2_gt0 (L + 1051) ltac:(lia)) as PS. pose proof (pow2_gt0 1074 ltac:(lia)) as P1.
  assert (BX : 2 ^ L <= x < 2 ^ (L + 1)). { pose proof (Z.log2_spec x ltac:(lia)) as S. fold L in S. replace (L + 1) with (Z.succ L) by lia. exact S. }
  set (up := (_ || _)%bool).
  destruct (round_shape (x * 2 ^ 1074) (2 ^ (L + 1051)) (L + 126) (255 * 2 ^ 23) up) as (R1 & R2); [lia| |lia|lia|].
  - rewrite <- !Z.pow_add_r by lia. replace (23 + (L + 1051)) with (L + 1074) by lia. replace (24 + (L + 1051)) with (L + 1 + 1074) by lia. rewrite (Z.pow_add_r 2 L 1074), (Z.pow_add_r 2 (L + 1) 1074) by lia. split; [apply Z.mul_le_mono_nonneg_r; lia|apply Z.mul_lt_mono_pos_r; lia].
  - split; [destruct R1 as [->| ->]; lia|]. intros Hn. rewrite R2; [lia|]. unfold up. pose proof (rem_small x L ltac:(lia) eq_refl Hn ltac:(lia)) as HR. destruct (Z.ltb_spec (2 ^ (L + 1051)) (2 * ((x * 2 ^ 1074) mod 2 ^ (L + 1051)))); [lia|]. destruct (Z.eqb_spec (2 * ((x * 2 ^ 1074) mod 2 ^ (L + 1051))) (2 ^ (L + 1051))); [lia|]. reflexivity.
Qed.
Lemma E_0 : E 0 = 0. Proof. vm_compute. reflexivity. Qed.
Opaque f32_of_uint.
Lemma log2_b x n : 0 < x < 2 ^ n -> 0 <= Z.log2 x < n.
Proof. intros H. split; [apply Z.log2_nonneg|]. apply Z.log2_lt_pow2; lia. Qed.
Lemma min_i16_small x y : 0 <= x < 2 ^ 15 -> 0 <= y < 2 ^ 15 -> min_i16 x y = Z.min x y.
Proof. intros. unfold min_i16. rewrite !swrap_small by (try lia; unfold in_s; change (2 ^ (16 - 1)) with (2 ^ 15); lia). apply wrap_small. lia. Qed.
Lemma exp_u32_0 sse : exp_u32 sse 0 = 0. Proof. destruct sse; vm_compute; reflexivity. Qed.
Lemma exp_u32_spec sse x : 0 < x < 2 ^ 32 -> (Z.log2 x + 127 <= exp_u32 sse x <= 159) /\ (nice x -> exp_u32 sse x = Z.log2 x + 127).
Proof.
  intros Hx. destruct (E_spec x ltac:(lia)) as (R1 & R2). pose proof (log2_b x 32 Hx) as HL. unfold exp_u32. destruct sse.
  2:{ change (Z.shiftr (f32_of_uint x) 23) with (E x). split; [lia|exact R2]. }
  cbv zeta. unfold f32_of_int. rewrite swrap_cases by lia. change (2 ^ (32 - 1)) with (2 ^ 31). destruct (Z.ltb_spec x (- 2 ^ 31)); [lia|]. destruct (Z.ltb_spec x (2 ^ 31)) as [Hs|Hs].
  - destruct (Z.ltb_spec x 0); [lia|]. fold (E x). assert (HL' : Z.log2 x < 31) by (apply Z.log2_lt_pow2; lia).
    assert (0 <= E x < 256) by lia. rewrite (wrap_small 16 (E x)) by lia. replace (Z.shiftr (E x) 16) with 0 by (rewrite shiftr_div by lia; rewrite Z.div_small; lia). rewrite !min_i16_small by lia. rewrite Z.min_l, Z.min_id, Z.mul_0_r, Z.add_0_r by lia. split; [lia|exact R2].
  - destruct (Z.ltb_spec (x - 2 ^ 32) 0); [|lia]. replace (- (x - 2 ^ 32)) with (2 ^ 32 - x) by lia. destruct (E_spec (2 ^ 32 - x) ltac:(lia)) as (R3 & _). pose proof (Z.log2_nonneg (2 ^ 32 - x)).
    assert (HL2 : Z.log2 (2 ^ 32 - x) < 32) by (apply Z.log2_lt_pow2; lia). assert (HL3 : Z.log2 x = 31) by (apply Z.log2_unique; lia).
    replace (Z.shiftr (2 ^ 31 + f32_of_uint (2 ^ 32 - x)) 23) with (256 + E (2 ^ 32 - x)).
    2:{ unfold E. rewrite !shiftr_div by lia. replace (2 ^ 31) with (256 * 2 ^ 23) by lia. rewrite (Z.add_comm (256 * 2 ^ 23)), Z.div_add by lia. lia. }
    set (e := E (2 ^ 32 - x)) in *. rewrite (wrap_small 16) by lia. replace (Z.shiftr (256 + e) 16) with 0 by (rewrite shiftr_div by lia; rewrite Z.div_small; lia). rewrite !min_i16_small by lia. lia.
Qed.
Lemma exp_i32range_spec sse x : 0 <= x < 2 ^ 16 -> exp_i32range sse x = E x.
Proof.
  intros Hx. unfold exp_i32range, E. destruct sse; [|reflexivity]. rewrite swrap_small by (try lia; unfold in_s; change (2 ^ (32 - 1)) with (2 ^ 31); lia). unfold f32_of_int. destruct (Z.ltb_spec x 0); [lia|reflexivity].
Qed.
Lemma nice_small x : 0 < x < 2 ^ 24 -> nice x.
Proof. intros H. left. apply Z.log2_lt_pow2; lia. Qed.
Lemma E_small x : 0 <= x < 2 ^ 16 -> 0 <= E x < 144 /\ (0 < x -> E x = Z.log2 x + 127).
Proof.
  intros Hx. destruct (Z.eq_dec x 0) as [->|]; [rewrite E_0; lia|]. destruct (E_spec x ltac:(lia)) as (_ & R). pose proof (log2_b x 16 ltac:(lia)). rewrite R by (apply nice_small; lia). lia.
Qed.
Lemma parts_step f k n a b c d : 0 <= k -> 0 <= a < 2 ^ k -> 0 <= c < 2 ^ k -> parts f k (S n) (a + 2 ^ k * b) (c + 2 ^ k * d) = f a c + 2 ^ k * parts f k n b d.
Proof.
  intros Hk Ha Hc. cbn [parts]. rewrite (Z.mul_comm (2 ^ k) b), (Z.mul_comm (2 ^ k) d). rewrite !wrap_add_mult, !wrap_small by lia. rewrite !shiftr_div by lia. rewrite !Z.div_add, !Z.div_small by lia. rewrite !Z.add_0_l. reflexivity.
Qed.
Lemma parts_min_0 k n z : 0 <= k -> parts Z.min k n z 0 = 0.
Proof.
  intros Hk. revert z. induction n; intros z; [reflexivity|]. cbn [parts]. rewrite Z.shiftr_0_l, IHn. pose proof (wrap_range k z Hk). rewrite (wrap_small k 0) by lia. lia.
Qed.
Lemma parts_min k n x y : 0 <= k -> 0 <= y < 2 ^ k -> parts Z.min k (S n) x y = Z.min (wrap k x) y.
Proof. intros Hk Hy. cbn [parts]. rewrite (wrap_small k y) by lia. replace (Z.shiftr y k) with 0 by (rewrite shiftr_div by lia; rewrite Z.div_small; lia). rewrite parts_min_0 by assumption. lia. Qed.
Definition width (w : Z) : Prop := w = 8 \/ w = 16 \/ w = 32 \/ w = 64.
Lemma minmax_min scalar bytes w x : width w -> 0 <= x < 2 ^ w -> exists k, 8 <= k <= w /\ minmax scalar bytes Z.min w x w = Z.min (wrap k x) w.
Proof.
  intros Hw Hx. unfold minmax. cbv zeta. exists (if scalar then w else if bytes then 8 else Z.min w 32).
  assert (K : 8 <= (if scalar then w else if bytes then 8 else Z.min w 32) <= w /\ exists n, Z.to_nat (w / (if scalar then w else if bytes then 8 else Z.min w 32)) = S n).
  { destruct Hw as [->|[->|[->| ->]]], scalar, bytes; (split; [cbn; lia|eexists; vm_compute; reflexivity]). }
  destruct K as (K & n & En). split; [exact K|]. rewrite En. apply parts_min; [lia|]. assert (2 ^ 8 <= 2 ^ (if scalar then w else if bytes then 8 else Z.min w 32)) by (apply Z.pow_le_mono_r; lia). destruct Hw as [->|[->|[->| ->]]]; lia.
Qed.
Lemma minmax_max64 bytes lo hi : 0 <= lo < 256 -> 0 <= hi < 256 -> Z.shiftr (minmax false bytes Z.max 64 (lo + 2 ^ 32 * hi) (hi + 2 ^ 32 * lo)) 32 = Z.max hi lo.
Proof.
  intros Hl Hh. assert (EE : minmax false bytes Z.max 64 (lo + 2 ^ 32 * hi) (hi + 2 ^ 32 * lo) = Z.max lo hi + Z.max hi lo * 2 ^ 32).
  { unfold minmax. cbv zeta. destruct bytes.
    - change (Z.to_nat (64 / 8)) with 8%nat.
      replace (lo + 2 ^ 32 * hi) with (lo + 2 ^ 8 * (0 + 2 ^ 8 * (0 + 2 ^ 8 * (0 + 2 ^ 8 * (hi + 2 ^ 8 * (0 + 2 ^ 8 * (0 + 2 ^ 8 * (0 + 2 ^ 8 * 0)))))))) by lia.
      replace (hi + 2 ^ 32 * lo) with (hi + 2 ^ 8 * (0 + 2 ^ 8 * (0 + 2 ^ 8 * (0 + 2 ^ 8 * (lo + 2 ^ 8 * (0 + 2 ^ 8 * (0 + 2 ^ 8 * (0 + 2 ^ 8 * 0)))))))) by lia.
      rewrite !parts_step by lia. cbn [parts]. rewrite !Z.max_id. lia.
    - change (Z.min 64 32) with 32. change (Z.to_nat (64 / 32)) with 2%nat. replace (lo + 2 ^ 32 * hi) with (lo + 2 ^ 32 * (hi + 2 ^ 32 * 0)) by lia. replace (hi + 2 ^ 32 * lo) with (hi + 2 ^ 32 * (lo + 2 ^ 32 * 0)) by lia.
      rewrite !parts_step by lia. cbn [parts]. lia. }
  rewrite EE, shiftr_div by lia. rewrite Z.div_add, Z.div_small by lia. lia.
Qed.
Lemma exp_u64_0 scalar sse bytes : exp_u64 scalar sse bytes 0 = 0.
Proof.
  unfold exp_u64. destruct scalar; [exact E_0|]. cbv zeta. change (wrap 32 0) with 0. rewrite Z.shiftr_0_l, exp_u32_0. change (0 =? 0) with true. cbv beta iota. change (wrap 32 (0 + 0)) with 0. apply minmax_max64; lia.
Qed.
Lemma exp_u64_spec scalar sse bytes x : 0 < x < 2 ^ 64 -> nice x -> exp_u64 scalar sse bytes x = Z.log2 x + 127.
Proof.
  intros Hx Hn. unfold exp_u64. destruct scalar; [apply E_spec; assumption|]. cbv zeta.
  destruct (split32 x ltac:(lia)) as (l & h & Ex & Hl & Hh & W & S). rewrite W, S. change (wrap 32 137438953472) with 0. change (Z.shiftr 137438953472 32) with 32.
  assert (ZL : 0 <= exp_u32 sse l <= 159). { destruct (Z.eq_dec l 0) as [->|]; [rewrite exp_u32_0; lia|]. destruct (exp_u32_spec sse l ltac:(lia)) as (R & _). pose proof (Z.log2_nonneg l). lia. }
  assert (IF0 : (if exp_u32 sse l =? 0 then 0 else 0) = 0) by (destruct (exp_u32 sse l =? 0); reflexivity). rewrite IF0, Z.add_0_r. rewrite (wrap_small 32 (exp_u32 sse l)) by lia.
  destruct (Z.eq_dec h 0) as [->|Hh0].
  - rewrite exp_u32_0. change (0 =? 0) with true. cbv beta iota. change (wrap 32 (0 + 0)) with 0. rewrite minmax_max64 by lia. rewrite Z.mul_0_r, Z.add_0_r in Ex. subst x. destruct (exp_u32_spec sse l ltac:(lia)) as (R & R2). rewrite <- R2 by assumption. lia.
  - assert (EL : Z.log2 x = Z.log2 h + 32). { pose proof (Z.log2_spec h ltac:(lia)) as B. apply Z.log2_unique; [pose proof (Z.log2_nonneg h); lia|]. rewrite Ex. pose proof (Z.log2_nonneg h). replace (Z.succ (Z.log2 h + 32)) with (Z.succ (Z.log2 h) + 32) by lia. rewrite !Z.pow_add_r by lia. nia. }
    assert (Nh : nice h). { destruct (Z_lt_ge_dec (Z.log2 h) 24); [left; assumption|]. right. destruct Hn as [Hn|Hn]; [lia|]. rewrite EL in Hn. assert (Hm : 0 <= Z.log2 h - 24) by lia. replace (Z.log2 h + 32 - 24) with (Z.log2 h - 24 + 32) in Hn by lia. revert Hm Hn. generalize (Z.log2 h - 24). intros m Hm Hn. rewrite <- S, Z.shiftr_spec by lia. exact Hn. }
    destruct (exp_u32_spec sse h ltac:(lia)) as (R & R2). rewrite R2 by assumption. pose proof (log2_b h 32 ltac:(lia)). destruct (Z.eqb_spec (Z.log2 h + 127) 0); [lia|]. rewrite (wrap_small 32) by lia. rewrite minmax_max64 by lia. lia.
Qed.
Lemma biased_exp_0 scalar sse bytes w : width w -> biased_exp scalar sse bytes w 0 = 0.
Proof.
  intros [->|[->|[->| ->]]]; unfold biased_exp; cbn [Z.eqb Pos.eqb].
  - unfold exp_u8. rewrite exp_i32range_spec, E_0 by lia. destruct sse; vm_compute; reflexivity.
  - unfold exp_u16. rewrite exp_i32range_spec, E_0 by lia. destruct sse; vm_compute; reflexivity.
  - apply exp_u32_0.
  - apply exp_u64_0.
Qed.
Lemma biased_exp_spec scalar sse bytes w x : width w -> 0 < x < 2 ^ w -> nice x -> biased_exp scalar sse bytes w x = Z.log2 x + 127.
Proof.
  intros Hw Hx Hn. unfold biased_exp. destruct Hw as [->|[->|[->| ->]]]; cbn [Z.eqb Pos.eqb].
  - destruct (E_small x ltac:(lia)) as (R & <-); [|lia]. unfold exp_u8. rewrite exp_i32range_spec by lia. pose proof (log2_b x 8 Hx). destruct (E_small x ltac:(lia)) as (_ & R2). specialize (R2 ltac:(lia)). destruct sse; cbv zeta.
    + rewrite swrap_small by (try lia; unfold in_s; change (2 ^ (32 - 1)) with (2 ^ 31); lia). lia.
    + rewrite (wrap_small 16), wrap_small by (try lia; change (2 ^ 8) with 256; lia). reflexivity.
  - destruct (E_small x ltac:(lia)) as (R & <-); [|lia]. unfold exp_u16. rewrite exp_i32range_spec by lia. destruct sse; cbv zeta.
    + rewrite swrap_small by (try lia; unfold in_s; change (2 ^ (32 - 1)) with (2 ^ 31); lia). rewrite Z.max_r, Z.min_l by lia. apply wrap_small. lia.
    + apply wrap_small. lia.
  - apply exp_u32_spec; assumption.
  - apply exp_u64_spec; assumption.
Qed.
Lemma normalize_spec w v : width w -> 0 < v < 2 ^ w -> 0 < normalize w v < 2 ^ w /\ Z.log2 (normalize w v) = Z.log2 v /\ nice (normalize w v).
Proof.
  intros Hw Hv. unfold normalize. destruct (Z.leb_spec w 16).
  - split; [assumption|]. split; [reflexivity|]. apply nice_small. assert (2 ^ w <= 2 ^ 24) by (apply Z.pow_le_mono_r; lia). lia.
  - set (n := Z.land (Z.lnot (Z.shiftr v 24)) v). set (L := Z.log2 v). assert (HL : 0 <= L) by apply Z.log2_nonneg.
    assert (HLw : L < w) by (apply Z.log2_lt_pow2; lia).
    assert (TB : forall j, 0 <= j -> Z.testbit n j = negb (Z.testbit v (j + 24)) && Z.testbit v j) by (intros j Hj; unfold n; rewrite Z.land_spec, Z.lnot_spec, Z.shiftr_spec by lia; reflexivity).
    assert (N0 : 0 <= n) by (unfold n; apply Z.land_nonneg; lia).
    assert (BL : Z.testbit n L = true). { rewrite TB by lia. rewrite (Z.bits_above_log2 v (L + 24)) by (try lia; fold L; lia). unfold L. rewrite Z.bit_log2 by lia. reflexivity. }
    assert (NP : 0 < n). { destruct (Z.eq_dec n 0) as [e|]; [rewrite e, Z.bits_0 in BL; discriminate|lia]. }
    assert (LE : n <= v). { destruct (Z_le_gt_dec n v); [assumption|]. assert (n = Z.land n v). { apply Z.bits_inj'. intros j Hj. rewrite Z.land_spec, TB by lia. destruct (Z.testbit v j), (Z.testbit v (j + 24)); reflexivity. }
      assert (HU : v = n + Z.land v (Z.lnot n)). { rewrite Z.add_nocarry_lxor; [|apply Z.bits_inj'; intros j Hj; rewrite !Z.land_spec, Z.bits_0, Z.lnot_spec by lia; destruct (Z.testbit n j), (Z.testbit v j); reflexivity]. apply Z.bits_inj'. intros j Hj. rewrite Z.lxor_spec, Z.land_spec, Z.lnot_spec by lia. specialize (TB j Hj). destruct (Z.testbit n j), (Z.testbit v j); try reflexivity. destruct (Z.testbit v (j + 24)); discriminate. }
      assert (0 <= Z.land v (Z.lnot n)) by (apply Z.land_nonneg; lia). lia. }
    assert (LL : Z.log2 n = L). { apply Z.le_antisymm; [apply Z.log2_le_mono; assumption|]. destruct (Z_le_gt_dec L (Z.log2 n)); [assumption|]. rewrite (Z.bits_above_log2 n L) in BL by lia. discriminate. }
    split; [lia|]. split; [exact LL|]. unfold nice. rewrite LL. destruct (Z_lt_ge_dec L 24); [left; assumption|right]. rewrite TB by lia. replace (L - 24 + 24) with L by lia. unfold L. rewrite Z.bit_log2 by lia. reflexivity.
Qed.
Lemma normalize_0 w : normalize w 0 = 0. Proof. unfold normalize. destruct (w <=? 16); [reflexivity|]. apply Z.land_0_r. Qed.
Lemma width_b w : width w -> 8 <= w <= 64. Proof. intros [->|[->|[->| ->]]]; lia. Qed.
Lemma width_pow w : width w -> 256 <= 2 ^ w. Proof. intros H. change 256 with (2 ^ 8). apply Z.pow_le_mono_r; [lia|]. apply width_b in H. lia. Qed.

(** ** the three operations *)
Lemma lzc_ok scalar sse bytes w v : width w -> 0 <= v < 2 ^ w -> leading_zero_count scalar sse bytes w v = if v =? 0 then w else w - 1 - Z.log2 v.
Proof.
  intros Hw Hv. pose proof (width_b w Hw). pose proof (width_pow w Hw). unfold leading_zero_count. cbv zeta. rewrite (wrap_small w (w + 126)) by lia.
  destruct (Z.eqb_spec v 0) as [->|].
  - rewrite normalize_0, biased_exp_0 by assumption. rewrite Z.sub_0_r, wrap_small by lia. destruct (minmax_min scalar bytes w (w + 126) Hw ltac:(lia)) as (k & Hk & ->). rewrite wrap_small; [lia|]. assert (2 ^ 8 <= 2 ^ k) by (apply Z.pow_le_mono_r; lia). lia.
  - destruct (normalize_spec w v Hw ltac:(lia)) as (N1 & N2 & N3). rewrite biased_exp_spec by assumption. rewrite N2. pose proof (log2_b v w ltac:(lia)). rewrite wrap_small by lia. destruct (minmax_min scalar bytes w (w + 126 - (Z.log2 v + 127)) Hw ltac:(lia)) as (k & Hk & ->). rewrite wrap_small; [lia|]. assert (2 ^ 8 <= 2 ^ k) by (apply Z.pow_le_mono_r; lia). lia.
Qed.
Lemma hsb_ok scalar sse bytes w v : width w -> 0 < v < 2 ^ w -> highest_set_bit scalar sse bytes w v = Z.log2 v.
Proof.
  intros Hw Hv. pose proof (width_b w Hw). pose proof (width_pow w Hw). unfold highest_set_bit. destruct (normalize_spec w v Hw ltac:(lia)) as (N1 & N2 & N3). rewrite biased_exp_spec by assumption. rewrite N2. pose proof (log2_b v w ltac:(lia)). rewrite wrap_small by lia. lia.
Qed.
Lemma hsb_0 scalar sse bytes w : width w -> highest_set_bit scalar sse bytes w 0 = 2 ^ w - 127.
Proof.
  intros Hw. pose proof (width_pow w Hw). unfold highest_set_bit. rewrite normalize_0, biased_exp_0 by assumption. unfold wrap. symmetry. apply (Z.mod_unique_pos _ _ (-1)); lia.
Qed.
Lemma wrap_land w a b : 0 <= w -> wrap w (Z.land a b) = Z.land (wrap w a) (wrap w b).
Proof. intros Hw. apply Z.bits_inj'. intros j Hj. rewrite Z.land_spec, !testbit_wrap by lia. rewrite Z.land_spec. destruct (j <? w), (Z.testbit a j), (Z.testbit b j); reflexivity. Qed.
Lemma lowest_bit_ok w v k : 0 < w -> 0 <= v < 2 ^ w -> 0 <= k < w -> Z.testbit v k = true -> (forall j, 0 <= j < k -> Z.testbit v j = false) ->
  wrap w (Z.land (swrap w v) (swrap w (0 - swrap w v))) = 2 ^ k.
Proof.
  intros Hw Hv Hk B1 B2. rewrite wrap_land by lia. rewrite !wrap_swrap by lia. rewrite <- (wrap_sub_r w 0 (swrap w v)). rewrite wrap_swrap by lia. rewrite wrap_sub_r. rewrite <- wrap_land by lia.
  replace (0 - v) with (Z.lnot (v - 1)) by (unfold Z.lnot; lia). rewrite (isolate_lowest v k) by (try lia; assumption). apply wrap_small. split; [apply Z.pow_nonneg; lia|apply Z.pow_lt_mono_r; lia].
Qed.
Lemma nice_pow k : 0 <= k -> nice (2 ^ k).
Proof. intros Hk. unfold nice. rewrite Z.log2_pow2 by lia. destruct (Z_lt_ge_dec k 24); [left; assumption|right]. rewrite Z.pow2_bits_eqb by lia. apply Z.eqb_neq. lia. Qed.
Lemma tzc_ok scalar sse bytes w v k : width w -> 0 <= v < 2 ^ w -> 0 <= k < w -> Z.testbit v k = true -> (forall j, 0 <= j < k -> Z.testbit v j = false) ->
  trailing_zero_count scalar sse bytes w v = k.
Proof.
  intros Hw Hv Hk B1 B2. pose proof (width_b w Hw). pose proof (width_pow w Hw). unfold trailing_zero_count. cbv zeta. rewrite (lowest_bit_ok w v k) by (try lia; assumption).
  assert (0 < 2 ^ k < 2 ^ w) by (split; [apply pow2_gt0; lia|apply Z.pow_lt_mono_r; lia]). rewrite biased_exp_spec by (try assumption; apply nice_pow; lia). rewrite Z.log2_pow2 by lia. replace (k + 127 - 127) with k by lia. rewrite wrap_small by lia.
  destruct (minmax_min scalar bytes w k Hw ltac:(lia)) as (kk & Hkk & ->). rewrite wrap_small; [lia|]. assert (2 ^ 8 <= 2 ^ kk) by (apply Z.pow_le_mono_r; lia). lia.
Qed.
Lemma tzc_0 scalar sse bytes w : width w -> trailing_zero_count scalar sse bytes w 0 = w.
Proof.
  intros Hw. pose proof (width_b w Hw). pose proof (width_pow w Hw). unfold trailing_zero_count. cbv zeta.
  assert (Z0 : swrap w 0 = 0) by (apply swrap_small; [lia|]; unfold in_s; pose proof (pow2_gt0 (w - 1) ltac:(lia)); lia). rewrite Z0. change (0 - 0) with 0. rewrite Z0. change (Z.land 0 0) with 0. rewrite (wrap_small w 0) by lia. rewrite biased_exp_0 by assumption.
  change (0 - 127) with (-127). pose proof (wrap_range w (-127) ltac:(lia)). destruct (minmax_min scalar bytes w (wrap w (-127)) Hw ltac:(lia)) as (k & Hk & ->). rewrite wrap_mod_sub by lia. assert (2 ^ 8 <= 2 ^ k) by (apply Z.pow_le_mono_r; lia).
  replace (wrap k (-127)) with (2 ^ k - 127) by (apply (Z.mod_unique_pos _ _ (-1)); lia). lia.
Qed.
