From Coq Require Import ZArith List Lia Bool.
From Verif Require Import Word.
Local Open Scope Z_scope.

Lemma pow2_pos w : 0 < 2 ^ w \/ w < 0.
Proof. destruct (Z_lt_dec w 0); [right; lia | left; apply Z.pow_pos_nonneg; lia]. Qed.

Lemma pow2_gt0 w : 0 <= w -> 0 < 2 ^ w.
Proof. intros; apply Z.pow_pos_nonneg; lia. Qed.

Lemma wrap_range w x : 0 <= w -> 0 <= wrap w x < 2 ^ w.
Proof. intros H. unfold wrap. apply Z.mod_pos_bound, pow2_gt0, H. Qed.

Lemma wrap_small w x : 0 <= x < 2 ^ w -> wrap w x = x.
Proof. intros H. apply Z.mod_small, H. Qed.

Lemma wrap_wrap w x : 0 <= w -> wrap w (wrap w x) = wrap w x.
Proof. intros. apply wrap_small, wrap_range; auto. Qed.

Lemma wrap_add_l w x y : wrap w (wrap w x + y) = wrap w (x + y).
Proof. unfold wrap. apply Zplus_mod_idemp_l. Qed.
Lemma wrap_add_r w x y : wrap w (x + wrap w y) = wrap w (x + y).
Proof. unfold wrap. apply Zplus_mod_idemp_r. Qed.
Lemma wrap_sub_l w x y : wrap w (wrap w x - y) = wrap w (x - y).
Proof. unfold wrap. apply Zminus_mod_idemp_l. Qed.
Lemma wrap_sub_r w x y : wrap w (x - wrap w y) = wrap w (x - y).
Proof. unfold wrap. apply Zminus_mod_idemp_r. Qed.
Lemma wrap_mul_l w x y : wrap w (wrap w x * y) = wrap w (x * y).
Proof. unfold wrap. apply Zmult_mod_idemp_l. Qed.
Lemma wrap_mul_r w x y : wrap w (x * wrap w y) = wrap w (x * y).
Proof. unfold wrap. apply Zmult_mod_idemp_r. Qed.

Lemma wrap_add_mult w x k : 0 <= w -> wrap w (x + k * 2 ^ w) = wrap w x.
Proof. intros. unfold wrap. rewrite Z.mod_add; auto. pose proof (pow2_gt0 w H); lia. Qed.

Lemma land_ones' x n : 0 <= n -> Z.land x (2 ^ n - 1) = x mod 2 ^ n.
Proof. intros. rewrite <- Z.land_ones by auto. f_equal. rewrite Z.ones_equiv. lia. Qed.

Lemma land_wrap x n m : 0 <= n -> m = 2 ^ n - 1 -> Z.land x m = wrap n x.
Proof. intros H ->. apply land_ones', H. Qed.

Lemma shiftr_div x n : 0 <= n -> Z.shiftr x n = x / 2 ^ n.
Proof. apply Z.shiftr_div_pow2. Qed.

Lemma swrap_range w x : 0 < w -> in_s w (swrap w x).
Proof.
  intros H. unfold in_s, swrap.
  pose proof (Z.mod_pos_bound x (2 ^ w) (pow2_gt0 w ltac:(lia))).
  assert (2 ^ w = 2 * 2 ^ (w - 1)).
  { replace w with (Z.succ (w - 1)) at 1 by lia. apply Z.pow_succ_r. lia. }
  destruct (Z.ltb_spec (x mod 2 ^ w) (2 ^ (w - 1))); lia.
Qed.

Lemma swrap_small w x : 0 < w -> in_s w x -> swrap w x = x.
Proof.
  intros H Hx. unfold in_s, swrap in *.
  assert (2 ^ w = 2 * 2 ^ (w - 1)).
  { replace w with (Z.succ (w - 1)) at 1 by lia. apply Z.pow_succ_r. lia. }
  destruct (Z_lt_dec x 0).
  - assert (x mod 2 ^ w = x + 2 ^ w) as ->.
    { rewrite <- (Z.mod_add x 1 (2 ^ w)) by lia. rewrite Z.mod_small by lia. lia. }
    destruct (Z.ltb_spec (x + 2 ^ w) (2 ^ (w - 1))); lia.
  - rewrite Z.mod_small by lia.
    destruct (Z.ltb_spec x (2 ^ (w - 1))); lia.
Qed.

Lemma swrap_wrap w x : 0 <= w -> swrap w (wrap w x) = swrap w x.
Proof.
  intros. unfold swrap, wrap. rewrite Z.mod_mod; auto.
  pose proof (pow2_gt0 w H). lia.
Qed.

Lemma swrap_mod w x : 0 < w -> (swrap w x) mod 2 ^ w = x mod 2 ^ w.
Proof.
  intros H. unfold swrap. pose proof (pow2_gt0 w ltac:(lia)).
  destruct (Z.ltb_spec (x mod 2 ^ w) (2 ^ (w - 1))).
  - apply Z.mod_mod; lia.
  - rewrite <- (Z.mod_add _ 1) by lia.
    replace (x mod 2 ^ w - 2 ^ w + 1 * 2 ^ w) with (x mod 2 ^ w) by lia.
    apply Z.mod_mod; lia.
Qed.

(** [swrap] is characterised by range and congruence. *)
Lemma swrap_unique w x y : 0 < w -> in_s w y -> x mod 2 ^ w = y mod 2 ^ w -> swrap w x = y.
Proof.
  intros H Hy E. rewrite <- (swrap_small w y) by auto.
  unfold swrap. rewrite E. reflexivity.
Qed.

Lemma bsr_spec x : 0 < x -> 2 ^ bsr x <= x < 2 ^ (bsr x + 1).
Proof. intros H. apply Z.log2_spec, H. Qed.

Lemma bsr_nonneg x : 0 <= bsr x.
Proof. apply Z.log2_nonneg. Qed.

Lemma bsr_lt x w : 0 < x < 2 ^ w -> 0 <= w -> bsr x < w.
Proof. intros. apply Z.log2_lt_pow2; lia. Qed.

Lemma bsf_pos_spec p : Z.testbit (Zpos p) (bsf_pos p) = true
   /\ (forall j, 0 <= j < bsf_pos p -> Z.testbit (Zpos p) j = false) /\ 0 <= bsf_pos p.
Proof.
  induction p as [p IH|p IH|]; cbn [bsf_pos].
  - split; [reflexivity|split]; [intros; lia|lia].
  - destruct IH as (H1 & H2 & H3).
    assert (Hd : Zpos (xO p) = 2 * Zpos p) by reflexivity.
    split; [|split; [|lia]].
    + rewrite Hd. replace (1 + bsf_pos p) with (Z.succ (bsf_pos p)) by lia.
      rewrite Z.double_bits_succ. exact H1.
    + intros j Hj. rewrite Hd. destruct (Z.eq_dec j 0) as [->|Hn].
      * apply Z.testbit_even_0.
      * replace j with (Z.succ (j - 1)) by lia. rewrite Z.double_bits_succ.
        apply H2. lia.
  - split; [reflexivity|split]; [intros; lia|lia].
Qed.

Lemma bsf_spec x : 0 < x -> Z.testbit x (bsf x) = true
   /\ (forall j, 0 <= j < bsf x -> Z.testbit x j = false) /\ 0 <= bsf x.
Proof. destruct x as [|p|p]; try lia. intros _. apply bsf_pos_spec. Qed.

Lemma bsf_lt x w : 0 < x < 2 ^ w -> 0 <= w -> bsf x < w.
Proof.
  intros H Hw. destruct (Z_lt_dec (bsf x) w); auto.
  destruct (bsf_spec x) as (H1 & _ & _); [lia|].
  rewrite Z.bits_above_log2 in H1; [discriminate|lia|].
  apply Z.lt_le_trans with w; [apply Z.log2_lt_pow2; lia|lia].
Qed.

Lemma testbit_wrap w x j : 0 <= w -> 0 <= j ->
  Z.testbit (wrap w x) j = if j <? w then Z.testbit x j else false.
Proof.
  intros Hw Hj. unfold wrap.
  destruct (Z.ltb_spec j w).
  - apply Z.mod_pow2_bits_low; lia.
  - apply Z.mod_pow2_bits_high; lia.
Qed.

Lemma testbit_small x w j : 0 <= x < 2 ^ w -> w <= j -> Z.testbit x j = false.
Proof.
  intros H Hj. destruct (Z.eq_dec x 0) as [->|]; [apply Z.testbit_0_l|].
  apply Z.bits_above_log2; [lia|].
  destruct (Z_lt_dec w 0). { rewrite Z.pow_neg_r in H by lia. lia. }
  apply Z.lt_le_trans with w; [apply Z.log2_lt_pow2; lia|lia].
Qed.

(** bits of a number split at position w *)
Lemma testbit_split w x y k : 0 <= w -> 0 <= x < 2 ^ w -> 0 <= k ->
  Z.testbit (x + 2 ^ w * y) k = if k <? w then Z.testbit x k else Z.testbit y (k - w).
Proof.
  intros Hw Hx Hk. pose proof (pow2_gt0 w Hw). destruct (Z.ltb_spec k w).
  - rewrite <- (Z.mod_pow2_bits_low (x + 2 ^ w * y) w k) by lia.
    rewrite Z.mul_comm, Z.mod_add by lia. rewrite Z.mod_small by lia. reflexivity.
  - replace k with ((k - w) + w) at 1 by lia. rewrite <- Z.div_pow2_bits by lia.
    rewrite Z.mul_comm, Z.div_add by lia. rewrite Z.div_small by lia. reflexivity.
Qed.

Lemma testbit_one_shl i k : 0 <= i -> 0 <= k -> Z.testbit (Z.shiftl 1 i) k = (k =? i).
Proof.
  intros. rewrite Z.shiftl_1_l. rewrite Z.pow2_bits_eqb by lia. apply Z.eqb_sym.
Qed.

(** two words with equal low bits are equal *)
Lemma word_ext w x y : 0 <= w -> 0 <= x < 2 ^ w -> 0 <= y < 2 ^ w ->
  (forall k, 0 <= k < w -> Z.testbit x k = Z.testbit y k) -> x = y.
Proof.
  intros Hw Hx Hy H. apply Z.bits_inj'. intros k Hk. destruct (Z_lt_dec k w).
  - apply H. lia.
  - rewrite !(testbit_small _ w) by lia. reflexivity.
Qed.

Lemma lor_range w x y : 0 <= w -> 0 <= x < 2 ^ w -> 0 <= y < 2 ^ w -> 0 <= Z.lor x y < 2 ^ w.
Proof.
  intros Hw Hx Hy. split; [apply Z.lor_nonneg; lia|].
  assert (E : Z.lor x y = wrap w (Z.lor x y)).
  { apply Z.bits_inj'. intros k Hk. rewrite testbit_wrap by lia. destruct (Z.ltb_spec k w); [reflexivity|].
    rewrite Z.lor_spec, !(testbit_small _ w) by lia. reflexivity. }
  rewrite E. apply wrap_range, Hw.
Qed.

Lemma land_range w x y : 0 <= w -> 0 <= x < 2 ^ w -> 0 <= Z.land x y < 2 ^ w.
Proof.
  intros Hw Hx. split; [apply Z.land_nonneg; lia|].
  assert (E : Z.land x y = wrap w (Z.land x y)).
  { apply Z.bits_inj'. intros k Hk. rewrite testbit_wrap by lia. destruct (Z.ltb_spec k w); [reflexivity|].
    rewrite Z.land_spec, (testbit_small x w) by lia. reflexivity. }
  rewrite E. apply wrap_range, Hw.
Qed.

(** clearing the lowest one bit with x & (x-1) *)
Lemma clear_lowest x k : 0 <= k -> Z.testbit x k = true -> (forall j, 0 <= j < k -> Z.testbit x j = false) ->
  Z.land x (x - 1) = x - 2 ^ k /\
  forall j, 0 <= j -> Z.testbit (Z.land x (x - 1)) j = if j <=? k then false else Z.testbit x j.
Proof.
  intros Hk Ht Hl.
  pose proof (pow2_gt0 k Hk) as Pk.
  assert (P1 : 2 ^ (k + 1) = 2 * 2 ^ k) by (rewrite Z.pow_add_r by lia; lia).
  set (h := x / 2 ^ (k + 1)).
  assert (Hlow : x mod 2 ^ (k + 1) = 2 ^ k).
  { apply Z.bits_inj'. intros j Hj. rewrite Z.pow2_bits_eqb by lia.
    destruct (Z_lt_dec j (k + 1)).
    - rewrite Z.mod_pow2_bits_low by lia. destruct (Z.eqb_spec k j) as [<-|]; [exact Ht|apply Hl; lia].
    - rewrite Z.mod_pow2_bits_high by lia. symmetry. apply Z.eqb_neq. lia. }
  assert (Ex : x = 2 ^ k + 2 ^ (k + 1) * h).
  { pose proof (Z.div_mod x (2 ^ (k + 1)) ltac:(lia)). unfold h. lia. }
  assert (Ex1 : x - 1 = (2 ^ k - 1) + 2 ^ (k + 1) * h) by lia.
  assert (B : forall j, 0 <= j -> Z.testbit (Z.land x (x - 1)) j = if j <=? k then false else Z.testbit x j).
  { intros j Hj. rewrite Z.land_spec. rewrite Ex1. rewrite Ex.
    rewrite !testbit_split by lia.
    destruct (Z.ltb_spec j (k + 1)), (Z.leb_spec j k); try lia.
    - rewrite Z.pow2_bits_eqb by lia. destruct (Z.eqb_spec k j) as [<-|]; [|reflexivity].
      cbn [andb]. apply (testbit_small _ k); lia.
    - apply andb_diag. }
  split; [|exact B].
  replace (x - 2 ^ k) with (0 + 2 ^ (k + 1) * h) by lia.
  apply Z.bits_inj'. intros j Hj. rewrite B by lia.
  rewrite testbit_split by lia. rewrite Ex.
  destruct (Z.leb_spec j k), (Z.ltb_spec j (k + 1)); try lia.
  - rewrite Z.testbit_0_l. reflexivity.
  - rewrite testbit_split by lia. destruct (Z.ltb_spec j (k + 1)); [lia|reflexivity].
Qed.
