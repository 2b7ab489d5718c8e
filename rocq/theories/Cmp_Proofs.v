(** Comparisons, Min/Max/Abs, selects, 128-bit comparisons. *)
From Coq Require Import ZArith List Bool Lia.
From Verif Require Import Word Ops_Model Shift_Spec Shift_Model Shift_Proofs Shift_Var BitPerm_Model BitPerm_Proofs BitPerm_Shuffle Cmp_Model.
Import ListNotations.
Open Scope Z_scope.
Ltac Zify.zify_post_hook ::= idtac.

Ltac wid H := destruct H as [->|[->|[->| ->]]].
Lemma lane_max w : 0 <= w -> lane w (2 ^ w - 1).
Proof. intros H. unfold lane. assert (0 < 2 ^ w) by (apply Z.pow_pos_nonneg; lia). lia. Qed.
Lemma lane_0 w : 0 <= w -> lane w 0.
Proof. intros H. unfold lane. assert (0 < 2 ^ w) by (apply Z.pow_pos_nonneg; lia). lia. Qed.
Lemma all_ones_lane w c : 0 <= w -> lane w (all_ones w c).
Proof. intros H. unfold all_ones. destruct c; [now apply lane_max|now apply lane_0]. Qed.
Lemma vnot1_ones w c : vnot1 w (all_ones w c) = all_ones w (negb c).
Proof. unfold vnot1, all_ones. destruct c; cbn [negb]; lia. Qed.
Lemma land_ones_lane w x : 0 <= w -> lane w x -> Z.land (2 ^ w - 1) x = x.
Proof.
  intros Hw Hx. rewrite Z.land_comm. replace (2 ^ w - 1) with (Z.ones w) by (rewrite Z.ones_equiv; lia). rewrite Z.land_ones by lia. now apply Z.mod_small.
Qed.
Lemma land_all_ones w c d : 0 <= w -> Z.land (all_ones w c) (all_ones w d) = all_ones w (c && d).
Proof. intros Hw. destruct c; cbn [andb all_ones]; [|apply Z.land_0_l]. apply land_ones_lane; [lia|now apply all_ones_lane]. Qed.
Lemma lor_all_ones w c d : 0 <= w -> Z.lor (all_ones w c) (all_ones w d) = all_ones w (c || d).
Proof. intros Hw. destruct c, d; cbn [orb all_ones]; rewrite ?Z.lor_0_r, ?Z.lor_0_l, ?Z.lor_diag; reflexivity. Qed.

(** selects *)
Lemma blend_bits_ok w c y n : 0 <= w -> lane w y -> lane w n -> blend_bits w (all_ones w c) y n = if c then y else n.
Proof.
  intros Hw Hy Hn. unfold blend_bits. rewrite vnot1_ones. destruct c; cbn [negb all_ones]; rewrite land_ones_lane by assumption; rewrite Z.land_0_l; [apply Z.lor_0_r|reflexivity].
Qed.
Lemma split_byte x : wrap 8 x + 256 * Z.shiftr x 8 = x.
Proof. unfold wrap. rewrite Z.shiftr_div_pow2 by lia. change (2 ^ 8) with 256. pose proof (Z.div_mod x 256). lia. Qed.
Lemma lane_shiftr8 k x : lane (8 * Z.of_nat (S k)) x -> lane (8 * Z.of_nat k) (Z.shiftr x 8).
Proof.
  unfold lane. intros H. rewrite Z.shiftr_div_pow2 by lia. replace (8 * Z.of_nat (S k)) with (8 + 8 * Z.of_nat k) in H by lia. rewrite Z.pow_add_r in H by lia.
  split; [apply Z.div_pos; lia|apply Z.div_lt_upper_bound; lia].
Qed.
Lemma blend_bytes_ok k c y n : lane (8 * Z.of_nat k) y -> lane (8 * Z.of_nat k) n -> blend_bytes k (all_ones (8 * Z.of_nat k) c) y n = if c then y else n.
Proof.
  revert y n. induction k; intros y n Hy Hn.
  - unfold lane in *. cbn in *. destruct c; lia.
  - cbn [blend_bytes]. assert (E : Z.shiftr (all_ones (8 * Z.of_nat (S k)) c) 8 = all_ones (8 * Z.of_nat k) c /\ Z.testbit (all_ones (8 * Z.of_nat (S k)) c) 7 = c).
    { destruct c; cbn [all_ones].
      - split; [apply Z.bits_inj'; intros m Hm; rewrite Z.shiftr_spec by lia|]; rewrite !tb_ones by lia; bcase; lia || reflexivity.
      - split; [apply Z.shiftr_0_l|apply Z.testbit_0_l]. }
    destruct E as [-> ->]. rewrite IHk by (now apply lane_shiftr8). destruct c; apply split_byte.
Qed.
Lemma width_bytes w : width w -> w = 8 * Z.of_nat (Z.to_nat (w / 8)).
Proof. intros H. wid H; reflexivity. Qed.
Lemma select_ok1 sse4 w c y n : width w -> lane w y -> lane w n -> if_then_else sse4 w (all_ones w c) y n = if c then y else n.
Proof.
  intros Hw Hy Hn. unfold if_then_else. pose proof (width_pos w Hw). destruct sse4; [|apply blend_bits_ok; [lia|assumption..]].
  pose proof (width_bytes w Hw) as E. remember (Z.to_nat (w / 8)) as k eqn:Ek. clear Ek. subst w. apply blend_bytes_ok; assumption.
Qed.

(** 64-bit comparisons from halves *)
Lemma halves x : lane 64 x -> lane 32 (lo32 x) /\ lane 32 (hi32 x) /\ x = lo32 x + 2 ^ 32 * hi32 x.
Proof.
  intros H. unfold lane, lo32, hi32, wrap in *. rewrite Z.shiftr_div_pow2 by lia. change (2 ^ 64) with (2 ^ 32 * 2 ^ 32) in H.
  pose proof (Z.div_mod x (2 ^ 32) ltac:(lia)). pose proof (Z.mod_pos_bound x (2 ^ 32) ltac:(lia)). assert (0 <= x / 2 ^ 32) by (apply Z.div_pos; lia). assert (x / 2 ^ 32 < 2 ^ 32) by (apply Z.div_lt_upper_bound; lia). repeat split; lia.
Qed.
Lemma hi_join l h : lane 32 l -> lane 32 h -> hi32 (join32 l h) = h.
Proof. intros Hl Hh. apply (pair_lane 32); [lia|assumption..]. Qed.
Lemma join_ones c : join32 (all_ones 32 c) (all_ones 32 c) = all_ones 64 c.
Proof. destruct c; reflexivity. Qed.
Lemma hi_psub a b : lane 64 a -> lane 64 b -> hi32 a = hi32 b -> hi32 (psub 64 b a) = all_ones 32 (lo32 b <? lo32 a).
Proof.
  intros Ha Hb E. destruct (halves a Ha) as (La & _ & Ea). destruct (halves b Hb) as (Lb & _ & Eb). unfold psub.
  replace (b - a) with (lo32 b - lo32 a) by lia. set (x := lo32 a) in *. set (y := lo32 b) in *. clearbody x y. unfold lane in La, Lb. unfold hi32, wrap. rewrite Z.shiftr_div_pow2 by lia.
  destruct (Z.ltb_spec y x); cbn [all_ones].
  - replace ((y - x) mod 2 ^ 64) with (y - x + 2 ^ 64) by (apply Z.mod_unique with (-1); lia). symmetry. apply Z.div_unique with (y - x + 2 ^ 32); lia.
  - rewrite Z.mod_small by lia. apply Z.div_small. lia.
Qed.
Lemma signed_halves x : lane 64 x -> signed 64 x = signed 32 (hi32 x) * 2 ^ 32 + lo32 x.
Proof.
  intros H. destruct (halves x H) as (L & Hh & E). unfold signed, lane in *. change (64 - 1) with 63. change (32 - 1) with 31.
  destruct (Z.ltb_spec x (2 ^ 63)), (Z.ltb_spec (hi32 x) (2 ^ 31)); lia.
Qed.
Lemma signed_inj w x y : lane w x -> lane w y -> signed w x = signed w y -> x = y.
Proof. unfold signed, lane. intros Hx Hy. destruct (Z.ltb_spec x (2 ^ (w - 1))), (Z.ltb_spec y (2 ^ (w - 1))); lia. Qed.
Theorem gt64_ok a b : lane 64 a -> lane 64 b -> gt64 a b = all_ones 64 (signed 64 b <? signed 64 a).
Proof.
  intros Ha Hb. unfold gt64. destruct (halves a Ha) as (La & Ha' & _). destruct (halves b Hb) as (Lb & Hb' & _).
  unfold pcmpeq, pcmpgt. set (el := lo32 a =? lo32 b). set (eh := hi32 a =? hi32 b).
  rewrite !swrap_signed by assumption.
  assert (E : hi32 (Z.lor (join32 (all_ones 32 (signed 32 (lo32 b) <? signed 32 (lo32 a))) (all_ones 32 (signed 32 (hi32 b) <? signed 32 (hi32 a)))) (Z.land (join32 (all_ones 32 el) (all_ones 32 eh)) (psub 64 b a)))
    = all_ones 32 (signed 64 b <? signed 64 a)).
  { unfold hi32 at 1. rewrite Z.shiftr_lor, Z.shiftr_land. fold (hi32 (join32 (all_ones 32 (signed 32 (lo32 b) <? signed 32 (lo32 a))) (all_ones 32 (signed 32 (hi32 b) <? signed 32 (hi32 a))))).
    fold (hi32 (join32 (all_ones 32 el) (all_ones 32 eh))). fold (hi32 (psub 64 b a)). rewrite !hi_join by (apply all_ones_lane; lia).
    rewrite !signed_halves by assumption. unfold eh. destruct (Z.eqb_spec (hi32 a) (hi32 b)) as [Eh|Eh].
    - rewrite hi_psub by assumption. rewrite land_all_ones, lor_all_ones by lia. rewrite Eh. rewrite Z.ltb_irrefl. cbn [orb andb]. f_equal.
      destruct (Z.ltb_spec (lo32 b) (lo32 a)), (Z.ltb_spec (signed 32 (hi32 b) * 2 ^ 32 + lo32 b) (signed 32 (hi32 b) * 2 ^ 32 + lo32 a)); lia || reflexivity.
    - cbn [all_ones]. rewrite Z.land_0_l, Z.lor_0_r. f_equal. assert (signed 32 (hi32 a) <> signed 32 (hi32 b)) by (intros C; apply Eh; now apply (signed_inj 32)).
      unfold lane in La, Lb. set (p := signed 32 (hi32 a)) in *. set (q := signed 32 (hi32 b)) in *. clearbody p q.
      destruct (Z.ltb_spec q p), (Z.ltb_spec (q * 2 ^ 32 + lo32 b) (p * 2 ^ 32 + lo32 a)); lia || reflexivity. }
  rewrite E. apply join_ones.
Qed.
Theorem eq64_ok a b : lane 64 a -> lane 64 b -> eq64 a b = all_ones 64 (a =? b).
Proof.
  intros Ha Hb. unfold eq64, pcmpeq. destruct (halves a Ha) as (_ & _ & Ea). destruct (halves b Hb) as (_ & _ & Eb). rewrite !land_all_ones by lia.
  rewrite (andb_comm (hi32 a =? hi32 b)), join_ones. f_equal. destruct (Z.eqb_spec (lo32 a) (lo32 b)), (Z.eqb_spec (hi32 a) (hi32 b)), (Z.eqb_spec a b); cbn [andb]; try reflexivity; exfalso; subst; try congruence; lia.
Qed.
Theorem veq_ok n64 w a b : width w -> lane w a -> lane w b -> veq n64 w a b = all_ones w (a =? b).
Proof. intros Hw Ha Hb. unfold veq. destruct (Z.eqb_spec w 64) as [->|]; [destruct n64; [reflexivity|now apply eq64_ok]|reflexivity]. Qed.
Theorem gt_i_ok n64 w a b : width w -> lane w a -> lane w b -> gt_i n64 w a b = all_ones w (signed w b <? signed w a).
Proof.
  intros Hw Ha Hb. unfold gt_i. assert (E : pcmpgt w a b = all_ones w (signed w b <? signed w a)) by (unfold pcmpgt; now rewrite !swrap_signed).
  destruct (Z.eqb_spec w 64) as [->|]; [destruct n64; [exact E|now apply gt64_ok]|exact E].
Qed.
(** flipping the sign bit *)
Lemma flip_sign w a : 0 < w -> lane w a -> lane w (Z.lxor a (2 ^ (w - 1))) /\ signed w (Z.lxor a (2 ^ (w - 1))) = a - 2 ^ (w - 1).
Proof.
  intros Hw Ha. assert (D : 2 ^ w = 2 * 2 ^ (w - 1)) by (rewrite <- Z.pow_succ_r by lia; f_equal; lia). assert (P : 0 < 2 ^ (w - 1)) by (apply Z.pow_pos_nonneg; lia).
  assert (N : forall x, 0 <= x < 2 ^ (w - 1) -> Z.lxor x (2 ^ (w - 1)) = x + 2 ^ (w - 1)).
  { intros x Hx. symmetry. apply Z.add_nocarry_lxor. rewrite land_pow2 by lia. rewrite (tb_high (w - 1)) by lia. reflexivity. }
  unfold lane in *. destruct (Z_lt_le_dec a (2 ^ (w - 1))) as [H|H].
  - rewrite N by lia. unfold signed. split; [lia|]. destruct (Z.ltb_spec (a + 2 ^ (w - 1)) (2 ^ (w - 1))); lia.
  - assert (E : Z.lxor a (2 ^ (w - 1)) = a - 2 ^ (w - 1)).
    { replace a with (a - 2 ^ (w - 1) + 2 ^ (w - 1)) at 1 by lia. rewrite <- N by lia. now rewrite Z.lxor_assoc, Z.lxor_nilpotent, Z.lxor_0_r. }
    rewrite E. unfold signed. split; [lia|]. destruct (Z.ltb_spec (a - 2 ^ (w - 1)) (2 ^ (w - 1))); lia.
Qed.
Lemma msb_eq w : width w -> Z.shiftr (2 ^ w - 1) 1 + 1 = 2 ^ (w - 1) /\ wrap w (Z.shiftl 1 (w - 1)) = 2 ^ (w - 1).
Proof. intros H. wid H; split; reflexivity. Qed.
Lemma gt_flip n64 w a b : width w -> lane w a -> lane w b -> gt_i n64 w (Z.lxor a (2 ^ (w - 1))) (Z.lxor b (2 ^ (w - 1))) = all_ones w (b <? a).
Proof.
  intros Hw Ha Hb. pose proof (width_pos w Hw). destruct (flip_sign w a) as [A1 A2]; [lia|assumption|]. destruct (flip_sign w b) as [B1 B2]; [lia|assumption|].
  rewrite gt_i_ok by assumption. rewrite A2, B2. f_equal. destruct (Z.ltb_spec (b - 2 ^ (w - 1)) (a - 2 ^ (w - 1))), (Z.ltb_spec b a); lia || reflexivity.
Qed.
Theorem gt_u_ok n64 w a b : width w -> lane w a -> lane w b -> gt_u n64 w a b = all_ones w (b <? a).
Proof. intros Hw Ha Hb. unfold gt_u. rewrite (proj1 (msb_eq w Hw)). now apply gt_flip. Qed.

(** sign bit *)
Lemma bcast_sign_ok sse4 w x : width w -> lane w x -> bcast_sign sse4 w x = all_ones w (signed w x <? 0).
Proof.
  intros Hw Hx. unfold bcast_sign. destruct (Z.eqb_spec w 8) as [->|].
  - unfold lt_i. rewrite gt_i_ok by (try assumption; apply lane_0; lia). reflexivity.
  - destruct (Z.eqb_spec w 64) as [->|]; [now apply broadcast64_ok|]. pose proof (width_pos w Hw) as Hp.
    destruct (srai_spec w (w - 1) x ltac:(lia) Hx) as [L S]. apply (signed_inj w); [exact L|apply all_ones_lane; lia|]. rewrite S. pose proof (signed_range w x Hp Hx) as R.
    assert (P : 0 < 2 ^ (w - 1)) by (apply Z.pow_pos_nonneg; lia). assert (D : 2 ^ w = 2 * 2 ^ (w - 1)) by (rewrite <- Z.pow_succ_r by lia; f_equal; lia).
    set (s := signed w x) in *. clearbody s. unfold all_ones, signed. destruct (Z.ltb_spec s 0).
    + destruct (Z.ltb_spec (2 ^ w - 1) (2 ^ (w - 1))); [lia|]. replace (2 ^ w - 1 - 2 ^ w) with (-1) by lia. symmetry. apply Z.div_unique with (s + 2 ^ (w - 1)); lia.
    + destruct (Z.ltb_spec 0 (2 ^ (w - 1))); [|lia]. apply Z.div_small. lia.
Qed.
Lemma sign_testbit w x : 0 < w -> lane w x -> Z.testbit x (w - 1) = (signed w x <? 0).
Proof.
  intros Hw Hx. assert (P : 0 < 2 ^ (w - 1)) by (apply Z.pow_pos_nonneg; lia). assert (D : 2 ^ w = 2 * 2 ^ (w - 1)) by (rewrite <- Z.pow_succ_r by lia; f_equal; lia).
  unfold lane, signed in *. destruct (Z.ltb_spec x (2 ^ (w - 1))) as [H|H].
  - rewrite (tb_high (w - 1)) by lia. destruct (Z.ltb_spec x 0); [lia|reflexivity].
  - replace x with (x - 2 ^ (w - 1) + 2 ^ (w - 1) * 1) by lia. rewrite tb_pair by lia. bcase; try lia. rewrite Z.sub_diag. destruct (Z.ltb_spec (x - 2 ^ (w - 1) + 2 ^ (w - 1) * 1 - 2 ^ w) 0); [reflexivity|lia].
Qed.
Theorem if_negative_ok sse4 w v y n : width w -> lane w v -> lane w y -> lane w n -> if_negative_then_else sse4 w v y n = if signed w v <? 0 then y else n.
Proof.
  intros Hw Hv Hy Hn. pose proof (width_pos w Hw) as Hp. unfold if_negative_then_else. destruct (Z.eqb_spec w 8) as [->|].
  - destruct sse4.
    + unfold if_then_else. cbn [Z.div Z.to_nat]. change (Z.to_nat (8 / 8)) with 1%nat. cbn [blend_bytes]. rewrite Z.mul_0_r, Z.add_0_r. rewrite <- (sign_testbit 8) by assumption.
      change (8 - 1) with 7. destruct (Z.testbit v 7); apply Z.mod_small; assumption.
    + rewrite bcast_sign_ok by assumption. now apply select_ok1.
  - destruct (Z.eqb_spec w 16) as [->|].
    + rewrite bcast_sign_ok by assumption. now apply select_ok1.
    + destruct sse4.
      * unfold blend_lane. now rewrite sign_testbit.
      * rewrite bcast_sign_ok by assumption. now apply select_ok1.
Qed.
Theorem if_neg_then_else_zero_ok sse4 w v y : width w -> lane w v -> lane w y -> if_neg_then_else_zero sse4 w v y = if signed w v <? 0 then y else 0.
Proof.
  intros Hw Hv Hy. pose proof (width_pos w Hw). unfold if_neg_then_else_zero. destruct (_ && _).
  - apply if_negative_ok; try assumption. apply lane_0; lia.
  - rewrite bcast_sign_ok by assumption. destruct (_ <? _); cbn [all_ones]; [apply land_ones_lane; [lia|assumption]|apply Z.land_0_l].
Qed.
Theorem if_neg_then_zero_else_ok sse4 w v n : width w -> lane w v -> lane w n -> if_neg_then_zero_else sse4 w v n = if signed w v <? 0 then 0 else n.
Proof.
  intros Hw Hv Hy. pose proof (width_pos w Hw). unfold if_neg_then_zero_else. destruct (_ && _).
  - apply if_negative_ok; try assumption. apply lane_0; lia.
  - rewrite bcast_sign_ok by assumption. rewrite vnot1_ones. destruct (_ <? _); cbn [negb all_ones]; [apply Z.land_0_l|apply land_ones_lane; [lia|assumption]].
Qed.
Lemma wrap_lane w x : 0 <= w -> lane w (wrap w x).
Proof. intros H. unfold lane, wrap. apply Z.mod_pos_bound. apply Z.pow_pos_nonneg; lia. Qed.
Lemma psub_lane w a b : 0 <= w -> lane w (psub w a b). Proof. apply wrap_lane. Qed.
Theorem if_neg_then_neg_ok ssse3 sse4 w m v : width w -> lane w m -> lane w v -> m <> 0 ->
  if_neg_then_neg ssse3 sse4 w m v = if signed w m <? 0 then wrap w (- v) else v.
Proof.
  intros Hw Hm Hv Hz. pose proof (width_pos w Hw) as Hp. unfold if_neg_then_neg. destruct (_ && _).
  - unfold psign. rewrite swrap_signed by assumption. destruct (signed w m <? 0); [reflexivity|]. destruct (Z.eqb_spec (signed w m) 0) as [E|]; [|reflexivity].
    exfalso. apply Hz. apply (signed_inj w); [assumption|apply lane_0; lia|]. rewrite E. unfold signed. assert (0 < 2 ^ (w - 1)) by (apply Z.pow_pos_nonneg; lia). destruct (Z.ltb_spec 0 (2 ^ (w - 1))); lia.
  - rewrite if_negative_ok by (assumption || apply psub_lane; lia). reflexivity.
Qed.

(** Min, Max *)
Theorem min_u_ok sse4 w a b : width w -> lane w a -> lane w b -> min_u sse4 w a b = Z.min a b.
Proof.
  intros Hw Ha Hb. pose proof (width_pos w Hw) as Hp. unfold min_u. destruct (Z.eqb_spec w 8); [reflexivity|]. destruct (Z.eqb_spec w 16) as [->|].
  - destruct sse4; [reflexivity|]. unfold psub, psubus, wrap. unfold lane in *. rewrite Z.mod_small by lia. lia.
  - destruct (_ && _); [reflexivity|]. unfold min_gt. rewrite (proj2 (msb_eq w Hw)). rewrite gt_flip by assumption. rewrite select_ok1 by assumption. destruct (Z.ltb_spec b a); lia.
Qed.
Theorem max_u_ok sse4 w a b : width w -> lane w a -> lane w b -> max_u sse4 w a b = Z.max a b.
Proof.
  intros Hw Ha Hb. pose proof (width_pos w Hw) as Hp. unfold max_u. destruct (Z.eqb_spec w 8); [reflexivity|]. destruct (Z.eqb_spec w 16) as [->|].
  - destruct sse4; [reflexivity|]. unfold padd, psubus, wrap. unfold lane in *. rewrite Z.mod_small by lia. lia.
  - destruct (_ && _); [reflexivity|]. unfold max_gt. rewrite (proj2 (msb_eq w Hw)). rewrite gt_flip by assumption. rewrite select_ok1 by assumption. destruct (Z.ltb_spec b a); lia.
Qed.
Theorem min_i_ok sse4 w a b : width w -> lane w a -> lane w b -> lane w (min_i sse4 w a b) /\ signed w (min_i sse4 w a b) = Z.min (signed w a) (signed w b).
Proof.
  intros Hw Ha Hb. unfold min_i. destruct (_ || _).
  - unfold pmins. rewrite !swrap_signed by assumption. destruct (Z.ltb_spec (signed w b) (signed w a)); split; try assumption; lia.
  - unfold lt_i. rewrite gt_i_ok, select_ok1 by assumption. destruct (Z.ltb_spec (signed w a) (signed w b)); split; try assumption; lia.
Qed.
Theorem max_i_ok sse4 w a b : width w -> lane w a -> lane w b -> lane w (max_i sse4 w a b) /\ signed w (max_i sse4 w a b) = Z.max (signed w a) (signed w b).
Proof.
  intros Hw Ha Hb. unfold max_i. destruct (_ || _).
  - unfold pmaxs. rewrite !swrap_signed by assumption. destruct (Z.ltb_spec (signed w a) (signed w b)); split; try assumption; lia.
  - unfold lt_i. rewrite gt_i_ok, select_ok1 by assumption. destruct (Z.ltb_spec (signed w a) (signed w b)); split; try assumption; lia.
Qed.

(** Abs: the unsigned pattern of |x| (so the most negative value stays itself) *)
Lemma neg_pattern w x : 0 < w -> lane w x -> signed w x < 0 -> psub w 0 x = Z.abs (signed w x).
Proof.
  intros Hw Hx H. unfold psub, wrap. unfold signed, lane in *. destruct (Z.ltb_spec x (2 ^ (w - 1))); [lia|]. replace (0 - x) with (- x) by lia.
  rewrite Z.abs_neq by lia. symmetry. apply Z.mod_unique with (-1); lia.
Qed.
Lemma nonneg_pattern w x : 0 < w -> lane w x -> 0 <= signed w x -> x = Z.abs (signed w x).
Proof. intros Hw Hx H. unfold signed, lane in *. destruct (Z.ltb_spec x (2 ^ (w - 1))); lia. Qed.
Lemma abs_small w x : 0 < w -> lane w x -> lane w (Z.abs (signed w x)) /\ Z.abs (signed w x) <= 2 ^ (w - 1).
Proof.
  intros Hw Hx. pose proof (signed_range w x Hw Hx). assert (D : 2 ^ w = 2 * 2 ^ (w - 1)) by (rewrite <- Z.pow_succ_r by lia; f_equal; lia). unfold lane. split; lia.
Qed.
Theorem vabs_ok ssse3 sse4 w x : width w -> lane w x -> vabs ssse3 sse4 w x = Z.abs (signed w x).
Proof.
  intros Hw Hx. pose proof (width_pos w Hw) as Hp. pose proof (neg_pattern w x Hp Hx) as N. pose proof (nonneg_pattern w x Hp Hx) as P. pose proof (psub_lane w 0 x ltac:(lia)) as L. unfold vabs.
  destruct (Z.eqb_spec w 64) as [->|].
  - rewrite if_negative_ok by assumption. destruct (Z.ltb_spec (signed 64 x) 0); auto.
  - destruct ssse3.
    { unfold pabs. rewrite swrap_signed by assumption. apply Z.mod_small. now apply abs_small. }
    destruct (Z.eqb_spec w 8) as [->|]; [|destruct (Z.eqb_spec w 16) as [->|]].
    + rewrite min_u_ok by assumption. unfold psub, wrap, signed, lane in *. change (8 - 1) with 7 in *. change (2 ^ 8) with 256 in *. change (2 ^ 7) with 128 in *. clear N P L.
      destruct (Z.eq_dec x 0) as [->|Hz]; [reflexivity|]. replace ((0 - x) mod 256) with (256 - x) by (apply Z.mod_unique with (-1); lia). destruct (Z.ltb_spec x 128); lia.
    + destruct (max_i_ok sse4 16 x (psub 16 0 x) Hw Hx L) as [L2 S2]. destruct (Z_lt_le_dec (signed 16 x) 0) as [H|H].
      * rewrite <- (N H). apply (signed_inj 16); [assumption|assumption|]. rewrite S2, (N H). pose proof (signed_range 16 x Hp Hx) as R. change (2 ^ (16 - 1)) with 32768 in *. set (s := signed 16 x) in *. clearbody s. unfold signed.
        change (2 ^ (16 - 1)) with 32768. change (2 ^ 16) with 65536. destruct (Z.ltb_spec (Z.abs s) 32768); lia.
      * rewrite <- (P H). apply (signed_inj 16); [assumption|assumption|]. rewrite S2. apply Z.max_l.
        pose proof (signed_range 16 x Hp Hx) as R. unfold psub, wrap, signed, lane in *. change (2 ^ (16 - 1)) with 32768 in *. change (2 ^ 16) with 65536 in *. clear N P.
        destruct (Z.eq_dec x 0) as [->|Hz]; [cbn; lia|]. destruct (Z.ltb_spec x 32768); [|lia]. replace ((0 - x) mod 65536) with (65536 - x) by (apply Z.mod_unique with (-1); lia). destruct (Z.ltb_spec (65536 - x) 32768); lia.
    + assert (w = 32) as -> by (destruct Hw as [|[|[|]]]; lia). rewrite bcast_sign_ok by assumption. rewrite select_ok1 by assumption. destruct (Z.ltb_spec (signed 32 x) 0); auto.
Qed.
Theorem sat_abs_ok ssse3 sse4 w x : width w -> lane w x -> sat_abs ssse3 sse4 w x = Z.min (Z.abs (signed w x)) (2 ^ (w - 1) - 1).
Proof.
  intros Hw Hx. pose proof (width_pos w Hw) as Hp. pose proof (signed_range w x Hp Hx) as R. unfold sat_abs.
  assert (SS : (w = 8 \/ w = 16) -> psubs w 0 x = wrap w (Z.min (- signed w x) (2 ^ (w - 1) - 1))).
  { intros _. unfold psubs. rewrite (swrap_signed w x) by assumption. assert (Z0 : swrap w 0 = 0) by (rewrite swrap_signed by (apply lane_0; lia); unfold signed; assert (0 < 2 ^ (w - 1)) by (apply Z.pow_pos_nonneg; lia); destruct (Z.ltb_spec 0 (2 ^ (w - 1))); lia).
    rewrite Z0. f_equal. lia. }
  destruct (Z.eqb_spec w 8) as [->|]; [|destruct (Z.eqb_spec w 16) as [->|]].
  - rewrite (SS ltac:(lia)). rewrite min_u_ok by (try assumption; apply wrap_lane; lia). unfold wrap, signed, lane in *. change (8 - 1) with 7 in *. change (2 ^ 8) with 256 in *. change (2 ^ 7) with 128 in *. clear SS.
    destruct (Z.ltb_spec x 128).
    + destruct (Z.eq_dec x 0) as [->|Hz]; [reflexivity|]. rewrite (Z.min_l (- x)) by lia. replace ((- x) mod 256) with (256 - x) by (apply Z.mod_unique with (-1); lia). lia.
    + rewrite (Z.mod_small (Z.min (- (x - 256)) (128 - 1))) by lia. lia.
  - rewrite (SS ltac:(lia)). clear SS. set (s := wrap 16 (Z.min (- signed 16 x) (2 ^ (16 - 1) - 1))).
    assert (Ls : lane 16 s) by (apply wrap_lane; lia). destruct (max_i_ok sse4 16 x s Hw Hx Ls) as [L2 S2]. change (2 ^ (16 - 1)) with 32768 in *.
    assert (Ss : signed 16 s = Z.min (- signed 16 x) (32768 - 1)).
    { apply signed_wrap; [lia|]. change (2 ^ (16 - 1)) with 32768. lia. }
    rewrite Ss in S2. apply (signed_inj 16); [assumption| |].
    + unfold lane. change (2 ^ 16) with 65536. lia.
    + rewrite S2. set (t := signed 16 x) in *. clearbody t. unfold signed. change (2 ^ (16 - 1)) with 32768. destruct (Z.ltb_spec (Z.min (Z.abs t) (32768 - 1)) 32768); lia.
  - rewrite vabs_ok by assumption. destruct (abs_small w x Hp Hx) as [La Lb]. destruct (Z.eqb_spec w 32) as [->|]; cbn [andb].
    + destruct sse4.
      * rewrite min_u_ok; [reflexivity|assumption|exact La|unfold lane; lia].
      * rewrite bcast_sign_ok by assumption. set (a := Z.abs (signed 32 x)) in *. clearbody a. unfold padd, wrap, all_ones, signed, lane in *. change (2 ^ (32 - 1)) with (2 ^ 31) in *.
        destruct (Z.ltb_spec a (2 ^ 31)).
        -- destruct (Z.ltb_spec a 0); [lia|]. rewrite Z.add_0_r, Z.mod_small by lia. lia.
        -- destruct (Z.ltb_spec (a - 2 ^ 32) 0); [|lia]. replace ((a + (2 ^ 32 - 1)) mod 2 ^ 32) with (a - 1) by (apply Z.mod_unique with 1; lia). lia.
    + assert (w = 64) as -> by (destruct Hw as [|[|[|]]]; lia). rewrite bcast_sign_ok by assumption. set (a := Z.abs (signed 64 x)) in *. clearbody a. unfold padd, wrap, all_ones, signed, lane in *. change (2 ^ (64 - 1)) with (2 ^ 63) in *.
      destruct (Z.ltb_spec a (2 ^ 63)).
      * destruct (Z.ltb_spec a 0); [lia|]. rewrite Z.add_0_r, Z.mod_small by lia. lia.
      * destruct (Z.ltb_spec (a - 2 ^ 64) 0); [|lia]. replace ((a + (2 ^ 64 - 1)) mod 2 ^ 64) with (a - 1) by (apply Z.mod_unique with 1; lia). lia.
Qed.

(** 128-bit pairs *)
Definition val128 (p : lane2) : Z := fst p + 2 ^ 64 * snd p.
Definition lanes64 (p : lane2) : Prop := lane 64 (fst p) /\ lane 64 (snd p).
Lemma w64 : width 64. Proof. right. right. right. reflexivity. Qed.
Lemma ones64 c : lane 64 (all_ones 64 c). Proof. apply all_ones_lane. lia. Qed.
Theorem lt128_ok sse4 a b : lanes64 a -> lanes64 b -> lt128 sse4 a b = (all_ones 64 (val128 a <? val128 b), all_ones 64 (val128 a <? val128 b)).
Proof.
  destruct a as [al ah], b as [bl bh]. intros [A1 A2] [B1 B2]. cbn [fst snd] in *. unfold lt128, map_lanes, dup_upper, lt_u. cbn [fst snd].
  rewrite !veq_ok, !gt_u_ok by (exact w64 || assumption). rewrite !(select_ok1 sse4 64) by (exact w64 || apply ones64 || (apply lane_0; lia)).
  assert (E : (if ah =? bh then all_ones 64 (al <? bl) else all_ones 64 (ah <? bh)) = all_ones 64 (val128 (al, ah) <? val128 (bl, bh))).
  { unfold val128. cbn [fst snd]. unfold lane in *. destruct (Z.eqb_spec ah bh) as [->|]; f_equal.
    - destruct (Z.ltb_spec al bl), (Z.ltb_spec (al + 2 ^ 64 * bh) (bl + 2 ^ 64 * bh)); lia || reflexivity.
    - destruct (Z.ltb_spec ah bh), (Z.ltb_spec (al + 2 ^ 64 * ah) (bl + 2 ^ 64 * bh)); lia || reflexivity. }
  now rewrite E.
Qed.
Lemma val_eq a b : lanes64 a -> lanes64 b -> (val128 a =? val128 b) = (fst a =? fst b) && (snd a =? snd b).
Proof.
  unfold val128, lanes64, lane. intros [A1 A2] [B1 B2]. destruct (Z.eqb_spec (fst a) (fst b)), (Z.eqb_spec (snd a) (snd b)), (Z.eqb_spec (fst a + 2 ^ 64 * snd a) (fst b + 2 ^ 64 * snd b)); cbn [andb]; lia || reflexivity.
Qed.
Theorem eq128_ok sse4 a b : lanes64 a -> lanes64 b -> eq128 sse4 a b = (all_ones 64 (val128 a =? val128 b), all_ones 64 (val128 a =? val128 b)).
Proof.
  intros A B. rewrite val_eq by assumption. destruct A as [A1 A2], B as [B1 B2]. unfold eq128, map_lanes. cbn [fst snd]. rewrite !veq_ok by (exact w64 || assumption). rewrite !land_all_ones by lia.
  now rewrite (andb_comm (snd a =? snd b)).
Qed.
Theorem ne128_ok sse4 a b : lanes64 a -> lanes64 b -> ne128 sse4 a b = (all_ones 64 (negb (val128 a =? val128 b)), all_ones 64 (negb (val128 a =? val128 b))).
Proof.
  intros A B. rewrite val_eq by assumption. destruct A as [A1 A2], B as [B1 B2]. unfold ne128, map_lanes, vne. cbn [fst snd]. rewrite !veq_ok by (exact w64 || assumption). rewrite !vnot1_ones, !lor_all_ones by lia.
  rewrite (orb_comm (negb (snd a =? snd b))). now rewrite negb_andb.
Qed.
Theorem upper_ok sse4 a b : lanes64 a -> lanes64 b ->
  lt128_upper sse4 a b = (all_ones 64 (snd a <? snd b), all_ones 64 (snd a <? snd b)) /\
  eq128_upper sse4 a b = (all_ones 64 (snd a =? snd b), all_ones 64 (snd a =? snd b)) /\
  ne128_upper sse4 a b = (all_ones 64 (negb (snd a =? snd b)), all_ones 64 (negb (snd a =? snd b))).
Proof.
  intros [A1 A2] [B1 B2]. unfold lt128_upper, eq128_upper, ne128_upper, dup_upper, map_lanes, vne, lt_u. cbn [fst snd].
  rewrite gt_u_ok, veq_ok by (exact w64 || assumption). rewrite vnot1_ones. auto.
Qed.
Lemma select2_ok sse4 c y n : lanes64 y -> lanes64 n -> select2 sse4 (all_ones 64 c, all_ones 64 c) y n = if c then y else n.
Proof. intros [Y1 Y2] [N1 N2]. unfold select2. cbn [fst snd]. rewrite !(select_ok1 sse4 64) by (exact w64 || assumption). destruct c; symmetry; apply surjective_pairing. Qed.
Theorem minmax128_ok sse4 a b : lanes64 a -> lanes64 b ->
  min128 sse4 a b = (if val128 a <? val128 b then a else b) /\ max128 sse4 a b = (if val128 b <? val128 a then a else b) /\
  min128_upper sse4 a b = (if snd a <? snd b then a else b) /\ max128_upper sse4 a b = (if snd b <? snd a then a else b).
Proof.
  intros A B. unfold min128, max128, min128_upper, max128_upper. destruct (upper_ok sse4 a b A B) as (U1 & _). destruct (upper_ok sse4 b a B A) as (U2 & _).
  rewrite (lt128_ok sse4 a b A B), (lt128_ok sse4 b a B A), U1, U2. rewrite !select2_ok by assumption. auto.
Qed.
