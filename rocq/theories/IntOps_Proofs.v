From Coq Require Import ZArith List Bool Lia.
From Verif Require Import Word Word_Proofs Ops_Model IntOps_Model.
Import ListNotations.
Local Open Scope Z_scope.

Definition in_r (sg : bool) (w x : Z) : Prop := lowest sg w <= x <= highest sg w.
Definition clamp (lo hi x : Z) : Z := Z.min (Z.max lo x) hi.
Lemma fit_id sg w x : 0 < w -> in_r sg w x -> fit sg w x = x.
Proof. unfold in_r, fit, lowest, highest. intros Hw H. destruct sg; [apply swrap_small; [lia|unfold in_s; lia]|apply wrap_small; lia]. Qed.
Lemma fit_r sg w x : 0 < w -> in_r sg w (fit sg w x).
Proof. unfold in_r, fit, lowest, highest. intros Hw. destruct sg; [pose proof (swrap_range w x Hw); unfold in_s in *; lia|pose proof (wrap_range w x ltac:(lia)); lia]. Qed.
Lemma pow_half w : 0 < w -> 2 ^ w = 2 * 2 ^ (w - 1).
Proof. intros. rewrite <- Z.pow_succ_r by lia. f_equal. lia. Qed.
Lemma pow_ge1 w : 0 <= w -> 1 <= 2 ^ w. Proof. intros. pose proof (pow2_gt0 w H). lia. Qed.
(** one overflow in either direction *)
Lemma swrap_cases w x : 0 < w -> - 2 ^ w <= x < 2 ^ w -> swrap w x = if x <? - 2 ^ (w - 1) then x + 2 ^ w else if x <? 2 ^ (w - 1) then x else x - 2 ^ w.
Proof.
  intros Hw H. pose proof (pow_half w Hw). pose proof (pow_ge1 (w - 1) ltac:(lia)). unfold swrap. cbv zeta.
  destruct (Z.ltb_spec x (- 2 ^ (w - 1))); [|destruct (Z.ltb_spec x (2 ^ (w - 1)))].
  - replace (x mod 2 ^ w) with (x + 2 ^ w) by (apply (Z.mod_unique_pos _ _ (-1)); lia). destruct (Z.ltb_spec (x + 2 ^ w) (2 ^ (w - 1))); lia.
  - destruct (Z_lt_ge_dec x 0).
    + replace (x mod 2 ^ w) with (x + 2 ^ w) by (apply (Z.mod_unique_pos _ _ (-1)); lia). destruct (Z.ltb_spec (x + 2 ^ w) (2 ^ (w - 1))); lia.
    + rewrite Z.mod_small by lia. destruct (Z.ltb_spec x (2 ^ (w - 1))); lia.
  - rewrite Z.mod_small by lia. destruct (Z.ltb_spec x (2 ^ (w - 1))); lia.
Qed.
Lemma shr_sign w a : 0 < w -> in_r true w a -> Z.shiftr a (w - 1) = if a <? 0 then -1 else 0.
Proof.
  intros Hw H. unfold in_r, lowest, highest in H. rewrite shiftr_div by lia. pose proof (pow_ge1 (w - 1) ltac:(lia)). destruct (Z.ltb_spec a 0).
  - symmetry. apply (Z.div_unique_pos _ _ _ (a + 2 ^ (w - 1))); lia.
  - apply Z.div_small. lia.
Qed.
Lemma sign_lxor a b : (Z.lxor a b <? 0) = xorb (a <? 0) (b <? 0).
Proof.
  destruct (Z.ltb_spec a 0), (Z.ltb_spec b 0); cbn [xorb]; [apply Z.ltb_ge|apply Z.ltb_lt|apply Z.ltb_lt|apply Z.ltb_ge]; [apply Z.lxor_nonneg; lia| | |apply Z.lxor_nonneg; lia].
  - destruct (Z_lt_ge_dec (Z.lxor a b) 0); [lia|]. assert (0 <= Z.lxor a b) by lia. apply Z.lxor_nonneg in H1. lia.
  - destruct (Z_lt_ge_dec (Z.lxor a b) 0); [lia|]. assert (0 <= Z.lxor a b) by lia. apply Z.lxor_nonneg in H1. lia.
Qed.
Lemma sign_land a b : (Z.land a b <? 0) = (a <? 0) && (b <? 0).
Proof.
  destruct (Z.ltb_spec (Z.land a b) 0) as [H|H].
  - apply Z.land_neg in H. destruct (Z.ltb_spec a 0), (Z.ltb_spec b 0); try lia; reflexivity.
  - apply Z.land_nonneg in H. destruct (Z.ltb_spec a 0), (Z.ltb_spec b 0); try lia; reflexivity.
Qed.
Lemma sign_lnot a : (Z.lnot a <? 0) = negb (a <? 0).
Proof. unfold Z.lnot. destruct (Z.ltb_spec (Z.pred (- a)) 0), (Z.ltb_spec a 0); try lia; reflexivity. Qed.
Lemma sat_add_s_ok w a b : 0 < w -> in_r true w a -> in_r true w b -> sat_add_s w a b = clamp (lowest true w) (highest true w) (a + b).
Proof.
  intros Hw Ha Hb. unfold sat_add_s, if_negative, andnot_, add_, fit, broadcast_sign, shr_, clamp. rewrite sign_land, sign_lnot, !sign_lxor. rewrite shr_sign by assumption.
  unfold in_r, lowest, highest in *. pose proof (pow_half w Hw). rewrite (swrap_cases w (a + b)) by lia.
  destruct (Z.ltb_spec (a + b) (- 2 ^ (w - 1))); [|destruct (Z.ltb_spec (a + b) (2 ^ (w - 1)))]; cbv beta iota;
    match goal with |- context [Z.lxor a ?s] => idtac | |- _ => idtac end;
    repeat match goal with |- context [?x <? 0] => destruct (Z.ltb_spec x 0) end; cbn [xorb negb andb]; rewrite ?Z.lxor_0_l, ?Z.lxor_m1_l; unfold Z.lnot; lia.
Qed.
Lemma sat_sub_s_ok w a b : 0 < w -> in_r true w a -> in_r true w b -> sat_sub_s w a b = clamp (lowest true w) (highest true w) (a - b).
Proof.
  intros Hw Ha Hb. unfold sat_sub_s, if_negative, sub_, fit, broadcast_sign, shr_, clamp. rewrite sign_land, !sign_lxor. rewrite shr_sign by assumption.
  unfold in_r, lowest, highest in *. pose proof (pow_half w Hw). rewrite (swrap_cases w (a - b)) by lia.
  destruct (Z.ltb_spec (a - b) (- 2 ^ (w - 1))); [|destruct (Z.ltb_spec (a - b) (2 ^ (w - 1)))]; cbv beta iota;
    repeat match goal with |- context [?x <? 0] => destruct (Z.ltb_spec x 0) end; cbn [xorb negb andb]; rewrite ?Z.lxor_0_l, ?Z.lxor_m1_l; unfold Z.lnot; lia.
Qed.
Lemma sat_add_ok sg w a b : 1 < w -> in_r sg w a -> in_r sg w b -> sat_add sg w a b = clamp (lowest sg w) (highest sg w) (a + b).
Proof.
  intros Hw1 Ha Hb. assert (Hw : 0 < w) by lia. unfold sat_add. destruct (Z.leb_spec w 16).
  - unfold sat_add_wide, clamp. f_equal. f_equal. apply swrap_small; [lia|]. unfold in_s, in_r, lowest, highest in *. pose proof (pow_half w Hw). assert (2 ^ w <= 2 ^ (2 * w - 1)) by (apply Z.pow_le_mono_r; lia). pose proof (pow_half (2 * w) ltac:(lia)).
    assert (P : 2 ^ (w + 1) <= 2 ^ (2 * w - 1)) by (apply Z.pow_le_mono_r; lia). rewrite Z.pow_add_r in P by lia. destruct sg; lia.
  - destruct sg; [apply sat_add_s_ok; assumption|]. unfold sat_add_u, add_, not_, clamp, in_r, lowest, highest in *. cbn [fit]. unfold fit. rewrite wrap_small by lia. lia.
Qed.
Lemma sat_sub_ok sg w a b : 0 < w -> in_r sg w a -> in_r sg w b -> sat_sub sg w a b = clamp (lowest sg w) (highest sg w) (a - b).
Proof.
  intros Hw Ha Hb. unfold sat_sub. destruct (Z.leb_spec w 16).
  - unfold sat_sub_wide, clamp. f_equal. f_equal. apply swrap_small; [lia|]. unfold in_s, in_r, lowest, highest in *. pose proof (pow_half w Hw). assert (2 ^ w <= 2 ^ (2 * w - 1)) by (apply Z.pow_le_mono_r; lia). destruct sg; lia.
  - destruct sg; [apply sat_sub_s_ok; assumption|]. unfold sat_sub_u, sub_, clamp, in_r, lowest, highest in *. unfold fit. rewrite wrap_small by lia. lia.
Qed.
Lemma sat_neg_ok w v : w = 8 \/ w = 16 \/ w = 32 \/ w = 64 -> in_r true w v -> sat_neg w v = if v =? lowest true w then highest true w else - v.
Proof.
  intros Hw Hv. unfold sat_neg. destruct (Z.leb_spec w 16); [|destruct (Z.eqb_spec w 32)].
  - rewrite sat_sub_ok; [|lia|unfold in_r, lowest, highest; destruct Hw as [->|[->|[->| ->]]]; cbn; lia|assumption]. unfold clamp, in_r, lowest, highest in *. destruct (Z.eqb_spec v (- 2 ^ (w - 1))); lia.
  - unfold sub_, not_, vec_from_mask. assert (0 < w) by lia. unfold in_r, fit, lowest, highest in *. pose proof (pow_half w ltac:(lia)). unfold Z.lnot.
    destruct (Z.eqb_spec v (- 2 ^ (w - 1))), (Z.ltb_spec (- 2 ^ (w - 1)) v); try lia; rewrite swrap_small by (unfold in_s; lia); lia.
  - unfold neg_, sub_, add_, broadcast_sign, shr_, fit. assert (H0 : 0 < w) by lia. pose proof (pow_half w ltac:(lia)). pose proof (pow_ge1 (w - 1) ltac:(lia)).
    assert (R : in_r true w (Z.land v (swrap w (0 - v)))).
    { pose proof (swrap_range w (0 - v) H0) as S. unfold in_s, in_r, lowest, highest in *. set (u := swrap w (0 - v)) in *.
      assert (G : forall a b, - 2 ^ (w - 1) <= a < 2 ^ (w - 1) -> - 2 ^ (w - 1) <= b < 2 ^ (w - 1) -> - 2 ^ (w - 1) <= Z.land a b < 2 ^ (w - 1)).
      { intros a b Ha Hb. assert (E : Z.shiftr (Z.land a b) (w - 1) = Z.land (Z.shiftr a (w - 1)) (Z.shiftr b (w - 1))) by apply Z.shiftr_land.
        rewrite (shr_sign w a), (shr_sign w b) in E by (unfold in_r, lowest, highest; lia). rewrite shiftr_div in E by lia.
        assert (D : Z.land a b / 2 ^ (w - 1) = 0 \/ Z.land a b / 2 ^ (w - 1) = -1) by (rewrite E; destruct (a <? 0), (b <? 0); cbn; auto).
        pose proof (Z.div_mod (Z.land a b) (2 ^ (w - 1)) ltac:(lia)). pose proof (Z.mod_pos_bound (Z.land a b) (2 ^ (w - 1)) ltac:(lia)). destruct D as [D|D]; rewrite D in *; lia. }
      specialize (G v u). lia. }
    rewrite shr_sign by assumption. rewrite sign_land. unfold in_r, lowest, highest in *.
    rewrite (swrap_cases w (0 - v)) by lia.
    destruct (Z.ltb_spec (0 - v) (- 2 ^ (w - 1))); [lia|]. destruct (Z.ltb_spec (0 - v) (2 ^ (w - 1))), (Z.eqb_spec v (- 2 ^ (w - 1))); try lia; cbv beta iota.
    + destruct (Z.ltb_spec v 0), (Z.ltb_spec (0 - v) 0); try lia; cbn [andb]; rewrite swrap_small by (unfold in_s; lia); lia.
    + destruct (Z.ltb_spec v 0), (Z.ltb_spec (0 - v - 2 ^ w) 0); try lia; cbn [andb]. rewrite swrap_cases by lia.
      destruct (Z.ltb_spec (0 - v - 2 ^ w + -1) (- 2 ^ (w - 1))); [lia|]. destruct (Z.ltb_spec (0 - v - 2 ^ w + -1) (2 ^ (w - 1))); lia.
Qed.
(** a + b = 2 (a | b) - (a ^ b) *)
Lemma add_lor_lxor a b : a + b = 2 * Z.lor a b - Z.lxor a b.
Proof.
  assert (E1 : Z.lor a b = Z.lxor a b + Z.land a b).
  { rewrite Z.add_nocarry_lxor.
    - apply Z.bits_inj'. intros n Hn. rewrite Z.lor_spec, !Z.lxor_spec, Z.land_spec. destruct (Z.testbit a n), (Z.testbit b n); reflexivity.
    - apply Z.bits_inj'. intros n Hn. rewrite !Z.land_spec, Z.lxor_spec, Z.bits_0. destruct (Z.testbit a n), (Z.testbit b n); reflexivity. }
  assert (E2 : a = Z.ldiff a b + Z.land a b).
  { rewrite Z.add_nocarry_lxor.
    - apply Z.bits_inj'. intros n Hn. rewrite !Z.lxor_spec, Z.ldiff_spec, Z.land_spec. destruct (Z.testbit a n), (Z.testbit b n); reflexivity.
    - apply Z.bits_inj'. intros n Hn. rewrite !Z.land_spec, Z.ldiff_spec, Z.bits_0. destruct (Z.testbit a n), (Z.testbit b n); reflexivity. }
  assert (E3 : Z.lor a b = Z.ldiff a b + b).
  { rewrite Z.add_nocarry_lxor.
    - apply Z.bits_inj'. intros n Hn. rewrite Z.lor_spec, !Z.lxor_spec, Z.ldiff_spec. destruct (Z.testbit a n), (Z.testbit b n); reflexivity.
    - apply Z.bits_inj'. intros n Hn. rewrite !Z.land_spec, Z.ldiff_spec, Z.bits_0. destruct (Z.testbit a n), (Z.testbit b n); reflexivity. }
  lia.
Qed.
Lemma avg_exact a b : Z.lor a b - Z.shiftr (Z.lxor a b) 1 = (a + b + 1) / 2.
Proof.
  rewrite shiftr_div by lia. change (2 ^ 1) with 2. pose proof (add_lor_lxor a b). pose proof (Z.div_mod (Z.lxor a b) 2 ltac:(lia)). pose proof (Z.mod_pos_bound (Z.lxor a b) 2 ltac:(lia)).
  apply (Z.div_unique_pos _ _ _ (1 - Z.lxor a b mod 2)); lia.
Qed.
Lemma average_round_ok sg w a b : 0 < w -> in_r sg w a -> in_r sg w b -> average_round sg w a b = (a + b + 1) / 2.
Proof.
  intros Hw Ha Hb. unfold average_round, sub_, shr_. rewrite avg_exact. apply fit_id; [assumption|]. unfold in_r in *. split.
  - apply Z.div_le_lower_bound; lia.
  - apply Z.lt_succ_r. apply Z.div_lt_upper_bound; lia.
Qed.
Lemma shr_in_r sg w v k : 0 < w -> 0 <= k -> in_r sg w v -> in_r sg w (Z.shiftr v k).
Proof.
  intros Hw Hk Hv. unfold in_r in *. rewrite shiftr_div by lia. pose proof (pow_ge1 k Hk). pose proof (pow_ge1 (w - 1) ltac:(lia)). pose proof (pow_half w Hw).
  assert (L : lowest sg w <= 0 <= highest sg w) by (unfold lowest, highest; destruct sg; lia).
  pose proof (Z.div_mod v (2 ^ k) ltac:(lia)). pose proof (Z.mod_pos_bound v (2 ^ k) ltac:(lia)). split; nia.
Qed.
(** round half up *)
Lemma round_shift v k : 0 < k -> (Z.shiftr v (k - 1) + 0 + 1) / 2 = (v + 2 ^ (k - 1)) / 2 ^ k.
Proof.
  intros Hk. rewrite shiftr_div by lia. rewrite Z.add_0_r. pose proof (pow_ge1 (k - 1) ltac:(lia)). rewrite (pow_half k) by lia. rewrite Z.mul_comm. rewrite <- Z.div_div by lia. f_equal.
  replace (v + 2 ^ (k - 1)) with (v + 1 * 2 ^ (k - 1)) by lia. rewrite Z.div_add by lia. reflexivity.
Qed.
Definition rounded (v k : Z) : Z := if k =? 0 then v else (v + 2 ^ (k - 1)) / 2 ^ k.
Lemma zero_r sg w : 0 < w -> in_r sg w 0.
Proof. intros. unfold in_r, lowest, highest. pose proof (pow_ge1 (w - 1) ltac:(lia)). pose proof (pow_half w H). destruct sg; lia. Qed.
Lemma rsr_ok sg w k v : 0 < w -> in_r sg w v -> 0 <= k < w -> rounding_shift_right sg w k v = rounded v k.
Proof.
  intros Hw Hv Hk. unfold rounding_shift_right, rounded, shr_. cbv zeta. destruct (Z.eqb_spec k 0) as [->|]; [reflexivity|].
  replace (Z.max (k - 1) 0) with (k - 1) by lia. assert (E : (if 0 <? k - 1 then Z.shiftr v (k - 1) else v) = Z.shiftr v (k - 1)). { destruct (Z.ltb_spec 0 (k - 1)); [reflexivity|]. replace (k - 1) with 0 by lia. reflexivity. }
  rewrite E, average_round_ok; [apply round_shift; lia|assumption|apply shr_in_r; [assumption|lia|assumption]|apply zero_r; assumption].
Qed.
Lemma avg_self v : (v + v + 1) / 2 = v.
Proof. symmetry. apply (Z.div_unique_pos _ _ _ 1); lia. Qed.
Lemma rsrs_ok sg w k v : 0 < w <= 64 -> in_r sg w v -> 0 <= k < w -> rounding_shift_right_same sg w v k = rounded v k.
Proof.
  intros Hw Hv Hk. unfold rounding_shift_right_same, rounded, shr_. cbv zeta. destruct (Z.eqb_spec k 0) as [->|].
  - change (swrap 32 (wrap 32 (wrap 32 0 + wrap 32 (Z.lnot (- (1)))))) with 0. rewrite Z.shiftr_0_r.
    assert (E : Z.land v (fit sg w (- (1))) = v).
    { destruct sg; cbn [fit].
      - change (- (1)) with (-1). rewrite swrap_small by (try lia; unfold in_s; pose proof (pow_ge1 (w - 1) ltac:(lia)); lia). apply Z.land_m1_r.
      - unfold wrap. replace ((- (1)) mod 2 ^ w) with (2 ^ w - 1) by (apply (Z.mod_unique_pos _ _ (-1)); pose proof (pow_ge1 w ltac:(lia)); lia). rewrite land_ones' by lia. apply Z.mod_small. unfold in_r, lowest, highest in Hv. lia. }
    rewrite E, average_round_ok by (try assumption; lia). apply avg_self.
  - change (Z.lnot (- (0))) with (-1). replace (swrap 32 (wrap 32 (wrap 32 k + wrap 32 (-1)))) with (k - 1).
    2:{ rewrite wrap_add_l, wrap_add_r. rewrite swrap_wrap by lia. rewrite swrap_small; [lia|lia|]. unfold in_s. change (2 ^ (32 - 1)) with 2147483648. lia. }
    replace (fit sg w (- (0))) with 0 by (symmetry; apply fit_id; [lia|apply zero_r; lia]). rewrite Z.land_0_r. rewrite average_round_ok; [apply round_shift; lia|lia|apply shr_in_r; [lia|lia|assumption]|apply zero_r; lia].
Qed.
Lemma rshr_ok sg w k v : w = 8 \/ w = 16 \/ w = 32 \/ w = 64 -> in_r sg w v -> 0 <= k < w -> rounding_shr sg w v k = rounded v k.
Proof.
  intros Hw Hv Hk. assert (W : 0 < w) by lia. assert (P : w <= 2 ^ (w - 1) - 1) by (destruct Hw as [->|[->|[->| ->]]]; cbn; lia). pose proof (pow_half w W).
  unfold rounding_shr, rounded, shr_. cbv zeta. rewrite (wrap_small w k) by lia. rewrite sat_sub_ok by (try assumption; unfold in_r, lowest, highest; lia).
  replace (clamp (lowest false w) (highest false w) (k - 1)) with (Z.max 0 (k - 1)) by (unfold clamp, lowest, highest; lia). rewrite fit_id by (try assumption; unfold in_r, lowest, highest; destruct sg; lia).
  destruct (Z.eqb_spec k 0) as [->|].
  - change (Z.max 0 (0 - 1)) with 0. rewrite Z.shiftr_0_r, average_round_ok by assumption. apply avg_self.
  - replace (Z.max 0 (k - 1)) with (k - 1) by lia. rewrite average_round_ok; [apply round_shift; lia|assumption|apply shr_in_r; [assumption|lia|assumption]|apply zero_r; assumption].
Qed.
