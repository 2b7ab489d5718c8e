(** Integer conversions on x86: what happens to one lane. *)
From Coq Require Import ZArith List Bool Lia Arith.
From Verif Require Import Word Word_Proofs X86Int_Spec X86Int_Model X86Int_Proofs.
Import ListNotations.
Open Scope Z_scope.
Arguments Z.pow : simpl never.
Arguments Z.mul : simpl never.
Arguments Z.add : simpl never.
Arguments Z.of_nat : simpl never.
Lemma half_pow w : 0 < w -> 2 ^ w = 2 * 2 ^ (w - 1) /\ 0 < 2 ^ (w - 1).
Proof. intros. split; [|apply pow2_gt0; lia]. replace w with (1 + (w - 1)) at 1 by lia. rewrite Z.pow_add_r by lia. reflexivity. Qed.
Lemma bits_pos s : (0 < s)%nat -> 0 < bits s. Proof. unfold bits. lia. Qed.
Lemma sat_closest sg s y : (0 < s)%nat -> sat sg (bits s) y = closest sg s y.
Proof.
  intros Hs. unfold sat, closest, lowest_value, highest_value. fold (bits s). pose proof (half_pow (bits s) (bits_pos s Hs)) as [E P].
  set (p := 2 ^ (bits s - 1)) in *. set (q := 2 ^ bits s) in *. clearbody p q. destruct sg.
  - destruct (Z.ltb_spec y (- p)), (Z.ltb_spec (p - 1) y); lia.
  - destruct (Z.ltb_spec y 0), (Z.ltb_spec (q - 1) y); lia.
Qed.
Lemma closest_fits (sg : bool) s y : (0 < s)%nat -> (if sg then in_s (bits s) (closest sg s y) else in_u (bits s) (closest sg s y) : Prop).
Proof.
  intros Hs. unfold in_s, in_u, closest, lowest_value, highest_value. fold (bits s). pose proof (half_pow (bits s) (bits_pos s Hs)) as [E P].
  set (p := 2 ^ (bits s - 1)) in *. set (q := 2 ^ bits s) in *. clearbody p q. destruct sg; lia.
Qed.
Lemma value_wrap (sg : bool) s y : (0 < s)%nat -> ((if sg then in_s (bits s) y else in_u (bits s) y) : Prop) -> value_of sg s (wrap (bits s) y) = y.
Proof. intros Hs H. pose proof (bits_pos s Hs). unfold value_of. destruct sg; [rewrite swrap_wrap by lia; apply swrap_small; auto | apply wrap_small; auto]. Qed.
Lemma value_sat sg s y : (0 < s)%nat -> value_of sg s (wrap (bits s) (sat sg (bits s) y)) = closest sg s y.
Proof. intros Hs. rewrite sat_closest by auto. apply value_wrap; auto. apply closest_fits; auto. Qed.
(** bit operations with all-ones *)
Lemma lor_ones w x : 0 <= w -> 0 <= x < 2 ^ w -> Z.lor x (2 ^ w - 1) = 2 ^ w - 1.
Proof.
  intros Hw Hx. replace (2 ^ w - 1) with (Z.ones w) by (rewrite Z.ones_equiv; lia). apply Z.bits_inj'. intros k Hk. rewrite Z.lor_spec. destruct (Z_lt_dec k w).
  - rewrite Z.ones_spec_low by lia. apply orb_true_r.
  - rewrite (testbit_small x w) by lia. reflexivity.
Qed.
Lemma land_lnot_ones w x : 0 <= w -> 0 <= x < 2 ^ w -> Z.land (Z.lnot (2 ^ w - 1)) x = 0.
Proof.
  intros Hw Hx. rewrite Z.land_comm. replace (2 ^ w - 1) with (Z.ones w) by (rewrite Z.ones_equiv; lia). rewrite <- Z.ldiff_land. 
  rewrite Z.ldiff_ones_r by auto. rewrite Z.shiftr_div_pow2 by auto. rewrite Z.div_small by auto. apply Z.shiftl_0_l.
Qed.
Lemma lxor_ones w x : 0 <= w -> 0 <= x < 2 ^ w -> Z.lxor (2 ^ w - 1) x = 2 ^ w - 1 - x.
Proof.
  intros Hw Hx. symmetry. rewrite Z.sub_nocarry_ldiff.
  - replace (2 ^ w - 1) with (Z.ones w) by (rewrite Z.ones_equiv; lia). apply Z.bits_inj'. intros k Hk. rewrite Z.ldiff_spec, Z.lxor_spec. destruct (Z_lt_dec k w).
    + rewrite Z.ones_spec_low by lia. destruct (Z.testbit x k); reflexivity.
    + rewrite Z.ones_spec_high by lia. rewrite (testbit_small x w) by lia. reflexivity.
  - rewrite Z.ldiff_land, Z.land_comm. apply land_lnot_ones; auto.
Qed.

(** sign and comparison masks *)
Lemma shr_s_sign w x : 0 < w -> 0 <= x < 2 ^ w -> shr_s w (w - 1) x = if x <? 2 ^ (w - 1) then 0 else 2 ^ w - 1.
Proof.
  intros Hw Hx. unfold shr_s, swrap. pose proof (half_pow w Hw) as [E P]. rewrite Z.mod_small by auto. rewrite Z.shiftr_div_pow2 by lia. destruct (Z.ltb_spec x (2 ^ (w - 1))).
  - rewrite Z.div_small by lia. apply wrap_small. lia.
  - assert (Q : (x - 2 ^ w) / 2 ^ (w - 1) = -1). { symmetry. apply (Z.div_unique _ _ _ (x - 2 ^ (w - 1))); lia. }
    rewrite Q. unfold wrap. symmetry. apply (Z.mod_unique_pos _ _ (-1)); lia.
Qed.
Lemma swrap_val w x : 0 < w -> 0 <= x < 2 ^ w -> swrap w x = if x <? 2 ^ (w - 1) then x else x - 2 ^ w.
Proof. intros Hw Hx. unfold swrap. rewrite Z.mod_small by auto. reflexivity. Qed.
(** u64_saturate and its wrappers; the result fits and, truncated, has the closest value *)
Lemma u64_sat_u s x : In s [1; 2; 4]%nat -> 0 <= x < 2 ^ 64 -> wrap (bits s) (u64_saturate false s x) = Z.min (2 ^ bits s - 1) x /\ 0 <= u64_saturate false s x < 2 ^ 64.
Proof.
  intros Hs Hx. unfold u64_saturate, gt, shr_u. rewrite Z.sub_0_r. assert (B : 0 < bits s < 64) by (cbn in Hs; unfold bits; lia). assert (R : 0 <= Z.shiftr x (bits s) < 2 ^ 63).
  { rewrite Z.shiftr_div_pow2 by lia. split; [apply Z.div_pos; [lia|apply pow2_gt0; lia]|]. assert (2 <= 2 ^ bits s) by (change 2 with (2 ^ 1) at 1; apply Z.pow_le_mono_r; lia). apply Z.div_lt_upper_bound; [lia|]. change (2 ^ 63) with 9223372036854775808. change (2 ^ 64) with 18446744073709551616 in Hx. nia. }
  assert (R2 : in_s 64 (Z.shiftr x (bits s))) by (unfold in_s; change (2 ^ (64 - 1)) with (2 ^ 63); lia). rewrite (swrap_small 64 0) by (try lia; unfold in_s; split; vm_compute; congruence).
  rewrite (swrap_small 64 (Z.shiftr x (bits s))) by (auto; lia). rewrite Z.shiftr_div_pow2 in * by lia. pose proof (pow2_gt0 (bits s) ltac:(lia)) as P. set (q := 2 ^ bits s) in *.
  pose proof (Z.div_mod x q ltac:(lia)) as D. pose proof (Z.mod_pos_bound x q ltac:(lia)) as M. destruct (Z.ltb_spec 0 (x / q)).
  - rewrite lor_ones by lia. split; [|vm_compute; intuition congruence]. assert (q <= x) by nia. rewrite Z.min_l by lia. assert (E : 2 ^ 64 = 2 ^ (64 - bits s) * q) by (unfold q; rewrite <- Z.pow_add_r by lia; f_equal; lia).
    unfold wrap. fold q. symmetry. apply (Z.mod_unique_pos _ _ (2 ^ (64 - bits s) - 1)); lia.
  - rewrite Z.lor_0_r. split; [|lia]. assert (x / q = 0) by (pose proof (Z.div_pos x q ltac:(lia) P); lia). unfold wrap. fold q. rewrite Z.min_r by lia. apply Z.mod_small. lia.
Qed.
Lemma u64_sat_s s x : In s [1; 2; 4]%nat -> 0 <= x < 2 ^ 64 -> u64_saturate true s x = Z.min (2 ^ (bits s - 1) - 1) x.
Proof.
  intros Hs Hx. unfold u64_saturate, gt, shr_u, highest. assert (B : 0 < bits s - 1 < 64) by (cbn in Hs; unfold bits; lia). set (k := bits s - 1) in *. assert (R : 0 <= Z.shiftr x k < 2 ^ 63).
  { rewrite Z.shiftr_div_pow2 by lia. split; [apply Z.div_pos; [lia|apply pow2_gt0; lia]|]. assert (2 <= 2 ^ k) by (change 2 with (2 ^ 1) at 1; apply Z.pow_le_mono_r; lia). apply Z.div_lt_upper_bound; [lia|]. change (2 ^ 63) with 9223372036854775808. change (2 ^ 64) with 18446744073709551616 in Hx. nia. }
  assert (R2 : in_s 64 (Z.shiftr x k)) by (unfold in_s; change (2 ^ (64 - 1)) with (2 ^ 63); lia). rewrite (swrap_small 64 0) by (try lia; unfold in_s; split; vm_compute; congruence).
  rewrite (swrap_small 64 (Z.shiftr x k)) by (auto; lia). rewrite Z.shiftr_div_pow2 in * by lia. pose proof (pow2_gt0 k ltac:(lia)) as P. rewrite land_ones' by lia. set (q := 2 ^ k) in *.
  pose proof (Z.div_mod x q ltac:(lia)) as D. pose proof (Z.mod_pos_bound x q ltac:(lia)) as M. destruct (Z.ltb_spec 0 (x / q)).
  - rewrite lor_ones by lia. assert (q <= x) by nia. rewrite Z.min_l by lia. assert (E : 2 ^ 64 = 2 ^ (64 - k) * q) by (unfold q; rewrite <- Z.pow_add_r by lia; f_equal; lia).
    symmetry. apply (Z.mod_unique_pos _ _ (2 ^ (64 - k) - 1)); lia.
  - rewrite Z.lor_0_r. assert (x / q = 0) by (pose proof (Z.div_pos x q ltac:(lia) P); lia). rewrite Z.min_r by lia. apply Z.mod_small. lia.
Qed.
Lemma wrap_eq_value (sg : bool) s z y : (0 < s)%nat -> (if sg then in_s (bits s) y else in_u (bits s) y) -> wrap (bits s) z = wrap (bits s) y -> value_of sg s (wrap (bits s) z) = y.
Proof. intros Hs H E. rewrite E. apply value_wrap; auto. Qed.
Lemma saturate64_ok sg sg' s x : In s [1; 2; 4]%nat -> 0 <= x < 2 ^ 64 ->
  value_of sg' s (wrap (bits s) (saturate64 sg sg' s x)) = closest sg' s (value_of sg 8 x) /\ 0 <= saturate64 sg sg' s x < 2 ^ 64.
Proof.
  intros Hs Hx. assert (S0 : (0 < s)%nat) by (cbn in Hs; lia). assert (HB : 0 < bits s < 64) by (cbn in Hs; unfold bits; lia). pose proof (half_pow (bits s) ltac:(lia)) as [E P].
  assert (Q : 2 ^ bits s <= 2 ^ 63) by (apply Z.pow_le_mono_r; lia). assert (E64 : 2 ^ 64 = 2 ^ (64 - bits s) * 2 ^ bits s) by (rewrite <- Z.pow_add_r by lia; f_equal; lia).
  pose proof (pow2_gt0 (64 - bits s) ltac:(lia)) as P2. assert (H64 : 2 ^ 64 = 2 * 2 ^ 63) by reflexivity.
  pose proof (closest_fits sg' s (value_of sg 8 x) S0) as F. unfold saturate64. destruct sg, sg'; unfold value_of in F at 1; unfold value_of at 2.
  - unfold i64_saturate_s, sign64. change (bits 8) with 64 in *. rewrite (shr_s_sign 64) by (auto; lia). rewrite (swrap_val 64) in * by (auto; lia). change (64 - 1) with 63 in *.
    destruct (Z.ltb_spec x (2 ^ 63)).
    + rewrite !Z.lxor_0_l, u64_sat_s by auto. split; [|lia]. apply wrap_eq_value; auto. f_equal. unfold closest, lowest_value, highest_value. fold (bits s). lia.
    + rewrite (lxor_ones 64 x) by (auto; lia). rewrite u64_sat_s by (auto; lia). set (m := Z.min _ _) in *. assert (0 <= m < 2 ^ 64) by lia. rewrite (lxor_ones 64 m) by lia. split; [|lia].
      apply wrap_eq_value; auto. assert (C : closest true s (x - 2 ^ 64) = -1 - m) by (unfold closest, lowest_value, highest_value, m; fold (bits s); lia). rewrite C. rewrite E64.
      replace (2 ^ (64 - bits s) * 2 ^ bits s - 1 - m) with (-1 - m + 2 ^ (64 - bits s) * 2 ^ bits s) by lia. apply wrap_add_mult. lia.
  - unfold i64_saturate_u, sign64, andnot. change (bits 8) with 64 in *. rewrite (shr_s_sign 64) by (auto; lia). rewrite (swrap_val 64) in * by (auto; lia). change (64 - 1) with 63 in *.
    destruct (Z.ltb_spec x (2 ^ 63)).
    + change (Z.lnot 0) with (-1). rewrite Z.land_m1_l. destruct (u64_sat_u s x Hs Hx) as [U1 U2]. split; auto. apply wrap_eq_value; auto. rewrite U1. unfold closest, lowest_value, highest_value. fold (bits s). symmetry.
      replace (Z.max 0 (Z.min (2 ^ bits s - 1) x)) with (Z.min (2 ^ bits s - 1) x) by lia. apply wrap_small. lia.
    + rewrite land_lnot_ones by (auto; lia). destruct (u64_sat_u s 0 Hs ltac:(lia)) as [U1 U2]. split; auto. apply wrap_eq_value; auto. rewrite U1. unfold closest, lowest_value, highest_value. fold (bits s). symmetry.
      replace (Z.max 0 (Z.min (2 ^ bits s - 1) (x - 2 ^ 64))) with 0 by lia. rewrite Z.min_r by lia. apply wrap_small. lia.
  - rewrite u64_sat_s by auto. split; [|lia]. apply wrap_eq_value; auto. f_equal. unfold closest, lowest_value, highest_value. fold (bits s). lia.
  - destruct (u64_sat_u s x Hs Hx) as [U1 U2]. split; auto. apply wrap_eq_value; auto. rewrite U1. unfold closest, lowest_value, highest_value. fold (bits s). symmetry.
    replace (Z.max 0 (Z.min (2 ^ bits s - 1) x)) with (Z.min (2 ^ bits s - 1) x) by lia. apply wrap_small. lia.
Qed.
(** signed demotion of unsigned lanes, then Min *)
Lemma u2i_ok s s' x : narrower s s' -> (s < 8)%nat -> 0 <= x < 2 ^ bits s ->
  value_of true s' (wrap (bits s') (Z.min (highest true (bits s')) (wrap (bits s') (closest true s' (swrap (bits s) x))))) = closest true s' x.
Proof.
  intros Hs H8 Hx. assert (S0 : (0 < s' < s)%nat) by (unfold narrower in Hs; cbn in Hs; intuition (match goal with H : (_, _) = _ |- _ => injection H as <- <- end; lia)).
  assert (HB : 0 < bits s' < bits s) by (unfold bits; lia). pose proof (half_pow (bits s') ltac:(lia)) as [E P]. pose proof (half_pow (bits s) ltac:(lia)) as [E2 P2].
  assert (Q : 2 ^ bits s' <= 2 ^ (bits s - 1)) by (apply Z.pow_le_mono_r; lia). rewrite swrap_val by (auto; lia). apply wrap_eq_value; [lia| apply (closest_fits true); lia |]. unfold highest, closest, lowest_value, highest_value. fold (bits s').
  destruct (Z.ltb_spec x (2 ^ (bits s - 1))).
  - rewrite (wrap_small _ (Z.max _ _)) by lia. rewrite wrap_small by lia. lia.
  - apply (f_equal (wrap (bits s'))). set (m := Z.max _ _). assert (W : wrap (bits s') m = m + 2 ^ bits s'). { unfold wrap. symmetry. apply (Z.mod_unique_pos _ _ (-1)); unfold m; lia. } rewrite W. unfold m. lia.
Qed.
(** Min with the highest signed value, whole lanes or byte-wise *)
Lemma min_bytes2 x : 0 <= x < 2 ^ 16 -> (x < 2 ^ 15 -> min_bytes 2 x (2 ^ 15 - 1) = x) /\ (2 ^ 15 <= x -> 2 ^ 15 - 2 ^ 8 <= min_bytes 2 x (2 ^ 15 - 1) < 2 ^ 15).
Proof.
  intros Hx. unfold min_bytes. change (bytes 2 (2 ^ 15 - 1)) with [255; 127]. cbn [bytes combine map fst snd le]. unfold wrap. change (2 ^ 8) with 256. change (2 ^ 16) with 65536 in Hx. change (2 ^ 15) with 32768.
  Z.div_mod_to_equations. lia.
Qed.
Lemma min_bytes4 x : 0 <= x < 2 ^ 32 -> (x < 2 ^ 31 -> min_bytes 4 x (2 ^ 31 - 1) = x) /\ (2 ^ 31 <= x -> 2 ^ 31 - 2 ^ 24 <= min_bytes 4 x (2 ^ 31 - 1) < 2 ^ 31).
Proof.
  intros Hx. unfold min_bytes. change (bytes 4 (2 ^ 31 - 1)) with [255; 255; 255; 127]. cbn [bytes combine map fst snd le]. unfold wrap. change (2 ^ 8) with 256. change (2 ^ 32) with 4294967296 in Hx. change (2 ^ 31) with 2147483648. change (2 ^ 24) with 16777216.
  pose proof (Z.mod_pos_bound x 256). pose proof (Z.mod_pos_bound (x / 256) 256). pose proof (Z.mod_pos_bound (x / 256 / 256) 256). pose proof (Z.mod_pos_bound (x / 256 / 256 / 256) 256).
  rewrite (Z.min_l (x mod 256)), (Z.min_l (x / 256 mod 256)), (Z.min_l (x / 256 / 256 mod 256)) by lia. Z.div_mod_to_equations. lia.
Qed.
Definition clamp_lane (t : target) (s : nat) (x : Z) : Z := match t with SSE4 => Z.min x (2 ^ (bits s - 1) - 1) | _ => min_bytes s x (2 ^ (bits s - 1) - 1) end.
Lemma clamp_lane_ok t s s' x : narrower s s' -> (s < 8)%nat -> 0 <= x < 2 ^ bits s ->
  0 <= clamp_lane t s x < 2 ^ (bits s - 1) /\ closest false s' (clamp_lane t s x) = closest false s' x.
Proof.
  intros Hs H8 Hx. unfold clamp_lane, closest, lowest_value, highest_value. fold (bits s'). cbn in Hs. repeat destruct Hs as [Hs|Hs]; try contradiction; injection Hs as <- <-; try lia;
    change (bits 4) with 32 in *; change (bits 2) with 16 in *; change (bits 1) with 8 in *; change (32 - 1) with 31 in *; change (16 - 1) with 15 in *;
    change (2 ^ 8) with 256 in *; pose proof (min_bytes2 x) as B2; pose proof (min_bytes4 x) as B4; change (2 ^ 16) with 65536 in *; change (2 ^ 15) with 32768 in *; change (2 ^ 31) with 2147483648 in *; change (2 ^ 24) with 16777216 in *; change (2 ^ 8) with 256 in *; change (2 ^ 32) with 4294967296 in *; destruct t; lia.
Qed.
(** i32 / u32 to u16 before SSE4.1 *)
Lemma clamp_i32_u16_ok x : 0 <= x < 2 ^ 32 -> wrap 16 (clamp_i32_u16 x) = closest false 2 (swrap 32 x) /\ 0 <= clamp_i32_u16 x < 2 ^ 32.
Proof.
  intros Hx. unfold clamp_i32_u16, gt, andnot. rewrite (shr_s_sign 32) by (auto; lia). rewrite (swrap_val 32 x) by (auto; lia). change (swrap 32 65535) with 65535. unfold closest, lowest_value, highest_value. fold (bits 2). change (bits 2) with 16. change (32 - 1) with 31.
  change (2 ^ 16) with 65536. destruct (Z.ltb_spec x (2 ^ 31)).
  - change (Z.lnot 0) with (-1). rewrite Z.land_m1_l. destruct (Z.ltb_spec 65535 x).
    + rewrite lor_ones by lia. split; [|vm_compute; intuition congruence]. change (wrap 16 (2 ^ 32 - 1)) with 65535. lia.
    + rewrite Z.lor_0_r. split; [|lia]. rewrite wrap_small by (change (2 ^ 16) with 65536; lia). lia.
  - rewrite land_lnot_ones by lia. destruct (Z.ltb_spec 65535 (x - 2 ^ 32)); [exfalso; lia|]. change (Z.lor 0 0) with 0. change (wrap 16 0) with 0. split; lia.
Qed.
Lemma clamp_u32_u16_ok x : 0 <= x < 2 ^ 32 -> wrap 16 (clamp_u32_u16 x) = closest false 2 x /\ 0 <= clamp_u32_u16 x < 2 ^ 32.
Proof.
  intros Hx. unfold clamp_u32_u16, gt, shr_u. rewrite Z.shiftr_div_pow2 by lia. change (2 ^ 16) with 65536. assert (R : 0 <= x / 65536 < 65536) by (change (2 ^ 32) with 4294967296 in Hx; Z.div_mod_to_equations; lia).
  rewrite (swrap_small 32 (x / 65536)) by (try lia; unfold in_s; change (2 ^ (32 - 1)) with 2147483648; lia). change (swrap 32 0) with 0. unfold closest, lowest_value, highest_value. fold (bits 2). change (bits 2) with 16. change (2 ^ 16) with 65536.
  destruct (Z.ltb_spec 0 (x / 65536)).
  - rewrite lor_ones by lia. split; [|vm_compute; intuition congruence]. change (wrap 16 (2 ^ 32 - 1)) with 65535. Z.div_mod_to_equations; lia.
  - rewrite Z.lor_0_r. split; [|lia]. rewrite wrap_small by (change (2 ^ 16) with 65536; Z.div_mod_to_equations; lia). Z.div_mod_to_equations; lia.
Qed.
(** shift left then right, then pack: the low half *)
Lemma shl_shr_s w k x : 0 < k < w -> 0 <= x -> shr_s w k (shl w k x) = wrap w (swrap (w - k) x).
Proof.
  intros Hk Hx. unfold shr_s, shl. rewrite swrap_wrap by lia. f_equal. rewrite Z.shiftl_mul_pow2 by lia. rewrite Z.shiftr_div_pow2 by lia.
  assert (E : swrap w (x * 2 ^ k) = swrap (w - k) x * 2 ^ k); [|rewrite E; apply Z.div_mul; pose proof (pow2_gt0 k); lia].
  pose proof (half_pow w ltac:(lia)) as [E1 P1]. pose proof (half_pow (w - k) ltac:(lia)) as [E2 P2]. pose proof (pow2_gt0 k ltac:(lia)) as P3.
  assert (E3 : 2 ^ w = 2 ^ (w - k) * 2 ^ k) by (rewrite <- Z.pow_add_r by lia; f_equal; lia). assert (E4 : 2 ^ (w - 1) = 2 ^ (w - k - 1) * 2 ^ k) by (rewrite <- Z.pow_add_r by lia; f_equal; lia).
  apply swrap_unique; [lia| |].
  - pose proof (swrap_range (w - k) x ltac:(lia)) as R. unfold in_s in *. rewrite E4. nia.
  - rewrite E3. rewrite !Z.mul_mod_distr_r by lia. rewrite swrap_mod by lia. reflexivity.
Qed.
Lemma low_half_packs s' x : (0 < s')%nat -> 0 <= x < 2 ^ bits (2 * s') ->
  wrap (bits s') (sat true (bits s') (swrap (bits (2 * s')) (wrap (bits (2 * s')) (shr_s (bits (2 * s')) (bits s') (shl (bits (2 * s')) (bits s') x))))) = wrap (bits s') x.
Proof.
  intros Hs Hx. assert (B : bits (2 * s') = 2 * bits s') by (unfold bits; lia). pose proof (bits_pos s' Hs). rewrite shl_shr_s by lia. rewrite B. replace (2 * bits s' - bits s') with (bits s') by lia.
  rewrite wrap_wrap, swrap_wrap by lia. pose proof (swrap_range (bits s') x ltac:(lia)) as R. assert (M : 2 ^ (bits s' - 1) <= 2 ^ (2 * bits s' - 1)) by (apply Z.pow_le_mono_r; lia). rewrite (swrap_small (2 * bits s')) by (unfold in_s in *; lia).
  unfold sat. unfold in_s in R. destruct (Z.ltb_spec (swrap (bits s') x) (- 2 ^ (bits s' - 1))); [lia|]. destruct (Z.ltb_spec (2 ^ (bits s' - 1) - 1) (swrap (bits s') x)); [lia|].
  unfold wrap. apply swrap_mod. lia.
Qed.
