(** Multiplication on x86: 64-bit MulEven / MulOdd, MulHigh, MulFixedPoint15, WidenMulPairwiseAdd, AverageRound. *)
From Coq Require Import ZArith List Bool Lia Arith.
From Verif Require Import Word Word_Proofs Float_Conv X86Int_Spec X86Int_Model X86Int_Proofs X86Int_Lane X86Int_Sel X86Int_Main X86Int_Two X86Mul_Model Properties_X86Int X86Mul_Move X86Mul_Proofs X86Mul_More.
Import ListNotations.
Open Scope Z_scope.
Arguments Z.pow : simpl never.
Arguments Z.mul : simpl never.
Arguments Z.add : simpl never.
Arguments Z.of_nat : simpl never.
Lemma land_sign64 x y : 0 <= x < 2 ^ 64 -> 0 <= y < 2 ^ 64 -> Z.land (wrap 64 (sign64 x)) y = if x <? 2 ^ 63 then 0 else y.
Proof.
  intros Hx Hy. unfold sign64. pose proof (shr_s_sign 64 x ltac:(lia) Hx) as E. change (64 - 1) with 63 in E. rewrite E. destruct (x <? 2 ^ 63); [reflexivity|]. rewrite wrap_small by lia. rewrite Z.land_comm, land_ones' by lia. apply Z.mod_small; auto.
Qed.
Lemma mul128_ok sg a b j : register 16 a -> register 16 b -> (j < 2)%nat ->
  let (l, h) := mul128 sg a b in register 16 l /\ register 16 h /\ ln 8 j l = wrap 64 (prod sg 8 j a b) /\ ln 8 j h = wrap 64 (prod sg 8 j a b / 2 ^ 64).
Proof.
  intros Ra Rb Hj. unfold mul128. pose proof (mul128_u_ok a b j Ra Rb Hj) as U. destruct (mul128_u a b) as [l h]. destruct U as (Rl & Rh & E). pose proof (ln_range 8 j l (proj2 Rl)) as L1. pose proof (ln_range 8 j h (proj2 Rh)) as H1.
  pose proof (ln_range 8 j a (proj2 Ra)) as A. pose proof (ln_range 8 j b (proj2 Rb)) as B. change (bits 8) with 64 in *. set (u := ln 8 j a) in *. set (v := ln 8 j b) in *. set (lo := ln 8 j l) in *. set (hi := ln 8 j h) in *.
  assert (P : 0 < 2 ^ 64) by lia. destruct sg.
  - split; [auto|]. split; [rr|]. unfold prod. rewrite !val_s by (auto; sz). fold u v. change (bits 8) with 64. change (64 - 1) with 63.
    set (nu := if u <? 2 ^ 63 then 0 else 1). set (nv := if v <? 2 ^ 63 then 0 else 1).
    assert (EU : (if u <? 2 ^ 63 then u else u - 2 ^ 64) = u - 2 ^ 64 * nu) by (unfold nu; destruct (u <? 2 ^ 63); lia). assert (EV : (if v <? 2 ^ 63 then v else v - 2 ^ 64) = v - 2 ^ 64 * nv) by (unfold nv; destruct (v <? 2 ^ 63); lia). rewrite EU, EV.
    assert (EP : (u - 2 ^ 64 * nu) * (v - 2 ^ 64 * nv) = lo + (hi - nu * v - u * nv + 2 ^ 64 * (nu * nv)) * 2 ^ 64) by (transitivity (u * v + (- nu * v - u * nv + 2 ^ 64 * (nu * nv)) * 2 ^ 64); [ring|]; rewrite <- E; ring). rewrite EP. split.
    + rewrite wrap_add_mult by lia. symmetry. apply wrap_small. auto.
    + rewrite Z.div_add by lia. rewrite Z.div_small by auto. unfold sub. rewrite !ln_map2 by (try rr; try sz; cbn; lia). rewrite !ln_map1' by (try rr; try sz; cbn; lia). fold u v hi. change (bits 8) with 64. rewrite (Z.land_comm u), !land_sign64 by auto.
      rewrite !wrap_sub_l, !wrap_sub_r. rewrite <- (wrap_sub_l 64 (hi - _)), wrap_sub_r, wrap_sub_l. apply (wrap_cong 64 _ _ (- (nu * nv))); [lia|]. unfold nu, nv. destruct (u <? 2 ^ 63), (v <? 2 ^ 63); ring.
  - split; [auto|]. split; [auto|]. unfold prod, val, value_of. fold u v. rewrite <- E. rewrite (Z.mul_comm (2 ^ 64) hi). rewrite wrap_add_mult by lia. rewrite Z.div_add by lia. rewrite Z.div_small by auto. split; symmetry; apply wrap_small; auto.
Qed.
Lemma ln_unpacklo8 l h i : length l = 16%nat -> length h = 16%nat -> (i < 2)%nat -> ln 8 i (unpacklo 8 l h) = if Nat.odd i then ln 8 0 h else ln 8 0 l.
Proof. intros L H Hi. dreg l L. dreg h H. cases_lt i. Qed.
Lemma ln_unpackhi8 l h i : length l = 16%nat -> length h = 16%nat -> (i < 2)%nat -> ln 8 i (unpackhi 8 l h) = if Nat.odd i then ln 8 1 h else ln 8 1 l.
Proof. intros L H Hi. dreg l L. dreg h H. cases_lt i. Qed.
Definition half64 (odd : bool) (sg : bool) (a b : reg) : reg := if odd then mul_odd64 sg a b else mul_even64 sg a b.
Lemma half64_ok (odd sg : bool) a b : register 16 a -> register 16 b -> let j := (if odd then 1 else 0)%nat in
  register 16 (half64 odd sg a b) /\ ln 8 0 (half64 odd sg a b) = wrap 64 (prod sg 8 j a b) /\ ln 8 1 (half64 odd sg a b) = wrap 64 (prod sg 8 j a b / 2 ^ 64).
Proof.
  intros Ra Rb j. pose proof (mul128_ok sg a b j Ra Rb ltac:(unfold j; destruct odd; lia)) as M. unfold half64, mul_odd64, mul_even64. destruct (mul128 sg a b) as [l h]. destruct M as (Rl & Rh & E1 & E2). destruct odd; cbn in j; subst j; (split; [rr|]).
  - rewrite !ln_unpackhi8 by (try apply Rl; try apply Rh; lia). cbn [Nat.odd Nat.even negb]. auto.
  - rewrite !ln_unpacklo8 by (try apply Rl; try apply Rh; lia). cbn [Nat.odd Nat.even negb]. auto.
Qed.
(** ** MulHigh *)
Lemma high_of_wrap w p : 0 <= w -> wrap (2 * w) p / 2 ^ w = wrap w (p / 2 ^ w).
Proof. intros Hw. rewrite <- combine_wrap by auto. rewrite Z.mul_comm. pose proof (pow2_gt0 w Hw). rewrite Z.div_add by lia. rewrite Z.div_small by (apply wrap_range; auto). lia. Qed.
Lemma mul_high_ok t sg s n a b i : cfg s n -> register 16 a -> register 16 b -> (i < n)%nat -> ln s i (mul_high t sg s n a b) = wrap (bits s) (prod sg s i a b / 2 ^ bits s).
Proof.
  intros Hc Ra Rb Hi. pose proof (cfg_lane s n i Hc Hi) as Hl. pose proof Hc as (Hs & Hn & H16). unfold mul_high.
  assert (G : half_size s -> ln s i (if (n =? 1)%nat then srl_bytes s (mul_even t sg s a b) else interleave_odd t s n (mul_even t sg s a b) (mul_odd t sg s a b)) = wrap (bits s) (prod sg s i a b / 2 ^ bits s)).
  { intros Hh. pose proof (mul_even_reg t sg s a b Hh Ra Rb) as Re. pose proof (mul_odd_reg t sg s a b Hh Ra Rb) as Ro.
    assert (HE : forall j, (j < 16 / (2 * s))%nat -> ln s (2 * j + 1) (mul_even t sg s a b) = wrap (bits s) (prod sg s (2 * j) a b / 2 ^ bits s)).
    { intros j Hj. rewrite ln_odd by (try apply Re; rewrite (proj1 Re); sizes4 Hh; cbn in Hj; lia). rewrite mul_even_ok by auto. rewrite bits_dbl. apply high_of_wrap. unfold bits; lia. }
    assert (HO : forall j, (j < 16 / (2 * s))%nat -> ln s (2 * j + 1) (mul_odd t sg s a b) = wrap (bits s) (prod sg s (2 * j + 1) a b / 2 ^ bits s)).
    { intros j Hj. rewrite ln_odd by (try apply Ro; rewrite (proj1 Ro); sizes4 Hh; cbn in Hj; lia). rewrite mul_odd_ok by auto. rewrite bits_dbl. apply high_of_wrap. unfold bits; lia. }
    destruct (Nat.eqb_spec n 1) as [->|N].
    - assert (i = 0%nat) as -> by lia. change (prod sg s 0 a b) with (prod sg s (2 * 0) a b). rewrite <- (HE 0%nat) by (sizes4 Hh; cbn; lia). pose proof Re as [L _]. set (m := mul_even t sg s a b) in *. clearbody m. clear - L Hh. dreg m L. sizes4 Hh; reflexivity.
    - assert (N2 : (2 <= n)%nat) by lia. assert (J : forall j, (2 * j < n \/ 2 * j + 1 < n)%nat -> (j < 16 / (2 * s))%nat). { intros j. clear - Hc Hh N2. cfgs_tac Hc; try (cbn in *; lia). }
      rewrite ln_int_odd by auto. destruct (half_lane i) as [(j & -> & -> & _)|(j & -> & -> & _)]; [apply HE | apply HO]; apply J; lia. }
  unfold size in Hs. cbn [In] in Hs. repeat destruct Hs as [<-|Hs]; try contradiction.
  - apply G. sz.
  - apply mulhi_ok; auto.
  - apply G. sz.
  - pose proof (mul128_ok sg a b i Ra Rb Hl) as M. destruct (mul128 sg a b) as [l h]. apply M.
Qed.
(** ** MulFixedPoint15 *)
Lemma ln_zip16 lo hi j : length lo = 16%nat -> length hi = 16%nat -> (j < 8)%nat -> ln 2 j (unpacklo 2 lo hi) = if Nat.odd j then ln 2 (j / 2) hi else ln 2 (j / 2) lo.
Proof. intros L H Hj. dreg lo L. dreg hi H. cases_lt j. Qed.
Lemma ln_ziphi16 lo hi j : length lo = 16%nat -> length hi = 16%nat -> (j < 8)%nat -> ln 2 j (unpackhi 2 lo hi) = if Nat.odd j then ln 2 (j / 2 + 4) hi else ln 2 (j / 2 + 4) lo.
Proof. intros L H Hj. dreg lo L. dreg hi H. cases_lt j. Qed.
Lemma unpackhi2_reg a b : register 16 a -> register 16 b -> register 16 (unpackhi 2 a b).
Proof. intros [La Ba] [Lb Bb]. split; [dreg a La; dreg b Lb; reflexivity | apply unpackhi_byte; auto]. Qed.
Definition fixed (p : Z) : Z := (p + 2 ^ 14) / 2 ^ 15.
Lemma val16 i r : register 16 r -> -32768 <= val true 2 i r <= 32767.
Proof. intros R. pose proof (val_range true 2 i r ltac:(sz) R) as V. cbv beta iota in V. change (2 ^ (bits 2 - 1)) with 32768 in V. lia. Qed.
Lemma prod16 a b i : register 16 a -> register 16 b -> -1073709056 <= prod true 2 i a b <= 1073741824 /\ (~ (val true 2 i a = -32768 /\ val true 2 i b = -32768) -> prod true 2 i a b <= 1073709056).
Proof. intros Ra Rb. pose proof (val16 i a Ra). pose proof (val16 i b Rb). unfold prod. set (x := val true 2 i a) in *. set (y := val true 2 i b) in *. split; [nia|]. intros N. assert (x <> -32768 \/ y <> -32768) as [D|D] by lia; nia. Qed.
Lemma round15_ok p : -1073709056 <= p <= 1073741824 -> swrap 32 (wrap 32 (round15 (wrap 32 p))) = fixed p.
Proof.
  intros Hp. unfold round15, shr_s, fixed. rewrite wrap_add_l. rewrite wrap_wrap, !swrap_wrap by lia. change 0x4000 with (2 ^ 14). assert (E : swrap 32 (p + 2 ^ 14) = p + 2 ^ 14) by (apply swrap_small; [lia|]; unfold in_s; change (2 ^ (32 - 1)) with 2147483648; lia). rewrite E.
  rewrite Z.shiftr_div_pow2 by lia. apply swrap_small; [lia|]. unfold in_s. change (2 ^ (32 - 1)) with 2147483648. change (2 ^ 15) with 32768. change (2 ^ 14) with 16384. Z.div_mod_to_equations. lia.
Qed.
Lemma fixed_range p : -1073709056 <= p <= 1073709056 -> closest true 2 (fixed p) = fixed p /\ -32768 <= fixed p <= 32767.
Proof. intros Hp. unfold fixed. change (2 ^ 14) with 16384. change (2 ^ 15) with 32768. assert (-32768 <= (p + 16384) / 32768 <= 32767) by (Z.div_mod_to_equations; lia). unfold closest, lowest_value, highest_value. change (2 ^ (8 * Z.of_nat 2 - 1)) with 32768. split; lia. Qed.
Lemma fixed15_ok t n a b i : cfg 2 n -> register 16 a -> register 16 b -> (i < n)%nat -> ~ (val true 2 i a = -32768 /\ val true 2 i b = -32768) ->
  register 16 (mul_fixed15 t n a b) /\ val true 2 i (mul_fixed15 t n a b) = fixed (prod true 2 i a b).
Proof.
  intros Hc Ra Rb Hi Hx. pose proof Hc as (_ & Hn & H16). destruct (prod16 a b i Ra Rb) as [P1 P2]. specialize (P2 Hx). destruct (fixed_range (prod true 2 i a b) ltac:(lia)) as [F1 F2].
  assert (N : register 16 (mulhrs a b) /\ val true 2 i (mulhrs a b) = fixed (prod true 2 i a b)).
  { split; [rr|]. unfold val at 1. unfold mulhrs. rewrite ln_map2 by (auto; try sz; cbn; lia). change (swrap 16 (ln 2 i a)) with (val true 2 i a). change (swrap 16 (ln 2 i b)) with (val true 2 i b). fold (prod true 2 i a b). unfold value_of. change (bits 2) with 16. rewrite swrap_wrap by lia.
    assert (E : Z.shiftr (Z.shiftr (prod true 2 i a b) 14 + 1) 1 = fixed (prod true 2 i a b)) by (unfold fixed; rewrite !Z.shiftr_div_pow2 by lia; change (2 ^ 14) with 16384; change (2 ^ 1) with 2; change (2 ^ 15) with 32768; Z.div_mod_to_equations; lia).
    rewrite E. apply swrap_small; [lia|]. unfold in_s. change (2 ^ (16 - 1)) with 32768. lia. }
  destruct t; [|exact N|exact N]. unfold mul_fixed15. cbn zeta. assert (Rl : register 16 (mullo 2 a b)) by rr. assert (Rh : register 16 (mulhi16 true a b)) by rr.
  assert (W : forall j, (j < 8)%nat -> ln 2 j (mullo 2 a b) + 2 ^ 16 * ln 2 j (mulhi16 true a b) = wrap 32 (prod true 2 j a b)).
  { intros j Hj. rewrite (mullo_ok true) by (auto; sz). rewrite mulhi_ok by auto. apply (combine_wrap 16). lia. }
  assert (E4 : forall j, (j < 4)%nat -> value_of true 4 (ln 4 j (map1 4 round15 (unpacklo 2 (mullo 2 a b) (mulhi16 true a b)))) = fixed (prod true 2 j a b)).
  { intros j Hj. rewrite ln_map1' by (try rr; try sz; cbn; lia). change 4%nat with (2 * 2)%nat at 3. rewrite (ln_pair 2) by (try rr; try sz; cbn; lia). change (2 * 2)%nat with 4%nat. rewrite !ln_zip16 by (try apply Rl; try apply Rh; lia). rewrite evenb, oddb.
    replace (2 * j / 2)%nat with j by (rewrite Nat.mul_comm, Nat.div_mul; lia). replace ((2 * j + 1) / 2)%nat with j by (rewrite Nat.mul_comm, Nat.div_add_l by lia; cbn; lia). change (bits 2) with 16. rewrite W by lia. unfold value_of. change (bits 4) with 32. apply round15_ok. apply prod16; auto. }
  assert (E8 : forall j, (j < 4)%nat -> value_of true 4 (ln 4 j (map1 4 round15 (unpackhi 2 (mullo 2 a b) (mulhi16 true a b)))) = fixed (prod true 2 (j + 4) a b)).
  { intros j Hj. pose proof (unpackhi2_reg _ _ Rl Rh) as Ru. rewrite ln_map1' by (try rr; try sz; cbn; lia). change 4%nat with (2 * 2)%nat at 3. rewrite (ln_pair 2) by (try rr; try sz; cbn; lia). change (2 * 2)%nat with 4%nat. rewrite !ln_ziphi16 by (try apply Rl; try apply Rh; lia). rewrite evenb, oddb.
    replace (2 * j / 2)%nat with j by (rewrite Nat.mul_comm, Nat.div_mul; lia). replace ((2 * j + 1) / 2)%nat with j by (rewrite Nat.mul_comm, Nat.div_add_l by lia; cbn; lia). change (bits 2) with 16. rewrite W by lia. unfold value_of. change (bits 4) with 32. apply round15_ok. apply prod16; auto. }
  pose proof (unpackhi2_reg _ _ Rl Rh) as Ru. destruct (Nat.eqb_spec n 8) as [->|N8].
  - destruct (demote2_ok SSE2 true 4 true 4 (map1 4 round15 (unpacklo 2 (mullo 2 a b) (mulhi16 true a b))) (map1 4 round15 (unpackhi 2 (mullo 2 a b) (mulhi16 true a b))) i) as [D R]; [unfold two_config; cbn; tauto | rr | rr | lia |].
    split; [exact R|]. unfold val. change (4 / 2)%nat with 2%nat in D. rewrite D. unfold from2. destruct (Nat.ltb_spec i 4); [rewrite E4 by auto | rewrite E8 by lia; replace (i - 4 + 4)%nat with i by lia]; exact F1.
  - assert (N4 : (n <= 4)%nat) by (cbn in Hn; lia). destruct (demote_ok SSE2 true 4 true 2 n (map1 4 round15 (unpacklo 2 (mullo 2 a b) (mulhi16 true a b))) i) as [D R]; [unfold narrower; cbn; tauto | auto | lia | rr | auto |].
    split; [exact R|]. unfold val. rewrite D, E4 by lia. exact F1.
Qed.
(** ** WidenMulPairwiseAdd *)
Lemma pairwise_ok t sg a b j : register 16 a -> register 16 b -> (j < 4)%nat ->
  register 16 (widen_mul_pairwise_add t sg a b) /\ ln 4 j (widen_mul_pairwise_add t sg a b) = wrap 32 (prod sg 2 (2 * j) a b + prod sg 2 (2 * j + 1) a b).
Proof.
  intros Ra Rb Hj. assert (Hj' : (j < 16 / (2 * 2))%nat) by (cbn; lia). unfold widen_mul_pairwise_add. destruct sg.
  - split; [rr|]. unfold madd. rewrite ln_map2 by (auto; sz). change (bits 4) with 32. f_equal. unfold prod, val, value_of. rewrite !ln_even by (try apply Ra; apply Rb). rewrite !ln_odd by (try apply Ra; try apply Rb; rewrite ?(proj1 Ra), ?(proj1 Rb); lia).
    change (2 * 2)%nat with 4%nat. change (bits 2) with 16. rewrite !(swrap_wrap 16) by lia. rewrite !Z.shiftr_div_pow2 by lia. reflexivity.
  - cbn zeta. assert (Rl : register 16 (mullo 2 a b)) by rr. assert (Rh : register 16 (mulhi16 false a b)) by rr. split; [rr|]. unfold add. rewrite ln_map2 by (try rr; try sz; cbn; lia). rewrite ln_map2 by (try rr; try sz; cbn; lia). change (bits 4) with 32.
    assert (O : ln 4 j (odd_even t 2 (mulhi16 false a b) (mullo 2 a b)) = ln 2 (2 * j) (mullo 2 a b) + 2 ^ 16 * ln 2 (2 * j + 1) (mulhi16 false a b)).
    { change 4%nat with (2 * 2)%nat. rewrite (ln_pair 2) by (try rr; auto; sz). rewrite !ln_odd_even by (try rr; try sz; cbn; lia). rewrite evenb, oddb. reflexivity. }
    assert (SH : ln 4 j (map1 4 (shl 32 16) (mulhi16 false a b)) = ln 2 (2 * j) (mulhi16 false a b) * 2 ^ 16).
    { destruct (shl_even 2 j (mulhi16 false a b)) as [E0 E1]; [sz | auto | auto |]. change (shl (bits (2 * 2)) (bits 2)) with (shl 32 16) in *. change (ln 4 j (map1 4 (shl 32 16) (mulhi16 false a b))) with (ln (2 * 2) j (map1 (2 * 2) (shl 32 16) (mulhi16 false a b))). rewrite (ln_pair 2) by (try rr; auto; sz). rewrite E0, E1. change (bits 2) with 16. lia. }
    assert (SL : ln 4 j (map1 4 (shr_u 16) (mullo 2 a b)) = ln 2 (2 * j + 1) (mullo 2 a b)).
    { destruct (shr_even 2 j (mullo 2 a b)) as [E0 E1]; [sz | auto | auto |]. change (shr_u (bits 2)) with (shr_u 16) in *. change (ln 4 j (map1 4 (shr_u 16) (mullo 2 a b))) with (ln (2 * 2) j (map1 (2 * 2) (shr_u 16) (mullo 2 a b))). rewrite (ln_pair 2) by (try rr; auto; sz). rewrite E0, E1. lia. }
    rewrite O, SH, SL. pose proof (ln_range 2 (2 * j + 1) (mullo 2 a b) (proj2 Rl)) as B1. pose proof (ln_range 2 (2 * j) (mulhi16 false a b) (proj2 Rh)) as B2. change (bits 2) with 16 in *. rewrite lor_shift_add by (auto; lia). rewrite wrap_add_r. f_equal.
    assert (W : forall k, (k < 8)%nat -> ln 2 k (mullo 2 a b) + 2 ^ 16 * ln 2 k (mulhi16 false a b) = prod false 2 k a b).
    { intros k Hk. rewrite (mullo_ok false) by (auto; sz). rewrite mulhi_ok by auto. change (bits 2) with 16. rewrite combine_wrap by lia. apply wrap_small. apply (prod_fits false 2 k a b); auto. sz. }
    rewrite <- (W (2 * j)%nat), <- (W (2 * j + 1)%nat) by lia. ring.
Qed.
(** ** AverageRound *)
Lemma flip_val w x : 0 < w -> 0 <= x < 2 ^ w -> Z.lxor (2 ^ (w - 1)) x = swrap w x + 2 ^ (w - 1).
Proof.
  intros Hw Hx. pose proof (half_pow w Hw) as [E P]. rewrite swrap_val by auto. set (h := 2 ^ (w - 1)) in *. assert (Q : forall y, 0 <= y < h -> Z.lxor h y = h + y).
  { intros y Hy. symmetry. apply Z.add_nocarry_lxor. unfold h. apply Z.bits_inj'. intros k Hk. rewrite Z.land_spec, Z.bits_0. destruct (Z.eq_dec k (w - 1)) as [->|N]; [|rewrite Z.pow2_bits_false by lia; reflexivity]. rewrite (testbit_small y (w - 1)) by (unfold h in *; lia). apply andb_false_r. }
  destruct (Z.ltb_spec x h); [rewrite Q by lia; lia|]. replace x with (h + (x - h)) at 1 by lia. rewrite <- Q by lia. rewrite <- Z.lxor_assoc, Z.lxor_nilpotent, Z.lxor_0_l. lia.
Qed.
Lemma average_ok sg s a b i : size s -> register 16 a -> register 16 b -> (i < 16 / s)%nat ->
  register 16 (average sg s a b) /\ val sg s i (average sg s a b) = (val sg s i a + val sg s i b + 1) / 2.
Proof.
  intros Hs Ra Rb Hi. pose proof (bits_pos s (size_pos s Hs)) as W. pose proof (half_pow (bits s) W) as [E P]. unfold average. cbn zeta. pose proof (ln_range s i a (proj2 Ra)) as A. pose proof (ln_range s i b (proj2 Rb)) as B.
  assert (AV : forall x y, (Z.shiftr (x + y + 1) 1) = (x + y + 1) / 2) by (intros; apply Z.shiftr_div_pow2; lia). destruct sg.
  - set (f := Z.lxor (2 ^ (bits s - 1))). assert (R1 : register 16 (map1 s f a)) by (apply map1_reg; auto). assert (R2 : register 16 (map1 s f b)) by (apply map1_reg; auto). assert (R3 : register 16 (avg s (map1 s f a) (map1 s f b))) by (apply map2_reg; auto).
    split; [apply map1_reg; auto|]. pose proof (val_range true s i a Hs Ra) as Va. pose proof (val_range true s i b Hs Rb) as Vb. cbv beta iota in Va, Vb.
    assert (FV : forall r, register 16 r -> ln s i (map1 s f r) = val true s i r + 2 ^ (bits s - 1)).
    { intros r R. pose proof (val_range true s i r Hs R) as V. cbv beta iota in V. rewrite ln_map1' by auto. unfold f. rewrite flip_val by (auto; apply ln_range; apply R). fold (val true s i r). change (swrap (bits s) (ln s i r)) with (val true s i r). apply wrap_small. lia. }
    unfold val at 1. rewrite FV by auto. unfold val at 1. unfold value_of at 2. unfold avg. rewrite ln_map2 by auto. rewrite !FV by auto. rewrite AV. set (x := val true s i a) in *. set (y := val true s i b) in *. set (h := 2 ^ (bits s - 1)) in *.
    assert (EQ : (x + h + (y + h) + 1) / 2 = (x + y + 1) / 2 + h) by (replace (x + h + (y + h) + 1) with (x + y + 1 + h * 2) by lia; rewrite Z.div_add by lia; reflexivity). rewrite EQ.
    assert (RG : -h <= (x + y + 1) / 2 < h) by (Z.div_mod_to_equations; lia). rewrite (wrap_small (bits s)) by lia. unfold value_of.
    assert (S1 : swrap (bits s) ((x + y + 1) / 2 + h) + h = wrap (bits s) ((x + y + 1) / 2)). { rewrite swrap_val by (auto; lia). fold h. unfold wrap. destruct (Z.ltb_spec ((x + y + 1) / 2 + h) h); [apply (Z.mod_unique_pos _ _ (-1)); lia | rewrite Z.mod_small by lia; lia]. }
    rewrite S1. rewrite swrap_wrap by lia. apply swrap_small; [auto|]. unfold in_s. fold h. lia.
  - split; [apply map2_reg; auto|]. unfold val, value_of. unfold avg. rewrite ln_map2 by auto. rewrite AV. apply wrap_small. Z.div_mod_to_equations. lia.
Qed.
