(** Multiplication on x86: operator times, 64-bit products, MulHigh, MulFixedPoint15, WidenMulPairwiseAdd, AverageRound. *)
From Coq Require Import ZArith List Bool Lia Arith.
From Verif Require Import Word Word_Proofs Float_Conv X86Int_Spec X86Int_Model X86Int_Proofs X86Int_Lane X86Int_Sel X86Int_Main X86Int_Two X86Mul_Model Properties_X86Int X86Mul_Move X86Mul_Proofs.
Import ListNotations.
Open Scope Z_scope.
Arguments Z.pow : simpl never.
Arguments Z.mul : simpl never.
Arguments Z.add : simpl never.
Arguments Z.of_nat : simpl never.
(** ** operator times *)
Lemma prod_wrap sg s i a b : size s -> wrap (bits s) (prod sg s i a b) = wrap (bits s) (ln s i a * ln s i b).
Proof. intros Hs. pose proof (size_pos s Hs). apply wrap_mul; [unfold bits; lia | |]; apply wrap_value; auto. Qed.
Lemma ln_zip i a b : length a = 16%nat -> length b = 16%nat -> (i < 4)%nat -> ln 4 i (unpacklo 4 (select 4 [0; 2; 0; 2]%nat a) (select 4 [0; 2; 0; 2]%nat b)) = if Nat.odd i then ln 4 (i - 1) b else ln 4 i a.
Proof. intros La Lb Hi. dreg a La. dreg b Lb. cases_lt i. Qed.
Lemma mul32_ok t a b i : register 16 a -> register 16 b -> (i < 4)%nat -> ln 4 i (mul32 t a b) = wrap 32 (ln 4 i a * ln 4 i b).
Proof.
  intros Ra Rb Hi. assert (N : ln 4 i (mullo 4 a b) = wrap 32 (ln 4 i a * ln 4 i b)) by (rewrite (mullo_ok false); [apply (prod_wrap false 4); sz | sz | auto | auto | cbn; lia]).
  assert (E : ln 4 i (mul32 SSE2 a b) = wrap 32 (ln 4 i a * ln 4 i b)); [|destruct t; assumption]. unfold mul32. set (a' := select 4 [1; 1; 3; 3]%nat a). set (b' := select 4 [1; 1; 3; 3]%nat b).
  assert (Ra' : register 16 a') by (unfold a'; rr). assert (Rb' : register 16 b') by (unfold b'; rr). assert (M : register 16 (mul_epu32 a b)) by rr. assert (M' : register 16 (mul_epu32 a' b')) by rr.
  rewrite ln_zip by (auto; apply M || apply M'). assert (D : forall j r, (j < 2)%nat -> register 16 r -> ln 4 (2 * j) (select 4 [1; 1; 3; 3]%nat r) = ln 4 (2 * j + 1) r). { intros j r Hj [L _]. dreg r L. cases_lt j. }
  destruct (half_lane i) as [(j & -> & -> & _)|(j & -> & -> & _)].
  - rewrite ln_even by apply M. change (2 * 4)%nat with 8%nat. rewrite epu32_ok by (auto; lia). reflexivity.
  - replace (2 * j + 1 - 1)%nat with (2 * j)%nat by lia. rewrite ln_even by apply M'. change (2 * 4)%nat with 8%nat. rewrite epu32_ok by (auto; lia). unfold a', b'. rewrite !D by (auto; lia). reflexivity.
Qed.
Lemma srl_reg k r : (k <= 16)%nat -> register 16 r -> register 16 (srl_bytes k r).
Proof. intros Hk [L B]. split; [|apply srl_byte; auto]. unfold srl_bytes. rewrite app_length, skipn_length, repeat_length. lia. Qed.
Lemma widen_length sg s s' v : narrower s' s -> length v = 16%nat -> length (widen sg s s' v) = 16%nat.
Proof. intros Hs L. unfold widen. rewrite of_lanes_length, map_length, firstn_length, lanes_length, L. unfold narrower in Hs. cbn in Hs. repeat destruct Hs as [Hs|Hs]; try contradiction; injection Hs as <- <-; reflexivity. Qed.
Lemma promote12_reg t sg v : register 16 v -> register 16 (promote_to t sg 1 2 v).
Proof.
  intros R. pose proof R as [L B]. split; [|apply promote_byte; auto; unfold narrower; cbn; tauto]. assert (W : forall sg, length (widen sg 1 2 v) = 16%nat) by (intros; apply widen_length; auto; unfold narrower; cbn; tauto).
  assert (Z16 : register 16 zero) by (split; [reflexivity | exact zero_byte]). unfold promote_to, promote_s, promote_u, promote_u_half. destruct sg, t; try apply W; match goal with |- length ?x = _ => enough (register 16 x) as [Q _] by exact Q end; rg.
Qed.
Lemma ln_upper8 i v : length v = 16%nat -> (i < 8)%nat -> ln 1 i (upper8 v) = ln 1 (i + 8) v.
Proof. intros L Hi. dreg v L. cases_lt i. Qed.
Lemma mul8_wide t sg a b i : register 16 a -> register 16 b -> (i < 8)%nat -> wrap 8 (ln 2 i (mullo 2 (promote_to t sg 1 2 a) (promote_to t sg 1 2 b))) = wrap 8 (prod sg 1 i a b).
Proof.
  intros Ra Rb Hi. pose proof (promote12_reg t sg a Ra) as Pa. pose proof (promote12_reg t sg b Rb) as Pb. rewrite (mullo_ok sg) by (auto; try sz; cbn; lia). change (bits 2) with 16. rewrite wrap_le by lia. f_equal. unfold prod, val.
  rewrite !promote_ok by (auto; unfold narrower; cbn; tauto || lia). reflexivity.
Qed.
Lemma mul8_ok t sg n a b i : cfg 1 n -> register 16 a -> register 16 b -> (i < n)%nat -> ln 1 i (mul8 t sg n a b) = wrap 8 (prod sg 1 i a b).
Proof.
  intros Hc Ra Rb Hi. pose proof Hc as (_ & Hn & H16). unfold mul8. pose proof (promote12_reg t sg a Ra) as Pa. pose proof (promote12_reg t sg b Rb) as Pb. destruct (Nat.leb_spec n 8) as [N|N].
  - rewrite truncate_ok; [|unfold narrower; cbn; tauto | auto | lia | rr | auto]. apply mul8_wide; auto; lia.
  - assert (n = 16%nat) as -> by (cbn in Hn; lia). assert (Ua : register 16 (upper8 a)) by (apply srl_reg; auto; lia). assert (Ub : register 16 (upper8 b)) by (apply srl_reg; auto; lia).
    pose proof (promote12_reg t sg _ Ua) as Pua. pose proof (promote12_reg t sg _ Ub) as Pub. rewrite concat_even_ok; [|unfold concat_config; cbn; tauto | rr | rr | exact Hi]. unfold pick2. change (16 / 1 / 2)%nat with 8%nat. destruct (Nat.ltb_spec i 8) as [I|I].
    + rewrite ln_even by (apply map2_reg; auto; sz). apply mul8_wide; auto.
    + rewrite ln_even by (apply map2_reg; auto; sz). change (2 * 1)%nat with 2%nat. change (bits 1) with 8. rewrite mul8_wide by (auto; lia). f_equal. unfold prod, val. rewrite !ln_upper8 by (try apply Ra; try apply Rb; lia). replace (i - 8 + 8)%nat with i by lia. reflexivity.
Qed.
Lemma mul64_ok a b j : register 16 a -> register 16 b -> (j < 2)%nat -> ln 8 j (mul64 a b) = wrap 64 (ln 8 j a * ln 8 j b).
Proof.
  intros Ra Rb Hj. unfold mul64. cbn zeta. set (S := add 4 (mul_epu32 a (map1 8 (shr_u 32) b)) (mul_epu32 (map1 8 (shr_u 32) a) b)). assert (RS : register 16 S) by (unfold S; rr).
  assert (Hj' : (j < 16 / (2 * 4))%nat) by (cbn; lia). destruct (shl_even 4 j S) as [E0 E1]; [sz | auto | auto |]. change (shl (bits (2 * 4)) (bits 4)) with (shl 64 32) in *. change (2 * 4)%nat with 8%nat in E0, E1.
  destruct (shr_even 4 j a) as [A0 _]; [sz | auto | auto |]. destruct (shr_even 4 j b) as [B0 _]; [sz | auto | auto |]. change (shr_u (bits 4)) with (shr_u 32) in *. change (2 * 4)%nat with 8%nat in A0, B0.
  pose proof (ln_pair 4 j a ltac:(sz) Ra Hj') as Pa. pose proof (ln_pair 4 j b ltac:(sz) Rb Hj') as Pb. change (2 * 4)%nat with 8%nat in Pa, Pb. rewrite Pa, Pb.
  assert (EE : forall r, register 16 r -> ln 4 (2 * j) r = wrap 32 (ln 8 j r)) by (intros r R; apply (ln_even 4 j r (proj2 R))).
  assert (EO : forall r, register 16 r -> ln 4 (2 * j + 1) r = ln 8 j r / 2 ^ 32) by (intros r R; apply (ln_odd 4 j r (proj2 R)); rewrite (proj1 R); lia).
  assert (ES : ln 4 (2 * j) S = wrap 32 (ln 4 (2 * j) a * ln 4 (2 * j + 1) b + ln 4 (2 * j + 1) a * ln 4 (2 * j) b)).
  { unfold S, add. rewrite ln_map2 by (try rr; try sz; cbn; lia). rewrite (EE (mul_epu32 a (map1 8 (shr_u 32) b))), (EE (mul_epu32 (map1 8 (shr_u 32) a) b)) by rr. rewrite !epu32_ok by (try rr; auto). rewrite A0, B0. change (bits 4) with 32. rewrite wrap_add_l, wrap_add_r. reflexivity. }
  set (al := ln 4 (2 * j) a) in *. set (ah := ln 4 (2 * j + 1) a) in *. set (bl := ln 4 (2 * j) b) in *. set (bh := ln 4 (2 * j + 1) b) in *. change (bits 4) with 32.
  set (L := al * bl). set (z := al * bh + ah * bl) in *.
  assert (EQ : wrap 64 ((al + 2 ^ 32 * ah) * (bl + 2 ^ 32 * bh)) = wrap 64 (L + 2 ^ 32 * z)). { apply (wrap_cong 64 _ _ (ah * bh)); [lia|]. change (2 ^ 64) with (2 ^ 32 * 2 ^ 32). unfold L, z. nia. }
  rewrite EQ. apply (two_halves 4 j); [sz | rr | auto | |]; unfold add at 1; rewrite ln_map2 by (try rr; try sz; cbn; lia); rewrite ?E0, ?E1, ?ES; change (bits 4) with 32.
  - rewrite EE by rr. rewrite epu32_ok by auto. fold al bl. fold L. rewrite Z.add_0_r, wrap_wrap by lia. symmetry. apply (wrap_cong 32 _ _ z); lia.
  - rewrite EO by rr. rewrite epu32_ok by auto. fold al bl. fold L. rewrite wrap_add_r. f_equal. rewrite (Z.mul_comm (2 ^ 32) z), Z.div_add by lia. reflexivity.
Qed.
Lemma times_ok t sg s n a b i : cfg s n -> register 16 a -> register 16 b -> (i < n)%nat -> ln s i (times t sg s n a b) = wrap (bits s) (ln s i a * ln s i b).
Proof.
  intros Hc Ra Rb Hi. pose proof (cfg_lane s n i Hc Hi) as Hl. pose proof Hc as (Hs & _). unfold times. unfold size in Hs. cbn [In] in Hs. repeat destruct Hs as [<-|Hs]; try contradiction.
  - rewrite mul8_ok by auto. apply (prod_wrap sg 1). sz.
  - rewrite (mullo_ok false) by (auto; sz). reflexivity.
  - apply mul32_ok; auto.
  - apply mul64_ok; auto.
Qed.
(** ** 128-bit products *)
Lemma swap32 j r : register 16 r -> (j < 2)%nat -> ln 4 (2 * j) (select 4 [1; 0; 3; 2]%nat r) = ln 4 (2 * j + 1) r.
Proof. intros [L _] Hj. dreg r L. cases_lt j. Qed.
Lemma shr_u_val k x : 0 <= k -> shr_u k x = x / 2 ^ k. Proof. intros. apply Z.shiftr_div_pow2. auto. Qed.
Lemma two_digits B x y : 0 <= x < B -> 0 <= y < B -> 0 <= x + B * y < B * B.
Proof. intros Hx Hy. assert (B * y <= B * (B - 1)) by (apply Z.mul_le_mono_nonneg_l; lia). assert (0 <= B * y) by (apply Z.mul_nonneg_nonneg; lia). rewrite Z.mul_sub_distr_l in *. lia. Qed.
Lemma digit_prod B x y : 0 <= x < B -> 0 <= y < B -> 0 <= x * y <= (B - 1) * (B - 1).
Proof. intros Hx Hy. split; [apply Z.mul_nonneg_nonneg; lia | apply Z.mul_le_mono_nonneg; lia]. Qed.
Lemma knuth al ah bl bh B : 0 < B -> 0 <= al < B -> 0 <= ah < B -> 0 <= bl < B -> 0 <= bh < B ->
  let L := al * bl in let t2 := ah * bl + L / B in let t := al * bh + t2 mod B in
  0 <= t2 < B * B /\ 0 <= t < B * B /\ 0 <= ah * bh + t2 / B + t / B < B * B /\ t mod B * B + L mod B + B * B * (ah * bh + t2 / B + t / B) = (al + B * ah) * (bl + B * bh).
Proof.
  intros HB Ha Hah Hb Hbh L t2 t. pose proof (Z.div_mod L B ltac:(lia)) as D1. pose proof (Z.mod_pos_bound L B HB) as M1. pose proof (Z.div_mod t2 B ltac:(lia)) as D2. pose proof (Z.mod_pos_bound t2 B HB) as M2. pose proof (Z.div_mod t B ltac:(lia)) as D3. pose proof (Z.mod_pos_bound t B HB) as M3.
  set (lq := L / B) in *. set (lr := L mod B) in *. set (q2 := t2 / B) in *. set (r2 := t2 mod B) in *. set (q3 := t / B) in *. set (r3 := t mod B) in *.
  pose proof (digit_prod B al bl Ha Hb) as HL. fold L in HL. assert (SQ : (B - 1) * (B - 1) = B * B - 2 * B + 1) by ring. assert (QB : forall x, 0 <= x < B * B -> 0 <= x / B < B) by (intros x Hx; split; [apply Z.div_pos; lia | apply Z.div_lt_upper_bound; lia]). assert (Q1 : 0 <= lq < B) by (apply QB; lia). pose proof (digit_prod B ah bl Hah Hb) as H2. assert (T2 : 0 <= t2 < B * B) by (unfold t2; lia).
  pose proof (digit_prod B al bh Ha Hbh) as H3. assert (T3 : 0 <= t < B * B) by (unfold t; lia). assert (Q2 : 0 <= q2 < B) by (apply QB; lia). assert (Q3 : 0 <= q3 < B) by (apply QB; lia).
  assert (EQ : r3 * B + lr + B * B * (ah * bh + q2 + q3) = (al + B * ah) * (bl + B * bh)).
  { assert (X2 : B * q2 + r2 = ah * bl + lq) by (rewrite <- D2; reflexivity). assert (X3 : B * q3 + r3 = al * bh + r2) by (rewrite <- D3; reflexivity). assert (X1 : B * lq + lr = al * bl) by (rewrite <- D1; reflexivity).
    clear - X1 X2 X3. transitivity (B * (B * q3 + r3) + lr + B * B * (ah * bh + q2)); [ring|]. rewrite X3. transitivity (B * (al * bh) + B * (B * q2 + r2) + lr + B * B * (ah * bh)); [ring|]. rewrite X2. transitivity (B * (al * bh) + B * (ah * bl) + (B * lq + lr) + B * B * (ah * bh)); [ring|]. rewrite X1. ring. }
  split; [exact T2|]. split; [exact T3|]. split; [|exact EQ]. assert (HH : 0 <= ah * bh) by (apply Z.mul_nonneg_nonneg; lia). split; [lia|].
  pose proof (two_digits B al ah Ha Hah) as X1. pose proof (two_digits B bl bh Hb Hbh) as Y1. set (X := al + B * ah) in *. set (Y := bl + B * bh) in *. clearbody X Y. assert (P : X * Y < B * B * (B * B)) by (apply Z.mul_lt_mono_nonneg; lia).
  assert (RB : 0 <= r3 * B) by (apply Z.mul_nonneg_nonneg; lia). set (h := ah * bh + q2 + q3) in *. apply (Z.mul_lt_mono_pos_l (B * B)); [apply Z.mul_pos_pos; lia|]. clear - EQ P RB M1. rewrite <- EQ in P. lia.
Qed.
Lemma mul128_u_ok a b j : register 16 a -> register 16 b -> (j < 2)%nat ->
  let (l, h) := mul128_u a b in register 16 l /\ register 16 h /\ ln 8 j l + 2 ^ 64 * ln 8 j h = ln 8 j a * ln 8 j b.
Proof.
  intros Ra Rb Hj. unfold mul128_u. cbn zeta. set (aH := select 4 [1; 0; 3; 2]%nat a). set (bH := select 4 [1; 0; 3; 2]%nat b). assert (RaH : register 16 aH) by (unfold aH; rr). assert (RbH : register 16 bH) by (unfold bH; rr).
  assert (Hj' : (j < 16 / (2 * 4))%nat) by (cbn; lia). pose proof (ln_pair 4 j a ltac:(sz) Ra Hj') as Pa. pose proof (ln_pair 4 j b ltac:(sz) Rb Hj') as Pb. change (2 * 4)%nat with 8%nat in Pa, Pb. rewrite Pa, Pb.
  pose proof (ln_range 4 (2 * j) a (proj2 Ra)) as A0. pose proof (ln_range 4 (2 * j + 1) a (proj2 Ra)) as A1. pose proof (ln_range 4 (2 * j) b (proj2 Rb)) as B0. pose proof (ln_range 4 (2 * j + 1) b (proj2 Rb)) as B1. change (bits 4) with 32 in *.
  assert (EL : ln 8 j (mul_epu32 a b) = ln 4 (2 * j) a * ln 4 (2 * j) b) by (apply epu32_ok; auto).
  assert (EHL : ln 8 j (mul_epu32 aH b) = ln 4 (2 * j + 1) a * ln 4 (2 * j) b) by (rewrite epu32_ok by auto; unfold aH; rewrite swap32 by auto; reflexivity).
  assert (ELH : ln 8 j (mul_epu32 a bH) = ln 4 (2 * j) a * ln 4 (2 * j + 1) b) by (rewrite epu32_ok by auto; unfold bH; rewrite swap32 by auto; reflexivity).
  assert (EHH : ln 8 j (mul_epu32 aH bH) = ln 4 (2 * j + 1) a * ln 4 (2 * j + 1) b) by (rewrite epu32_ok by auto; unfold aH, bH; rewrite !swap32 by auto; reflexivity).
  set (al := ln 4 (2 * j) a) in *. set (ah := ln 4 (2 * j + 1) a) in *. set (bl := ln 4 (2 * j) b) in *. set (bh := ln 4 (2 * j + 1) b) in *. clearbody al ah bl bh.
  pose proof (knuth al ah bl bh (2 ^ 32) ltac:(lia) A0 A1 B0 B1) as K. cbv zeta in K. destruct K as (K2 & K3 & K4 & K5).
  set (t2 := add 8 (mul_epu32 aH b) (map1 8 (shr_u 32) (mul_epu32 a b))) in *. assert (R2 : register 16 t2) by (unfold t2; rr).
  assert (HL : 0 <= al * bl < 2 ^ 32 * 2 ^ 32) by nia. assert (HQ : 0 <= al * bl / 2 ^ 32 < 2 ^ 32) by (split; [apply Z.div_pos; lia | apply Z.div_lt_upper_bound; lia]).
  assert (E64 : 2 ^ 64 = 2 ^ 32 * 2 ^ 32) by reflexivity.
  assert (E2 : ln 8 j t2 = ah * bl + al * bl / 2 ^ 32).
  { unfold t2, add. rewrite ln_map2 by (try rr; try sz; cbn; lia). rewrite ln_map1' by (try rr; try sz; cbn; lia). rewrite EHL, EL, shr_u_val by lia. change (bits 8) with 64. rewrite wrap_add_r. apply wrap_small. rewrite E64. exact K2. }
  set (t := add 8 (mul_epu32 a bH) (map1 8 maskL t2)) in *. assert (R3 : register 16 t) by (unfold t; rr).
  assert (E3 : ln 8 j t = al * bh + (ah * bl + al * bl / 2 ^ 32) mod 2 ^ 32).
  { unfold t, add. rewrite ln_map2 by (try rr; try sz; cbn; lia). rewrite ln_map1' by (try rr; try sz; cbn; lia). rewrite ELH, E2. unfold maskL. rewrite land32. change (bits 8) with 64. rewrite wrap_add_r. apply wrap_small. rewrite E64. exact K3. }
  split; [rr|]. split; [rr|]. set (v2 := ah * bl + al * bl / 2 ^ 32) in *. set (v3 := al * bh + v2 mod 2 ^ 32) in *.
  unfold add. rewrite !ln_map2 by (try rr; try sz; cbn; lia). rewrite !ln_map1' by (try rr; try sz; cbn; lia). rewrite EL, EHH, E2, E3. unfold maskL. rewrite land32, !shr_u_val by lia. change (bits 8) with 64. rewrite <- K5.
  pose proof (Z.mod_pos_bound v3 (2 ^ 32) ltac:(lia)) as M3. pose proof (Z.mod_pos_bound (al * bl) (2 ^ 32) ltac:(lia)) as M1.
  assert (SL : shl 64 32 v3 = v3 mod 2 ^ 32 * 2 ^ 32). { unfold shl. rewrite Z.shiftl_mul_pow2 by lia. unfold wrap. rewrite E64. apply Z.mul_mod_distr_r; lia. } rewrite SL.
  pose proof (Z.div_pos v2 (2 ^ 32) ltac:(lia) ltac:(lia)) as Q2. pose proof (Z.div_pos v3 (2 ^ 32) ltac:(lia) ltac:(lia)) as Q3. assert (HH : 0 <= ah * bh) by (apply Z.mul_nonneg_nonneg; lia). rewrite <- E64 in *.
  assert (W1 : wrap 64 (wrap 64 (v3 mod 2 ^ 32 * 2 ^ 32) + wrap 64 (wrap 32 (al * bl))) = v3 mod 2 ^ 32 * 2 ^ 32 + (al * bl) mod 2 ^ 32).
  { rewrite wrap_add_l, wrap_add_r. apply wrap_small. unfold wrap. change (2 ^ 64) with (2 ^ 32 * 2 ^ 32). lia. }
  assert (W2 : wrap 64 (wrap 64 (ah * bh + wrap 64 (v2 / 2 ^ 32)) + wrap 64 (v3 / 2 ^ 32)) = ah * bh + v2 / 2 ^ 32 + v3 / 2 ^ 32) by (rewrite wrap_add_l, wrap_add_r; rewrite <- (wrap_add_l 64 (ah * bh + _)), wrap_add_r, wrap_add_l; apply wrap_small; exact K4).
  rewrite W1, W2. reflexivity.
Qed.
