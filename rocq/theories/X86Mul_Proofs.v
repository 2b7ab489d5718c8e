(** Multiplication on x86: proofs. *)
From Coq Require Import ZArith List Bool Lia Arith.
From Verif Require Import Word Word_Proofs X86Int_Spec X86Int_Model X86Int_Proofs X86Int_Lane X86Int_Sel X86Int_Main X86Int_Two X86Mul_Model Properties_X86Int X86Mul_Move.
Import ListNotations.
Open Scope Z_scope.
Arguments Z.pow : simpl never.
Arguments Z.mul : simpl never.
Arguments Z.add : simpl never.
Arguments Z.of_nat : simpl never.
(** ** arithmetic *)
Lemma combine_wrap w p : 0 <= w -> wrap w p + 2 ^ w * wrap w (p / 2 ^ w) = wrap (2 * w) p.
Proof. intros Hw. unfold wrap. replace (2 * w) with (w + w) by lia. rewrite Z.pow_add_r by lia. pose proof (pow2_gt0 w Hw). rewrite Z.rem_mul_r by lia. reflexivity. Qed.
Lemma wrap_cong w x y k : 0 <= w -> x = y + k * 2 ^ w -> wrap w x = wrap w y.
Proof. intros Hw ->. apply wrap_add_mult. auto. Qed.
Lemma wrap_mul w x y x' y' : 0 <= w -> wrap w x = wrap w x' -> wrap w y = wrap w y' -> wrap w (x * y) = wrap w (x' * y').
Proof. intros Hw E1 E2. rewrite <- wrap_mul_l, <- wrap_mul_r, E1, E2, wrap_mul_l, wrap_mul_r. reflexivity. Qed.
Lemma wrap_sub w x y x' y' : 0 <= w -> wrap w x = wrap w x' -> wrap w y = wrap w y' -> wrap w (x - y) = wrap w (x' - y').
Proof. intros Hw E1 E2. rewrite <- wrap_sub_l, <- wrap_sub_r, E1, E2, wrap_sub_l, wrap_sub_r. reflexivity. Qed.
Lemma wrap_add w x y x' y' : 0 <= w -> wrap w x = wrap w x' -> wrap w y = wrap w y' -> wrap w (x + y) = wrap w (x' + y').
Proof. intros Hw E1 E2. rewrite <- wrap_add_l, <- wrap_add_r, E1, E2, wrap_add_l, wrap_add_r. reflexivity. Qed.
Lemma wrap_swrap w x : 0 < w -> wrap w (swrap w x) = wrap w x.
Proof. intros. apply swrap_mod. auto. Qed.
Lemma wrap_value (sg : bool) s x : (0 < s)%nat -> wrap (bits s) (value_of sg s x) = wrap (bits s) x.
Proof. intros. unfold value_of. destruct sg; [apply wrap_swrap; apply bits_pos; auto | reflexivity]. Qed.
Lemma wrap_le w w' x : 0 <= w <= w' -> wrap w (wrap w' x) = wrap w x.
Proof.
  intros H. unfold wrap. replace w' with (w + (w' - w)) by lia. rewrite Z.pow_add_r by lia. pose proof (pow2_gt0 w ltac:(lia)). pose proof (pow2_gt0 (w' - w) ltac:(lia)). rewrite Z.rem_mul_r by lia. rewrite Z.mul_comm, Z.mod_add by lia. apply Z.mod_mod. lia.
Qed.
Lemma swrap_le w w' x : 0 < w <= w' -> swrap w (wrap w' x) = swrap w x.
Proof. intros H. rewrite <- (swrap_wrap w (wrap w' x)), <- (swrap_wrap w x) by lia. f_equal. apply wrap_le. lia. Qed.
(** value of a lane *)
Definition val (sg : bool) (s i : nat) (r : reg) : Z := value_of sg s (ln s i r).
Definition prod (sg : bool) (s i : nat) (a b : reg) : Z := val sg s i a * val sg s i b.
Lemma val_range (sg : bool) s i r : size s -> register 16 r -> if sg then - 2 ^ (bits s - 1) <= val sg s i r < 2 ^ (bits s - 1) else 0 <= val sg s i r < 2 ^ bits s.
Proof. intros Hs R. unfold val, value_of. destruct sg; [apply swrap_range; apply bits_pos, size_pos; auto | apply ln_range; apply R]. Qed.
Lemma val_s s i r : size s -> register 16 r -> val true s i r = if ln s i r <? 2 ^ (bits s - 1) then ln s i r else ln s i r - 2 ^ bits s.
Proof. intros Hs R. unfold val, value_of. apply swrap_val; [apply bits_pos, size_pos; auto|]. apply ln_range; apply R. Qed.
Lemma prod_fits (sg : bool) s i a b : size s -> register 16 a -> register 16 b -> if sg then in_s (bits (2 * s)) (prod sg s i a b) else in_u (bits (2 * s)) (prod sg s i a b).
Proof.
  intros Hs Ra Rb. pose proof (val_range sg s i a Hs Ra) as A. pose proof (val_range sg s i b Hs Rb) as B. unfold prod. pose proof (half_pow (bits s) (bits_pos s (size_pos s Hs))) as [E P]. destruct sg.
  - unfold in_s. rewrite bits_dbl. replace (2 * bits s - 1) with (bits s + (bits s - 1)) by lia. rewrite Z.pow_add_r by (pose proof (bits_pos s (size_pos s Hs)); lia). rewrite E. set (p := 2 ^ (bits s - 1)) in *. nia.
  - unfold in_u. rewrite pow_dbl. nia.
Qed.
Lemma prod_value sg s i a b : size s -> register 16 a -> register 16 b -> value_of sg (2 * s) (wrap (bits (2 * s)) (prod sg s i a b)) = prod sg s i a b.
Proof. intros Hs Ra Rb. apply value_wrap; [pose proof (size_pos s Hs); lia|]. apply (prod_fits sg s i a b Hs Ra Rb). Qed.
Lemma mullo_ok sg s a b i : size s -> register 16 a -> register 16 b -> (i < 16 / s)%nat -> ln s i (mullo s a b) = wrap (bits s) (prod sg s i a b).
Proof.
  intros Hs Ra Rb Hi. unfold mullo. rewrite ln_map2 by auto. pose proof (size_pos s Hs). apply wrap_mul; [unfold bits; lia | |]; symmetry; apply wrap_value; auto.
Qed.
Lemma mulhi_ok sg a b i : register 16 a -> register 16 b -> (i < 8)%nat -> ln 2 i (mulhi16 sg a b) = wrap 16 (prod sg 2 i a b / 2 ^ 16).
Proof.
  intros Ra Rb Hi. unfold mulhi16. rewrite ln_map2 by (auto; unfold size; cbn; tauto). unfold prod, val, value_of. destruct sg; rewrite Z.shiftr_div_pow2 by lia; reflexivity.
Qed.
Lemma mullo_reg s a b : size s -> register 16 a -> register 16 b -> register 16 (mullo s a b). Proof. apply map2_reg. Qed.
Lemma mulhi_reg sg a b : register 16 a -> register 16 b -> register 16 (mulhi16 sg a b). Proof. apply map2_reg. unfold size; cbn; tauto. Qed.
Ltac sz := solve [unfold size, half_size; cbn; tauto].
Ltac rr := match goal with
  | H : register 16 ?r |- register 16 ?r => exact H
  | |- register 16 (map1 _ _ _) => apply map1_reg; [rr | in_list]
  | |- register 16 (map2 _ _ _ _) => apply map2_reg; [sz | rr | rr]
  | |- register 16 (add _ _ _) => apply map2_reg; [sz | rr | rr]
  | |- register 16 (sub _ _ _) => apply map2_reg; [sz | rr | rr]
  | |- register 16 (mullo _ _ _) => apply map2_reg; [sz | rr | rr]
  | |- register 16 (mulhi16 _ _ _) => apply map2_reg; [sz | rr | rr]
  | |- register 16 (mul_epu32 _ _) => apply map2_reg; [sz | rr | rr]
  | |- register 16 (mul_epi32 _ _) => apply map2_reg; [sz | rr | rr]
  | |- register 16 (madd _ _) => apply map2_reg; [sz | rr | rr]
  | |- register 16 (mulhrs _ _) => apply map2_reg; [sz | rr | rr]
  | |- register 16 (odd_even _ _ _ _) => apply odd_even_reg; [sz | rr | rr]
  | |- register 16 (unpacklo _ _ _) => apply unpack_reg; [rr | rr | in_list]
  | |- register 16 (unpackhi 8 _ _) => apply unpackhi8_reg; rr
  | |- register 16 (select 4 _ _) => apply select4_reg; [rr | reflexivity | cbn [In]; intros; lia]
  end.
Lemma land255 x : Z.land 0xFF x = wrap 8 x. Proof. rewrite Z.land_comm. change 0xFF with (2 ^ 8 - 1). apply land_ones'. lia. Qed.
Lemma land32 x : Z.land 0xFFFFFFFF x = wrap 32 x. Proof. rewrite Z.land_comm. change 0xFFFFFFFF with (2 ^ 32 - 1). apply land_ones'. lia. Qed.
(** from parts to the double-width lane *)
Lemma two_halves s j r p : half_size s -> register 16 r -> (j < 16 / (2 * s))%nat -> ln s (2 * j) r = wrap (bits s) p -> ln s (2 * j + 1) r = wrap (bits s) (p / 2 ^ bits s) -> ln (2 * s) j r = wrap (bits (2 * s)) p.
Proof. intros Hs R Hj E1 E2. rewrite (ln_pair s j r Hs R Hj), E1, E2, bits_dbl. apply combine_wrap. unfold bits; lia. Qed.
Lemma low_of_dbl s j r : half_size s -> register 16 r -> (j < 16 / (2 * s))%nat -> ln s (2 * j) r = wrap (bits s) (ln (2 * s) j r).
Proof. intros Hs R Hj. apply ln_even. apply R. Qed.
Lemma oddb j : Nat.odd (2 * j + 1) = true. Proof. rewrite Nat.odd_add, Nat.odd_mul. reflexivity. Qed.
Lemma evenb j : Nat.odd (2 * j) = false. Proof. rewrite Nat.odd_mul. reflexivity. Qed.
(** ** MulEven, MulOdd *)
Lemma sext8_ok x : 0 <= x -> sext8 x = wrap 16 (swrap 8 x). Proof. intros H. unfold sext8. apply (shl_shr_s 16 8); lia. Qed.
Lemma land_sign x y : 0 <= x < 2 ^ 32 -> 0 <= y < 2 ^ 32 -> Z.land (shr_s 32 31 x) y = if x <? 2 ^ 31 then 0 else y.
Proof. intros Hx Hy. pose proof (shr_s_sign 32 x ltac:(lia) Hx) as E. change (32 - 1) with 31 in E. rewrite E. destruct (x <? 2 ^ 31); [reflexivity|]. rewrite Z.land_comm, land_ones' by lia. apply Z.mod_small; auto. Qed.
Lemma epu32_ok a b j : register 16 a -> register 16 b -> (j < 2)%nat -> ln 8 j (mul_epu32 a b) = ln 4 (2 * j) a * ln 4 (2 * j) b.
Proof.
  intros Ra Rb Hj. unfold mul_epu32. rewrite ln_map2 by (auto; sz). change 8%nat with (2 * 4)%nat. change 32 with (bits 4). rewrite <- !ln_even by (try apply Ra; apply Rb). pose proof (ln_range 4 (2 * j) a (proj2 Ra)) as A. pose proof (ln_range 4 (2 * j) b (proj2 Rb)) as B.
  apply wrap_small. rewrite pow_dbl. nia.
Qed.
Lemma mul_even_ok t sg s a b j : half_size s -> register 16 a -> register 16 b -> (j < 16 / (2 * s))%nat -> ln (2 * s) j (mul_even t sg s a b) = wrap (bits (2 * s)) (prod sg s (2 * j) a b).
Proof.
  intros Hs Ra Rb Hj. pose proof (ln_range s (2 * j) a (proj2 Ra)) as Qa. pose proof (ln_range s (2 * j) b (proj2 Rb)) as Qb. unfold half_size in Hs. cbn [In] in Hs. repeat destruct Hs as [<-|Hs]; try contradiction; cbn in Hj; cbn [mul_even].
  - change (2 * 1)%nat with 2%nat. pose proof (ln_range 2 j a (proj2 Ra)) as Wa. pose proof (ln_range 2 j b (proj2 Rb)) as Wb. destruct sg.
    + rewrite (mullo_ok true) by (try rr; try sz; cbn; lia). f_equal. unfold prod, val. rewrite !ln_map1' by (auto; try sz; cbn; lia). rewrite !sext8_ok by lia. unfold value_of. change (bits 2) with 16. change (bits 1) with 8. rewrite !wrap_wrap, !swrap_wrap by lia.
      rewrite !ln_even by (try apply Ra; apply Rb). change (2 * 1)%nat with 2%nat. change (bits 1) with 8. rewrite !(swrap_wrap 8) by lia. pose proof (swrap_range 8 (ln 2 j a) ltac:(lia)) as R1. pose proof (swrap_range 8 (ln 2 j b) ltac:(lia)) as R2.
      unfold in_s in *. change (2 ^ (8 - 1)) with 128 in *. rewrite !(swrap_small 16) by (try lia; unfold in_s; change (2 ^ (16 - 1)) with 32768; lia). reflexivity.
    + rewrite (mullo_ok false) by (try rr; try sz; cbn; lia). f_equal. unfold prod, val. rewrite !ln_map1' by (auto; try sz; cbn; lia). rewrite !land255. unfold value_of. change (bits 2) with 16. rewrite !ln_even by (try apply Ra; apply Rb). change (2 * 1)%nat with 2%nat. change (bits 1) with 8.
      pose proof (wrap_range 8 (ln 2 j a) ltac:(lia)) as R1. pose proof (wrap_range 8 (ln 2 j b) ltac:(lia)) as R2. change (2 ^ 8) with 256 in *. rewrite !(wrap_small 16) by (change (2 ^ 16) with 65536; lia). reflexivity.
  - cbn zeta. apply (two_halves 2 j); [sz | rr | auto | |].
    + rewrite ln_odd_even by (try rr; try sz; cbn; lia). rewrite evenb. apply mullo_ok; auto; [sz | cbn; lia].
    + rewrite ln_odd_even by (try rr; try sz; cbn; lia). rewrite oddb. destruct (shl_even 2 j (mulhi16 sg a b)) as [_ E]; [sz | rr | auto |]. change (shl (bits (2 * 2)) (bits 2)) with (shl 32 16) in E. change (2 * 2)%nat with 4%nat in E at 1. rewrite E. apply mulhi_ok; auto; lia.
  - change (2 * 4)%nat with 8%nat. change (bits 4) with 32 in *. assert (U : ln 8 j (mul_epu32 a b) = wrap 64 (prod false 4 (2 * j) a b)).
    { rewrite epu32_ok by auto. symmetry. apply wrap_small. unfold prod, val, value_of. change (2 ^ 64) with (2 ^ 32 * 2 ^ 32). nia. }
    destruct sg; [|exact U]. assert (SE4 : ln 8 j (mul_epi32 a b) = wrap 64 (prod true 4 (2 * j) a b)).
    { unfold mul_epi32. rewrite ln_map2 by (auto; try sz; cbn; lia). change (bits 8) with 64. f_equal. unfold prod, val, value_of. rewrite !ln_even by (try apply Ra; apply Rb). change (bits 4) with 32. rewrite !(swrap_wrap 32) by lia. reflexivity. }
    assert (SE2 : ln 8 j (sub 8 (mul_epu32 a b) (map1 8 (shl 64 32) (add 4 (map2 4 Z.land (map1 4 (shr_s 32 31) a) b) (map2 4 Z.land (map1 4 (shr_s 32 31) b) a)))) = wrap 64 (prod true 4 (2 * j) a b)).
    { set (A := add 4 _ _). assert (RA : register 16 A) by (unfold A; rr). unfold sub. rewrite ln_map2 by (try rr; try sz; cbn; lia). rewrite U. destruct (shl_even 4 j A) as [E0 E1]; [sz | rr | auto |]. change (shl (bits (2 * 4)) (bits 4)) with (shl 64 32) in *.
      assert (EP : ln 8 j (map1 8 (shl 64 32) A) = 2 ^ 32 * ln 4 (2 * j) A). { change 8%nat with (2 * 4)%nat at 1. rewrite (ln_pair 4) by (try rr; try sz; cbn; lia). change (2 * 4)%nat with 8%nat in *. rewrite E0, E1. change (bits 4) with 32. lia. }
      rewrite EP. unfold A, add. rewrite ln_map2 by (try rr; try sz; cbn; lia). rewrite !ln_map2 by (try rr; try sz; cbn; lia). rewrite !ln_map1' by (try rr; try sz; cbn; lia). change (bits 4) with 32. change (bits 8) with 64.
      assert (SR : forall x, 0 <= shr_s 32 31 x < 2 ^ 32) by (intros; apply wrap_range; lia). rewrite !(wrap_small 32 (shr_s _ _ _)) by auto. rewrite !land_sign by auto.
      set (u := ln 4 (2 * j) a) in *. set (v := ln 4 (2 * j) b) in *. unfold prod. rewrite !val_s by (auto; sz). fold u. fold v. unfold val, value_of. fold u. fold v. change (bits 4) with 32. change (32 - 1) with 31.
      set (A1 := if u <? 2 ^ 31 then 0 else v). set (B1 := if v <? 2 ^ 31 then 0 else u).
      assert (W : wrap 32 (wrap 32 A1 + wrap 32 B1) = wrap 32 (A1 + B1)) by (rewrite wrap_add_l, wrap_add_r; reflexivity). rewrite W.
      assert (D : exists k, A1 + B1 = wrap 32 (A1 + B1) + 2 ^ 32 * k). { exists ((A1 + B1) / 2 ^ 32). unfold wrap. pose proof (Z.div_mod (A1 + B1) (2 ^ 32) ltac:(lia)). lia. } destruct D as [k D]. set (m := wrap 32 (A1 + B1)) in *. clearbody m.
      rewrite wrap_sub_l. unfold A1, B1 in D. change (2 ^ 64) with (2 ^ 32 * 2 ^ 32). clear - D. apply (wrap_cong 64 _ _ (k - (if u <? 2 ^ 31 then 0 else 1) * (if v <? 2 ^ 31 then 0 else 1))); [lia|]. change (2 ^ 64) with (2 ^ 32 * 2 ^ 32). destruct (u <? 2 ^ 31), (v <? 2 ^ 31); nia. }
    destruct t; assumption.
Qed.
Lemma mul_even_reg t sg s a b : half_size s -> register 16 a -> register 16 b -> register 16 (mul_even t sg s a b).
Proof. intros Hs Ra Rb. unfold half_size in Hs. cbn [In] in Hs. repeat destruct Hs as [<-|Hs]; try contradiction; cbn [mul_even]; cbn zeta; destruct sg; try destruct t; rr. Qed.
Lemma mul_odd_ok t sg s a b j : half_size s -> register 16 a -> register 16 b -> (j < 16 / (2 * s))%nat -> ln (2 * s) j (mul_odd t sg s a b) = wrap (bits (2 * s)) (prod sg s (2 * j + 1) a b).
Proof.
  intros Hs Ra Rb Hj. pose proof (ln_range s (2 * j + 1) a (proj2 Ra)) as Qa. pose proof (ln_range s (2 * j + 1) b (proj2 Rb)) as Qb. pose proof (ln_range s (2 * j) a (proj2 Ra)) as Q'a. pose proof (ln_range s (2 * j) b (proj2 Rb)) as Q'b.
  unfold half_size in Hs. cbn [In] in Hs. repeat destruct Hs as [<-|Hs]; try contradiction; cbn in Hj; cbn [mul_odd].
  - change (2 * 1)%nat with 2%nat. cbn zeta. rewrite (mullo_ok sg) by (try rr; try sz; cbn; lia). f_equal. unfold prod. assert (V : forall r, register 16 r -> val sg 2 j (map1 2 (if sg then shr_s 16 8 else shr_u 8) r) = val sg 1 (2 * j + 1) r); [|rewrite !V by auto; reflexivity].
    intros r R. pose proof (ln_range 1 (2 * j + 1) r (proj2 R)) as R1. pose proof (ln_range 1 (2 * j) r (proj2 R)) as R0. unfold val. rewrite ln_map1' by (auto; try sz; cbn; lia). change (ln 2 j r) with (ln (2 * 1) j r). rewrite (ln_pair 1) by (auto; try sz; cbn; lia).
    change (bits 2) with 16. change (bits 1) with 8 in *. unfold value_of. destruct sg.
    + change (bits 2) with 16. change (bits 1) with 8. rewrite swrap_wrap by lia. apply (shr_high 16 8); try lia.
    + unfold shr_u. rewrite Z.shiftr_div_pow2 by lia. rewrite Z.mul_comm, Z.div_add by lia. rewrite Z.div_small by lia. apply wrap_small. change (2 ^ 8) with 256 in *. change (2 ^ 16) with 65536. lia.
  - cbn zeta. apply (two_halves 2 j); [sz | rr | auto | |].
    + rewrite ln_odd_even by (try rr; try sz; cbn; lia). rewrite evenb. destruct (shr_even 2 j (mullo 2 a b)) as [E _]; [sz | rr | auto |]. change (bits 2) with 16 in E. change (2 * 2)%nat with 4%nat in E at 1. rewrite E. apply mullo_ok; auto; [sz | cbn; lia].
    + rewrite ln_odd_even by (try rr; try sz; cbn; lia). rewrite oddb. apply mulhi_ok; auto; lia.
  - rewrite mul_even_ok; [|sz | unfold dup_odd; rr | unfold dup_odd; rr | auto]. f_equal. unfold prod, val. assert (E : (2 * (2 * j / 2) + 1 = 2 * j + 1)%nat) by (rewrite (Nat.mul_comm 2 j), Nat.div_mul by lia; lia).
    assert (C : cfg 4 4) by (unfold cfg, lane_count; repeat split; first [sz | cbn; tauto | cbn; lia]). rewrite (ln_dup_odd t 4 4 (2 * j) a C), (ln_dup_odd t 4 4 (2 * j) b C) by (auto; lia). rewrite E. reflexivity.
Qed.
Lemma mul_odd_reg t sg s a b : half_size s -> register 16 a -> register 16 b -> register 16 (mul_odd t sg s a b).
Proof. intros Hs Ra Rb. unfold half_size in Hs. cbn [In] in Hs. repeat destruct Hs as [<-|Hs]; try contradiction; cbn [mul_odd]; cbn zeta; try (destruct sg; rr). apply mul_even_reg; [sz | unfold dup_odd; rr | unfold dup_odd; rr]. Qed.
