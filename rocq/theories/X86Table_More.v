(** Table lookups on x86: masks, and the API. *)
From Coq Require Import ZArith List Bool Lia Arith.
From Verif Require Import Word Word_Proofs Float_Conv X86Int_Spec X86Int_Model X86Int_Proofs X86Int_Lane X86Int_Sel X86Int_Main X86Int_Two X86Mul_Model Properties_X86Int X86Mul_Move X86Slide_Model X86Slide_Proofs X86Slide_More X86Slide_Perm X86Table_Model X86Table_Proofs.
Import ListNotations.
Open Scope Z_scope.
Arguments Z.pow : simpl never.
Arguments Z.mul : simpl never.
Arguments Z.add : simpl never.
Arguments Z.of_nat : simpl never.
Lemma size1 : size 1. Proof. unfold size; cbn; tauto. Qed.
Lemma size2 : size 2. Proof. unfold size; cbn; tauto. Qed.
Lemma size4 : size 4. Proof. unfold size; cbn; tauto. Qed.
Lemma size8 : size 8. Proof. unfold size; cbn; tauto. Qed.
Definition full (w : Z) (c : bool) : Z := if c then 2 ^ w - 1 else 0.
Lemma ln_blendv k m y n i : size k -> register 16 m -> register 16 y -> register 16 n -> (i < 16 / k)%nat ->
  ln k i (blendv k m y n) = if Z.testbit (ln k i m) (bits k - 1) then ln k i y else ln k i n.
Proof.
  intros Hk [Lm Bm] [Ly By] [Ln Bn] Hi. unfold blendv. assert (L : length (combine (lanes k m) (combine (lanes k y) (lanes k n))) = (16 / k)%nat) by (rewrite !List.combine_length, !lanes_length, Lm, Ly, Ln; lia).
  rewrite ln_of_lanes by (rewrite map_length, L; auto). rewrite (nth_map' _ _ i (0, (0, 0))) by (rewrite L; auto). rewrite !combine_nth by (rewrite ?List.combine_length, !lanes_length, ?Lm, ?Ly, ?Ln; lia). cbn [fst snd].
  rewrite !nth_lanes by (rewrite ?Lm, ?Ly, ?Ln; auto). destruct (Z.testbit _ _); apply wrap_small; apply ln_range; auto.
Qed.
Lemma blendv_reg k m y n : size k -> register 16 m -> register 16 y -> register 16 n -> register 16 (blendv k m y n).
Proof.
  intros Hk [Lm _] [Ly _] [Ln _]. split; [|apply of_lanes_byte]. unfold blendv. rewrite of_lanes_length, map_length, !List.combine_length, !lanes_length, Lm, Ly, Ln. sizes4 Hk; reflexivity.
Qed.
(** byte by byte: before SSE4 the mask must be all ones or zero, then its sign bit suffices *)
Definition selects (t : target) (b : Z) (c : bool) : Prop := match t with SSE4 => 0 <= b < 256 /\ Z.testbit b 7 = c | _ => b = full 8 c end.
Lemma ite_reg t k m y n : size k -> register 16 m -> register 16 y -> register 16 n -> register 16 (if_then_else t k m y n).
Proof.
  intros Hk Rm Ry Rn. unfold if_then_else. destruct t; try (apply blendv_reg; auto).
  - pose proof (map2_reg 1 Z.land m y size1 Rm Ry) as [L1 B1]. pose proof (map2_reg 1 andnot m n size1 Rm Rn) as [L2 B2]. split; [rewrite or_length; congruence | apply or_bytes_byte; auto].
  - pose proof (map2_reg 1 Z.land m y size1 Rm Ry) as [L1 B1]. pose proof (map2_reg 1 andnot m n size1 Rm Rn) as [L2 B2]. split; [rewrite or_length; congruence | apply or_bytes_byte; auto].
Qed.
Lemma and_or_mask b x y : 0 <= x < 256 -> 0 <= y < 256 -> Z.lor (wrap 8 (Z.land (full 8 b) x)) (wrap 8 (andnot (full 8 b) y)) = if b then x else y.
Proof.
  intros Hx Hy. unfold andnot, full. destruct b.
  - rewrite (Z.land_comm _ x), land_ones' by lia. rewrite (Z.mod_small x) by (change (2 ^ 8) with 256; lia). rewrite wrap_small by (change (2 ^ 8) with 256; lia).
    assert (wrap 8 (Z.land (Z.lnot (2 ^ 8 - 1)) y) = 0) as ->; [|apply Z.lor_0_r]. assert (Z.land (Z.lnot (2 ^ 8 - 1)) y = 0) as ->; [|reflexivity]. rewrite Z.land_comm, <- Z.ldiff_land.
    apply Z.bits_inj'. intros j Hj. rewrite Z.ldiff_spec, Z.bits_0. change (2 ^ 8 - 1) with (Z.ones 8). destruct (Z.ltb_spec j 8); [rewrite Z.ones_spec_low by lia; apply andb_false_r|]. rewrite <- (Z.mod_small y (2 ^ 8)) by (change (2 ^ 8) with 256; lia). rewrite Z.mod_pow2_bits_high by lia. reflexivity.
  - rewrite Z.land_0_l. change (wrap 8 0) with 0. rewrite Z.lor_0_l. change (Z.lnot 0) with (-1). rewrite Z.land_m1_l. apply wrap_small. change (2 ^ 8) with 256. lia.
Qed.
Lemma nth_ite t m y n p c : register 16 m -> register 16 y -> register 16 n -> (p < 16)%nat -> selects t (nth p m 0) c -> nth p (if_then_else t 1 m y n) 0 = if c then nth p y 0 else nth p n 0.
Proof.
  intros Rm Ry Rn Hp H. pose proof (ite_reg t 1 m y n size1 Rm Ry Rn) as R. assert (A : t <> SSE4 -> nth p (or_bytes (map2 1 Z.land m y) (map2 1 andnot m n)) 0 = if c then nth p y 0 else nth p n 0).
  { intros T. assert (E : nth p m 0 = full 8 c) by (destruct t; auto; congruence). rewrite nth_or by (rewrite (proj1 (map2_reg 1 Z.land m y size1 Rm Ry)), (proj1 (map2_reg 1 andnot m n size1 Rm Rn)); reflexivity).
    rewrite !nth_map2_1 by auto. rewrite E. apply and_or_mask; apply nth_byte; [apply Ry | apply Rn]. }
  destruct t; try (apply A; discriminate). cbn [if_then_else] in *. destruct H as [_ H]. rewrite <- ln1 by (rewrite (proj1 R); auto). rewrite ln_blendv; auto; [|apply size1]. rewrite (ln1 p m) by (rewrite (proj1 Rm); auto).
  change (bits 1 - 1) with 7. rewrite H. destruct c; apply ln1; [rewrite (proj1 Ry) | rewrite (proj1 Rn)]; auto.
Qed.
Lemma selects_full t c : selects t (full 8 c) c. Proof. destruct t, c; cbn; try reflexivity; split; try reflexivity; lia. Qed.
Lemma full_bytes s i m c q : size s -> register 16 m -> (i < 16 / s)%nat -> (q < s)%nat -> ln s i m = full (bits s) c -> nth (i * s + q) m 0 = full 8 c.
Proof.
  intros Hs [L B] Hi Hq E. rewrite <- nth_lane_bytes by auto. assert (LL : length (lane_bytes s i m) = s) by (unfold lane_bytes; rewrite firstn_length, skipn_length, L; sizes4 Hs; cbn in Hi; lia).
  assert (F : lane_bytes s i m = bytes s (full (bits s) c)) by (rewrite <- E; unfold ln; rewrite <- LL at 2; symmetry; apply bytes_le; apply lane_bytes_byte; auto). rewrite F. clear - Hs Hq. sizes4 Hs; destruct c; do 8 (try (destruct q as [|q]; [vm_compute; reflexivity|])); lia.
Qed.
Lemma ite_lane t s i m y n c : size s -> register 16 m -> register 16 y -> register 16 n -> (i < 16 / s)%nat -> ln s i m = full (bits s) c -> ln s i (if_then_else t 1 m y n) = if c then ln s i y else ln s i n.
Proof.
  intros Hs Rm Ry Rn Hi E. assert (P : forall q, (q < s)%nat -> (i * s + q < 16)%nat) by (intros q Hq; sizes4 Hs; cbn in Hi; lia).
  assert (N : forall q, (q < s)%nat -> nth (i * s + q) (if_then_else t 1 m y n) 0 = if c then nth (i * s + q) y 0 else nth (i * s + q) n 0).
  { intros q Hq. apply nth_ite; auto. rewrite (full_bytes s i m c q) by auto. apply selects_full. }
  destruct c; rewrite <- !lvu; apply lane_ext; intros q Hq; apply N; auto.
Qed.
(** ** one table of [m] lanes *)
Lemma swap64 i v : (i < 2)%nat -> length v = 16%nat -> ln 8 i (select 4 [2; 3; 0; 1]%nat v) = ln 8 (1 - i) v.
Proof. intros Hi L. dreg v L. cases_lt i. Qed.
Lemma ln_add8 a b i : register 16 a -> register 16 b -> (i < 2)%nat -> ln 8 i (add 8 a b) = wrap 64 (ln 8 i a + ln 8 i b).
Proof. intros. apply ln_map2; auto. apply size8. Qed.
Definition config (t : target) (avx2 : bool) : Prop := avx2 = true -> t = SSE4.
Lemma const64 x y : 0 <= x < 256 -> 0 <= y < 256 -> register 16 (of_lanes 8 [x; y]) /\ ln 8 0 (of_lanes 8 [x; y]) = x /\ ln 8 1 (of_lanes 8 [x; y]) = y.
Proof. intros Hx Hy. split; [split; [reflexivity | apply of_lanes_byte]|]. split; (rewrite ln_of_lanes by (cbn; lia); apply wrap_small; change (2 ^ bits 8) with 18446744073709551616; cbn [nth]; lia). Qed.
Lemma select4_ok idx v : length idx = 4%nat -> (forall j, In j idx -> (j < 4)%nat) -> register 16 v -> register 16 (select 4 idx v). Proof. intros. apply select4_reg; auto. Qed.
Lemma lookup64 t avx2 v idx i : config t avx2 -> register 16 v -> register 16 idx -> (i < 2)%nat -> 0 <= ln 8 i idx < 2 -> ln 8 i (table_lookup t avx2 8 2 v idx) = ln 8 (Z.to_nat (ln 8 i idx)) v.
Proof.
  intros C Rv Ri Hi X. unfold table_lookup. cbn [Nat.eqb]. destruct avx2.
  - pose proof (map2_reg 8 Z.add idx idx size8 Ri Ri) as [L B]. pose proof Rv as [Lv Bv]. unfold permutevar_pd, add. rewrite ln_of_lanes by (rewrite map_length, lanes_length, L; exact Hi). rewrite (nth_map' _ _ i 0) by (rewrite lanes_length, L; exact Hi).
    rewrite (nth_lanes 8 (map2 8 Z.add idx idx)) by (rewrite L; exact Hi). rewrite ln_map2 by (auto; apply size8). assert (E : ln 8 i idx = 0 \/ ln 8 i idx = 1) by lia.
    destruct E as [E|E]; rewrite E; [change (Z.testbit (wrap (bits 8) (0 + 0)) 1) with false | change (Z.testbit (wrap (bits 8) (1 + 1)) 1) with true]; cbv iota; (rewrite nth_lanes by (rewrite Lv; cbn; lia)); apply wrap_small; apply ln_range; auto.
  - destruct (const64 0 1 ltac:(lia) ltac:(lia)) as (R0 & A0 & A1). destruct (const64 1 1 ltac:(lia) ltac:(lia)) as (R1 & B0 & B1).
    pose proof (map2_reg 8 Z.lxor idx _ size8 Ri R0) as Rx. pose proof (map2_reg 8 Z.sub _ _ size8 Rx R1) as Rs.
    assert (M : ln 8 i (sub 8 (map2 8 Z.lxor idx (of_lanes 8 [0; 1])) (of_lanes 8 [1; 1])) = full (bits 8) (ln 8 i idx =? Z.of_nat i)).
    { unfold sub. rewrite !ln_map2 by (auto; apply size8). assert (E : ln 8 i idx = 0 \/ ln 8 i idx = 1) by lia. destruct i as [|[|i]]; [rewrite A0, B0 | rewrite A1, B1 | lia]; destruct E as [E|E]; rewrite E; reflexivity. }
    assert (Rw : register 16 (select 4 [2; 3; 0; 1]%nat v)) by (apply select4_ok; auto; cbn [In]; intros; lia). cbv zeta. rewrite (ite_lane t 8 i (sub 8 (map2 8 Z.lxor idx (of_lanes 8 [0; 1])) (of_lanes 8 [1; 1])) v (select 4 [2; 3; 0; 1]%nat v) _ size8 Rs Rv Rw Hi M). rewrite swap64 by (auto; apply Rv).
    destruct (Z.eqb_spec (ln 8 i idx) (Z.of_nat i)) as [E|E]; [rewrite E, Nat2Z.id; reflexivity|]. f_equal. lia.
Qed.
Lemma ind_reg t avx2 s n vec : cfg s n -> register 16 vec -> register 16 (indices_from_vec t avx2 s n vec).
Proof.
  intros (Hs & Hn & H) R. assert (T : forall s, wide s -> (n * s <= 16)%nat -> register 16 (to_byte_indices t s n vec)).
  { intros s' Hw H'. apply map2_reg; [apply size1| |].
    - apply map1_reg; [|apply size2]. apply table_reg; auto. apply load_len; auto.
    - apply small_reg; [apply load_len; auto|]. intros p Hp. rewrite nth_load. destruct (p <? n * s')%nat; [|lia]. rewrite nth_offsets by auto. pose proof (Nat.mod_upper_bound p s' ltac:(destruct Hw; lia)). destruct Hw; subst s'; lia. }
  sizes4 Hs; cbn [indices_from_vec]; try exact R; [assert (W : wide 2) by (left; auto) | assert (W : wide 4) by (right; auto)]; destruct t; try exact R; try destruct avx2; try exact R; apply T; auto.
Qed.
Lemma lookup_ok t avx2 s n m v vec i : config t avx2 -> cfg s n -> cfg s m -> (1 < m)%nat -> (n <= m)%nat -> register 16 v -> register 16 vec -> (forall j, (j < n)%nat -> ln s j vec < Z.of_nat m) -> (i < n)%nat ->
  ln s i (table_lookup t avx2 s m v (indices_from_vec t avx2 s n vec)) = ln s (Z.to_nat (ln s i vec)) v.
Proof.
  intros C Hn Hm M1 NM Rv Rx X Hi. pose proof (ind_reg t avx2 s n vec Hn Rx) as Ri. pose proof (cfg_lane s n i Hn Hi) as I. pose proof (ln_range s i vec (proj2 Rx)) as X0. pose proof (X i Hi) as Xi. destruct Hn as (Hs & Cn & Sn). destruct Hm as (_ & Cm & Sm).
  assert (G : forall s', s' = s -> (s = 2 \/ s = 4)%nat -> ln s i (gather s' v vec) = ln s (Z.to_nat (ln s i vec)) v).
  { intros s' -> S24. apply ln_gather; auto. assert (Z.of_nat m <= Z.of_nat (16 / s)); [|lia]. apply inj_le. apply Nat.div_le_lower_bound; lia. }
  assert (W : forall s', s' = s -> wide s -> ln s i (table_bytes t v (to_byte_indices t s' n vec)) = ln s (Z.to_nat (ln s i vec)) v).
  { intros s' -> Hw. assert (Y : forall j, (j < n)%nat -> ln s j vec < 32 / Z.of_nat s) by (intros j Hj; specialize (X j Hj); destruct Hw as [E|E]; subst s; [change (32 / Z.of_nat 2) with 16 | change (32 / Z.of_nat 4) with 8]; lia).
    assert (Q : forall q, (q < s)%nat -> nth (i * s + q) (to_byte_indices t s n vec) 0 = ln s i vec * Z.of_nat s + Z.of_nat q) by (intros q Hq; apply (to_byte_ok t s n vec i q); auto).
    destruct (to_byte_ok t s n vec i 0 Hw Cn Sn Rx Y Hi ltac:(destruct Hw; lia)) as [_ L]. apply (lane_by_bytes s i (ln s i vec) v _ (to_byte_indices t s n vec) t); auto; try lia; [destruct Hw; lia | | ].
    - destruct Hw; subst s; cbn in I; lia.
    - destruct Hw; subst s; lia. }
  unfold table_lookup. destruct (Nat.eqb_spec m 1); [lia|]. sizes4 Hs; cbn [indices_from_vec] in *.
  - change (16 / 1)%nat with 16%nat in I. apply (lane_by_bytes 1 i (ln 1 i vec) v _ vec t); auto; try lia; [apply Rx |]. intros q Hq. assert (q = 0%nat) as -> by lia. rewrite ln1 by (rewrite (proj1 Rx); cbn in I; lia). rewrite Nat.mul_1_r, Nat.add_0_r. lia.
  - destruct t; [apply G; auto | apply W; auto; left; auto | apply W; auto; left; auto].
  - destruct t; [apply G; auto | |]; destruct avx2; try (specialize (C eq_refl); discriminate); first [apply G; solve [auto] | apply W; auto; right; auto].
  - assert (m = 2)%nat as -> by lia. apply (lookup64 t avx2 v vec i C Rv Rx I). lia.
Qed.
