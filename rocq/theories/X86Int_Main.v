(** Integer conversions on x86, 128-bit vectors. *)
From Coq Require Import ZArith List Bool Lia Arith.
From Verif Require Import Word Word_Proofs X86Int_Spec X86Int_Model X86Int_Proofs X86Int_Lane X86Int_Sel.
Import ListNotations.
Open Scope Z_scope.
Arguments Z.pow : simpl never.
Arguments Z.mul : simpl never.
Arguments Z.add : simpl never.
Arguments Z.of_nat : simpl never.
(** ** results are registers *)
Lemma pack_reg s sg a b : register 16 a -> register 16 b -> In s [2; 4]%nat -> register 16 (pack s sg a b).
Proof. intros [La _] [Lb _] H. split; [apply pack_16; auto | apply pack_byte]. Qed.
Lemma combine_reg h a b : register 16 a -> register 16 b -> In h [1; 2; 4; 8]%nat -> register 16 (combine_halves h b a).
Proof. intros [La Ba] [Lb Bb] H. split; [apply combine_length; auto | apply combine_byte; auto]. Qed.
Lemma unpack_reg s a b : register 16 a -> register 16 b -> In s [1; 2; 4; 8]%nat -> register 16 (unpacklo s a b).
Proof. intros. apply (combine_reg s a b); auto. Qed.
Lemma unpackhi8_reg a b : register 16 a -> register 16 b -> register 16 (unpackhi 8 a b).
Proof. intros [La Ba] [Lb Bb]. split; [dreg a La; dreg b Lb; reflexivity|]. apply flat_byte. intros. apply Forall_app; split; apply lane_bytes_byte; auto. Qed.
Lemma select4_reg l r : register 16 r -> length l = 4%nat -> (forall i, In i l -> i < 4)%nat -> register 16 (select 4 l r).
Proof.
  intros [L B] Hl Hi. split; [|apply select_byte; auto]. assert (E : forall i, (i < 4)%nat -> length (lane_bytes 4 i r) = 4%nat). { intros i H. unfold lane_bytes. rewrite firstn_length, skipn_length, L. lia. }
  do 4 (destruct l as [|? l]; [discriminate|]). destruct l; [|discriminate]. unfold select. cbn [flat_map]. rewrite !app_length. rewrite !E by (apply Hi; cbn; tauto). reflexivity.
Qed.
Lemma pshufb_reg r idx : register 16 r -> length idx = 16%nat -> register 16 (pshufb r idx).
Proof. intros [L B] H. split; [unfold pshufb; rewrite map_length; auto | apply pshufb_byte; auto]. Qed.
Lemma load_length nb l : (nb <= length l)%nat -> (nb <= 16)%nat -> length (load nb l) = 16%nat.
Proof. intros. unfold load. rewrite app_length, firstn_length, repeat_length. lia. Qed.
Ltac in_list := cbn [In]; tauto.
Ltac rg := match goal with
  | H : register 16 ?r |- register 16 ?r => exact H
  | |- register 16 (map1 _ _ _) => apply map1_reg; [rg | in_list]
  | |- register 16 (pack _ _ _ _) => apply pack_reg; [rg | rg | in_list]
  | |- register 16 (combine_halves _ _ _) => apply combine_reg; [rg | rg | in_list]
  | |- register 16 (unpacklo _ _ _) => apply unpack_reg; [rg | rg | in_list]
  | |- register 16 (unpackhi 8 _ _) => apply unpackhi8_reg; rg
  | |- register 16 (select 4 _ _) => apply select4_reg; [rg | reflexivity | cbn [In]; intros; lia]
  | |- register 16 (pshufb _ _) => apply pshufb_reg; [rg | try reflexivity; apply load_length; cbn; lia]
  end.
(** ** TruncateTo *)
Lemma trunc_lane s s' i j v R : Forall byte v -> lane_bytes s' j R = firstn s' (lane_bytes s i v) -> ln s' j R = wrap (bits s') (ln s i v).
Proof. intros B E. unfold ln. rewrite E. apply le_firstn. apply lane_bytes_byte; auto. Qed.
Lemma ln_i32_8 sg v i : register 16 v -> (i < 4)%nat -> ln 1 i (demote_i32_8 sg v) = wrap 8 (sat sg 8 (swrap 16 (wrap 16 (sat true 16 (swrap 32 (ln 4 i v)))))).
Proof. intros R Hi. pose proof R as [L B]. unfold demote_i32_8. cbn zeta. rewrite ln_pack2_lo by (len || lia). rewrite ln_pack4_lo by (len || lia). reflexivity. Qed.
Lemma truncate_ok t s s' n v i : narrower s s' -> lane_count n -> (n * s <= 16)%nat -> register 16 v -> (i < n)%nat -> ln s' i (truncate_to t s s' n v) = wrap (bits s') (ln s i v).
Proof.
  intros Hs Hn Hb R Hi. pose proof R as [L B]. unfold truncate_to. destruct (Nat.eqb_spec n 1) as [->|N1].
  { assert (i = 0)%nat by lia. subst i. apply trunc_lane; auto. unfold lane_bytes. rewrite firstn_firstn. cbn [Nat.mul]. f_equal. unfold narrower in Hs. enum Hs Hi; reflexivity. }
  assert (N : In n [2; 4; 8]%nat) by (cbn in Hn; assert (s >= 2)%nat by (unfold narrower in Hs; enum Hs Hi; lia); cbn; lia). clear Hn.
  assert (E2 : forall m, wrap 16 (sat true 16 (swrap 32 (wrap 32 (shr_s 32 16 (shl 32 16 (ln 4 m v)))))) = wrap 16 (ln 4 m v)) by (intros m; apply (low_half_packs 2); [lia | apply ln_range; auto]).
  assert (E1 : forall m, wrap 8 (sat true 8 (swrap 16 (wrap 16 (shr_s 16 8 (shl 16 8 (ln 2 m v)))))) = wrap 8 (ln 2 m v)) by (intros m; apply (low_half_packs 1); [lia | apply ln_range; auto]).
  assert (T : t = SSE2 \/ t <> SSE2) by (destruct t; [left|right|right]; congruence). destruct T as [-> | T].
  - unfold narrower in Hs. enum Hs Hi.
    + unfold demote_i16_8. rewrite ln_pack2_lo by (len || lia). rewrite ln_map1_16 by (auto; cbn; tauto || lia). apply E1.
    + rewrite ln_i32_8 by (try rg; lia). rewrite ln_map1_16 by (auto; cbn; tauto || lia). unfold shr_u, shl. pose proof (ln_range 4 i v B) as RR. set (x := ln 4 i v) in *. clearbody x. change (bits 4) with 32 in *. change (bits 1) with 8.
      rewrite Z.shiftr_div_pow2, Z.shiftl_mul_pow2 by lia. assert (Q : wrap 32 (x * 2 ^ 24) / 2 ^ 24 = wrap 8 x). { unfold wrap. change (2 ^ 32) with (2 ^ 8 * 2 ^ 24). rewrite Z.mul_mod_distr_r by lia. apply Z.div_mul. lia. }
      rewrite Q. pose proof (wrap_range 8 x ltac:(lia)) as W. set (y := wrap 8 x) in *. clearbody y. clear - W. change (2 ^ 8) with 256 in W. rewrite (wrap_small 32 y) by (change (2 ^ 32) with 4294967296; lia). rewrite (swrap_small 32 y) by (try lia; unfold in_s; change (2 ^ (32 - 1)) with 2147483648; lia).
      assert (S1 : sat true 16 y = y). { unfold sat. change (2 ^ (16 - 1)) with 32768. destruct (Z.ltb_spec y (-(32768))); [lia|]. destruct (Z.ltb_spec (32768 - 1) y); lia. }
      rewrite S1. rewrite (wrap_small 16 y) by (change (2 ^ 16) with 65536; lia). rewrite (swrap_small 16 y) by (try lia; unfold in_s; change (2 ^ (16 - 1)) with 32768; lia).
      unfold sat. change (2 ^ 8) with 256. destruct (Z.ltb_spec y 0); [lia|]. destruct (Z.ltb_spec (256 - 1) y); [lia|]. apply wrap_small. change (2 ^ 8) with 256. lia.
    + unfold demote_i32_i16. rewrite ln_pack4_lo by (len || lia). rewrite ln_map1_16 by (auto; cbn; tauto || lia). apply E2.
    + assert (n = 2)%nat by lia. subst n. apply trunc_lane; auto. clear - L Hi. dreg v L. cases_lt i.
    + assert (n = 2)%nat by lia. subst n. apply trunc_lane; auto. clear - L Hi. dreg v L. cases_lt i.
    + assert (n = 2)%nat by lia. subst n. apply trunc_lane; auto. clear - L Hi. dreg v L. cases_lt i.
  - unfold narrower in Hs. enum Hs Hi.
    + replace (ln 1 i _) with (ln 1 i (concat_even t (2 * n) 1 v v)) by (destruct t; [congruence|reflexivity|reflexivity]). assert (Hc : concat_config (2 * n) 1) by (cbn in N; repeat destruct N as [<-|N]; try contradiction; unfold concat_config; cbn; tauto).
      assert (Hd : (2 * n / 1 = 2 * n)%nat) by apply Nat.div_1_r. rewrite concat_even_ok by (auto; rewrite Hd; lia). unfold pick2. rewrite Hd, Nat.mul_comm, Nat.div_mul by lia. destruct (Nat.ltb_spec i n); [|lia]. apply (ln_even 1); auto.
    + replace (ln 1 i _) with (ln 1 i (pshufb v (load (4 * n) [0; 4; 8; 12; 0; 4; 8; 12; 0; 4; 8; 12; 0; 4; 8; 12]))) by (destruct t; [congruence|reflexivity|reflexivity]).
      apply trunc_lane; auto. clear - L Hi N Hb. dreg v L. cbn in N. repeat destruct N as [<-|N]; try contradiction; try lia; cases_lt i.
    + replace (ln 2 i _) with (ln 2 i (concat_even t (4 * n) 2 v v)) by (destruct t; [congruence|reflexivity|reflexivity]). assert (N2 : In n [2; 4]%nat) by (cbn in *; lia). assert (Hc : concat_config (4 * n) 2) by (cbn in N2; repeat destruct N2 as [<-|N2]; try contradiction; unfold concat_config; cbn; tauto).
      assert (Hd : (4 * n / 2 = 2 * n)%nat) by (replace (4 * n)%nat with (2 * n * 2)%nat by lia; apply Nat.div_mul; lia). rewrite concat_even_ok by (auto; rewrite Hd; lia). unfold pick2. rewrite Hd, Nat.mul_comm, Nat.div_mul by lia. destruct (Nat.ltb_spec i n); [|lia]. apply (ln_even 2); auto.
    + assert (n = 2)%nat by lia. subst n. apply trunc_lane; auto. clear - L Hi T. dreg v L. destruct t; [congruence| |]; cases_lt i.
    + assert (n = 2)%nat by lia. subst n. apply trunc_lane; auto. clear - L Hi T. dreg v L. destruct t; [congruence| |]; cases_lt i.
    + assert (n = 2)%nat by lia. subst n. apply trunc_lane; auto. clear - L Hi. dreg v L. cases_lt i.
Qed.
(** ** DemoteTo *)
Lemma closest_trans sg y : closest sg 1 (closest true 2 y) = closest sg 1 y.
Proof.
  unfold closest, lowest_value, highest_value. change (8 * Z.of_nat 1) with 8. change (8 * Z.of_nat 2) with 16. change (16 - 1) with 15. change (8 - 1) with 7.
  change (2 ^ 15) with 32768. change (2 ^ 7) with 128. change (2 ^ 8) with 256. destruct sg; lia.
Qed.
(** by PACK* only *)
Definition pk (s : nat) (sg' : bool) (s' : nat) (v : reg) : reg := match s, s' with 4, 2 => pack 4 sg' v v | 4, _ => demote_i32_8 sg' v | _, _ => demote_i16_8 sg' v end%nat.
Lemma pk_ok s sg' s' v i : narrower s s' -> (s < 8)%nat -> register 16 v -> (i < 16 / s)%nat -> ln s' i (pk s sg' s' v) = wrap (bits s') (closest sg' s' (swrap (bits s) (ln s i v))).
Proof.
  intros Hs H8 R Hi. pose proof R as [L B]. unfold narrower in Hs. enum Hs Hi; try lia.
  - cbn [pk]. unfold demote_i16_8. rewrite ln_pack2_lo by (len || lia). rewrite (sat_closest sg' 1) by lia. reflexivity.
  - cbn [pk]. rewrite ln_i32_8 by (auto; lia). rewrite (sat_closest true 2) by lia. rewrite swrap_wrap by lia. rewrite (swrap_small 16) by (try lia; apply (closest_fits true 2); lia).
    rewrite (sat_closest sg' 1) by lia. rewrite closest_trans. reflexivity.
  - cbn [pk]. rewrite ln_pack4_lo by (len || lia). rewrite (sat_closest sg' 2) by lia. reflexivity.
Qed.
Lemma pk_reg s sg' s' v : narrower s s' -> (s < 8)%nat -> register 16 v -> register 16 (pk s sg' s' v).
Proof. intros Hs H8 R. unfold narrower in Hs. enum Hs H8; try lia; cbn [pk]; unfold demote_i16_8, demote_i32_8; cbn zeta; rg. Qed.
Lemma demote_signed_pk s s' v : demote_signed s s' v = pk s true s' v.
Proof. unfold demote_signed, pk, demote_i32_i16. reflexivity. Qed.
Lemma low16_ok t n v i : lane_count n -> (n * 4 <= 16)%nat -> register 16 v -> (i < n)%nat -> ln 2 i (low16 t n v) = wrap 16 (ln 4 i v).
Proof.
  intros Hn Hb R Hi. pose proof R as [L B]. assert (T : t = SSE2 \/ t <> SSE2) by (destruct t; [left|right|right]; congruence). destruct T as [-> | T].
  - unfold low16, demote_i32_i16. rewrite ln_pack4_lo by (len || lia). rewrite ln_map1_16 by (auto; cbn; tauto || lia). apply (low_half_packs 2); [lia | apply ln_range; auto].
  - replace (low16 t n v) with (pshufb v (load (4 * n) kLower2Bytes)) by (destruct t; [congruence|reflexivity|reflexivity]). apply (trunc_lane 4 2); auto. clear - L Hi Hn Hb. dreg v L. cbn in Hn. repeat destruct Hn as [<-|Hn]; try contradiction; try lia; cases_lt i.
Qed.
Lemma low16_reg t n v : (n * 4 <= 16)%nat -> register 16 v -> register 16 (low16 t n v).
Proof. intros Hb R. destruct t; unfold low16, demote_i32_i16; rg. Qed.
Lemma lane_lt n s i : (i < n)%nat -> (n * s <= 16)%nat -> (0 < s)%nat -> (i < 16 / s)%nat.
Proof. intros. assert (n <= 16 / s)%nat by (apply Nat.div_le_lower_bound; lia). lia. Qed.
Lemma i32_u16_ok t n v i : lane_count n -> (n * 4 <= 16)%nat -> register 16 v -> (i < n)%nat -> ln 2 i (demote_i32_u16 t n v) = wrap 16 (closest false 2 (swrap 32 (ln 4 i v))).
Proof.
  intros Hn Hb R Hi. pose proof R as [L B]. unfold demote_i32_u16. assert (Q : ln 2 i (low16 t n (map1 4 clamp_i32_u16 v)) = wrap 16 (closest false 2 (swrap 32 (ln 4 i v)))).
  { rewrite low16_ok by (auto; rg). rewrite ln_map1_16 by (auto; cbn; tauto || lia). destruct (clamp_i32_u16_ok (ln 4 i v) (ln_range 4 i v B)) as [E F]. change (bits 4) with 32. rewrite (wrap_small 32) by auto. rewrite E. symmetry. apply wrap_small. apply (closest_fits false 2). lia. }
  destruct t; auto. exact (pk_ok 4 false 2 v i ltac:(unfold narrower; cbn; tauto) ltac:(lia) R (lane_lt n 4 i Hi Hb ltac:(lia))).
Qed.
Lemma i32_u16_reg t n v : (n * 4 <= 16)%nat -> register 16 v -> register 16 (demote_i32_u16 t n v).
Proof. intros Hb R. destruct t; unfold demote_i32_u16; try apply low16_reg; auto; rg. Qed.
Lemma u32_u16_ok t n v i : lane_count n -> (n * 4 <= 16)%nat -> register 16 v -> (i < n)%nat -> ln 2 i (demote_u32_u16 t n v) = wrap 16 (closest false 2 (ln 4 i v)).
Proof.
  intros Hn Hb R Hi. pose proof R as [L B]. unfold demote_u32_u16. pose proof (ln_range 4 i v B) as RR. assert (Q : ln 2 i (low16 t n (map1 4 clamp_u32_u16 v)) = wrap 16 (closest false 2 (ln 4 i v))).
  { rewrite low16_ok by (auto; rg). rewrite ln_map1_16 by (auto; cbn; tauto || lia). destruct (clamp_u32_u16_ok (ln 4 i v) RR) as [E F]. change (bits 4) with 32. rewrite (wrap_small 32) by auto. rewrite E. symmetry. apply wrap_small. apply (closest_fits false 2). lia. }
  destruct t; auto. rewrite i32_u16_ok by (auto; rg). rewrite ln_map1_16 by (auto; cbn; tauto || lia). rewrite Z.min_comm. change (bits 4) with 32 in *.
  destruct (clamp_lane_ok SSE4 4 2 (ln 4 i v) ltac:(unfold narrower; cbn; tauto) ltac:(lia) RR) as [C1 C2]. unfold clamp_lane in C1, C2. change (bits 4 - 1) with 31 in *. change (2 ^ 31 - 1) with 2147483647 in *. change (2 ^ 31) with 2147483648 in *.
  rewrite (wrap_small 32) by (change (2 ^ 32) with 4294967296; lia). rewrite swrap_small by (try lia; unfold in_s; change (2 ^ (32 - 1)) with 2147483648; lia). rewrite C2. reflexivity.
Qed.
Lemma min_signed_lane t s v i : register 16 v -> In s [2; 4]%nat -> (i < 16 / s)%nat -> ln s i (min_signed t s v) = clamp_lane t s (ln s i v).
Proof.
  intros R Hs Hi. pose proof R as [L B]. unfold min_signed. cbn zeta. rewrite ln_map1_16 by (auto; cbn in *; tauto). fold (clamp_lane t s (ln s i v)).
  assert (N : narrower s 1) by (unfold narrower; cbn in *; destruct Hs as [<-|[<-|[]]]; tauto). destruct (clamp_lane_ok t s 1 (ln s i v) N ltac:(cbn in Hs; lia) (ln_range s i v B)) as [C _].
  apply wrap_small. pose proof (half_pow (bits s) ltac:(unfold bits; cbn in Hs; lia)). lia.
Qed.
Lemma min_signed_reg t s v : register 16 v -> In s [2; 4]%nat -> register 16 (min_signed t s v).
Proof. intros R Hs. unfold min_signed. cbn zeta. apply map1_reg; auto. cbn in *. tauto. Qed.
Lemma uu_ok t s s' v i : narrower s s' -> (s < 8)%nat -> register 16 v -> (i < 16 / s)%nat -> ln s' i (pk s false s' (min_signed t s v)) = wrap (bits s') (closest false s' (ln s i v)).
Proof.
  intros Hs H8 R Hi. pose proof R as [L B]. assert (S : In s [2; 4]%nat) by (unfold narrower in Hs; enum Hs Hi; cbn; lia). rewrite pk_ok by (auto; apply min_signed_reg; auto). rewrite min_signed_lane by auto.
  destruct (clamp_lane_ok t s s' (ln s i v) Hs H8 (ln_range s i v B)) as [C1 C2]. rewrite swrap_small. rewrite C2; reflexivity. unfold bits; cbn in S; lia. unfold in_s. lia.
Qed.
Lemma u2i_reg s' v : register 16 v -> In s' [1; 2; 4; 8]%nat -> register 16 (u2i s' v).
Proof. intros R H. unfold u2i. apply map1_reg; auto. Qed.
Lemma narrower_facts s s' : narrower s s' -> (0 < s' < s)%nat /\ In s' [1; 2; 4]%nat /\ In s [2; 4; 8]%nat /\ bits s = 8 * Z.of_nat s.
Proof. intros H. unfold narrower in H. cbn in H. repeat destruct H as [H|H]; try contradiction; injection H as <- <-; cbn; repeat split; try tauto; lia. Qed.
Lemma truncate_reg t s s' n v : narrower s s' -> lane_count n -> (n * s <= 16)%nat -> register 16 v -> register 16 (truncate_to t s s' n v).
Proof.
  intros Hs Hn Hb R. unfold truncate_to. destruct (Nat.eqb_spec n 1); [exact R|]. unfold narrower in Hs.
  assert (CE : forall nb k, In (nb, k) [(4, 1); (8, 1); (16, 1); (8, 2); (16, 2)]%nat -> register 16 (concat_even t nb k v v)).
  { intros nb k H. enum H Hn; destruct t; unfold concat_even, concat_odd; cbn zeta; rg. }
  enum Hs Hn; destruct t; try (apply CE; cbn in Hn; repeat destruct Hn as [<-|Hn]; try contradiction; try lia; cbn; tauto); unfold demote_i16_8, demote_i32_8, demote_i32_i16; cbn zeta; rg.
Qed.
Theorem demote_ok t sg s sg' s' n v i : narrower s s' -> lane_count n -> (n * s <= 16)%nat -> register 16 v -> (i < n)%nat ->
  value_of sg' s' (ln s' i (demote_to t sg s sg' s' n v)) = closest sg' s' (value_of sg s (ln s i v)) /\ register 16 (demote_to t sg s sg' s' n v).
Proof.
  intros Hs Hn Hb R Hi. pose proof R as [L B]. destruct (narrower_facts s s' Hs) as (S1 & S2 & S3 & _). pose proof (lane_lt n s i Hi Hb ltac:(lia)) as Hl.
  assert (VW : forall y, value_of sg' s' (wrap (bits s') (closest sg' s' y)) = closest sg' s' y) by (intros; apply value_wrap; [lia|apply closest_fits; lia]).
  destruct (Nat.eq_dec s 8) as [->|N8].
  - assert (G : value_of sg' s' (ln s' i (truncate_to t 8 s' n (map1 8 (saturate64 sg sg' s') v))) = closest sg' s' (value_of sg 8 (ln 8 i v)) /\ register 16 (truncate_to t 8 s' n (map1 8 (saturate64 sg sg' s') v))).
    { split; [|apply truncate_reg; auto; rg]. rewrite truncate_ok by (auto; rg). rewrite ln_map1_16 by (auto; cbn; tauto || lia). destruct (saturate64_ok sg sg' s' (ln 8 i v) S2 (ln_range 8 i v B)) as [E F].
      change (bits 8) with 64. rewrite (wrap_small 64) by auto. exact E. }
    assert (G2 : t = SSE2 -> sg = false -> sg' = true -> (s' < 4)%nat -> value_of sg' s' (ln s' i (demote_signed 4 s' (truncate_to t 8 4 n (map1 8 (saturate64 false true 4) v)))) = closest sg' s' (value_of sg 8 (ln 8 i v)) /\ register 16 (demote_signed 4 s' (truncate_to t 8 4 n (map1 8 (saturate64 false true 4) v)))).
    { intros _ -> -> H4. assert (N4 : narrower 8 4) by (unfold narrower; cbn; tauto). assert (N5 : narrower 4 s') by (unfold narrower; cbn in S2; cbn; destruct S2 as [<-|[<-|[<-|[]]]]; try tauto; lia).
      rewrite demote_signed_pk. split; [|apply pk_reg; auto; try lia; apply truncate_reg; auto; rg]. rewrite pk_ok; [|exact N5|lia|apply truncate_reg; auto; rg|apply (lane_lt n); lia]. rewrite truncate_ok by (auto; rg). rewrite ln_map1_16 by (auto; cbn; tauto || lia).
      destruct (saturate64_ok false true 4 (ln 8 i v) ltac:(cbn; tauto) (ln_range 8 i v B)) as [E F]. change (bits 8) with 64. rewrite (wrap_small 64) by auto. unfold value_of at 1 in E. rewrite E. rewrite VW. unfold value_of.
      pose proof (ln_range 8 i v B) as RR. change (bits 8) with 64 in RR. clear - N5 RR. unfold closest, lowest_value, highest_value. cbn in N5. repeat destruct N5 as [N5|N5]; try discriminate; try contradiction; injection N5 as <-;
        change (8 * Z.of_nat 4) with 32; change (8 * Z.of_nat 1) with 8; change (8 * Z.of_nat 2) with 16; change (32 - 1) with 31; change (16 - 1) with 15; change (8 - 1) with 7; change (2 ^ 31) with 2147483648; change (2 ^ 15) with 32768; change (2 ^ 7) with 128; lia. }
    cbn [demote_to]. unfold demote_to. destruct t, sg, sg'; try exact G. cbn in S2. destruct S2 as [<-|[<-|[<-|[]]]]; try exact G; apply G2; auto.
  - assert (H8 : (s < 8)%nat) by (cbn in S3; lia). assert (SS : demote_to t sg s sg' s' n v = match sg, sg' with true, true => demote_signed s s' v | false, true => u2i s' (demote_signed s s' v)
      | true, false => match s, s' with 4, 2 => demote_i32_u16 t n v | 4, _ => demote_i32_8 false v | _, _ => demote_i16_8 false v end
      | false, false => match s, s' with 4, 2 => demote_u32_u16 t n v | 4, _ => demote_u32_u8 t v | _, _ => demote_u16_u8 t v end end%nat).
    { unfold narrower in Hs. clear - Hs N8. enum Hs N8; try congruence; reflexivity. }
    rewrite SS. clear SS. destruct sg, sg'; rewrite ?demote_signed_pk.
    + rewrite pk_ok by auto. split; [|apply pk_reg; auto]. apply VW.
    + unfold narrower in Hs. clear N8. enum Hs Hl; try lia.
      * split; [|unfold demote_i16_8; rg]. pose proof (pk_ok 2 false 1 v i) as P. cbn [pk] in P. rewrite P by (auto; unfold narrower; cbn; tauto). apply VW.
      * split; [|unfold demote_i32_8; cbn zeta; rg]. pose proof (pk_ok 4 false 1 v i) as P. cbn [pk] in P. rewrite P by (auto; unfold narrower; cbn; tauto). apply VW.
      * split; [|apply i32_u16_reg; auto]. rewrite i32_u16_ok by auto. apply VW.
    + split; [|apply u2i_reg; [apply pk_reg; auto | cbn in *; tauto]]. unfold u2i. rewrite ln_map1_16; [|apply pk_reg; auto|cbn in *; tauto|apply (lane_lt n); auto; nia]. rewrite pk_ok by auto. apply u2i_ok; auto. apply ln_range; auto.
    + unfold narrower in Hs. clear N8. enum Hs Hl; try lia.
      * split; [|unfold demote_u16_u8, demote_i16_8; apply pack_reg; try apply min_signed_reg; auto; cbn; tauto]. pose proof (uu_ok t 2 1 v i) as P. cbn [pk] in P. unfold demote_u16_u8. rewrite P by (auto; unfold narrower; cbn; tauto). apply VW.
      * split; [|unfold demote_u32_u8, demote_i32_8; cbn zeta; apply pack_reg; try apply pack_reg; try apply min_signed_reg; auto; cbn; tauto]. pose proof (uu_ok t 4 1 v i) as P. cbn [pk] in P. unfold demote_u32_u8. rewrite P by (auto; unfold narrower; cbn; tauto). apply VW.
      * split; [|unfold demote_u32_u16; destruct t; [apply low16_reg; auto; rg|apply low16_reg; auto; rg|apply i32_u16_reg; auto; rg]]. rewrite u32_u16_ok by auto. apply VW.
Qed.
