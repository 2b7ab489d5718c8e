(** Integer conversions on x86: two vectors to one of 128 bits; promotion. *)
From Coq Require Import ZArith List Bool Lia Arith.
From Verif Require Import Word Word_Proofs X86Int_Spec X86Int_Model X86Int_Proofs X86Int_Lane X86Int_Sel X86Int_Main.
Import ListNotations.
Open Scope Z_scope.
Arguments Z.pow : simpl never.
Arguments Z.mul : simpl never.
Arguments Z.add : simpl never.
Arguments Z.of_nat : simpl never.
Definition two_config (s n : nat) : Prop := In (s, n) [(2, 1); (2, 2); (2, 4); (2, 8); (4, 1); (4, 2); (4, 4); (8, 1); (8, 2)]%nat.
Definition from2 (s n i : nat) (a b : reg) : Z := if (i <? n)%nat then ln s i a else ln s (i - n) b.
Lemma from2_range s n i a b : register 16 a -> register 16 b -> 0 <= from2 s n i a b < 2 ^ bits s.
Proof. intros [_ Ba] [_ Bb]. unfold from2. destruct (i <? n)%nat; apply ln_range; auto. Qed.
Lemma raw_of_value (sg : bool) s y z : (0 < s)%nat -> 0 <= y < 2 ^ bits s -> value_of sg s y = z -> y = wrap (bits s) z.
Proof. intros Hs Hy <-. unfold value_of. destruct sg; [|symmetry; apply wrap_small; auto]. unfold wrap. rewrite swrap_mod by (apply bits_pos; auto). symmetry. apply Z.mod_small; auto. Qed.
Lemma demote_comb t sg s sg' n a b i : two_config s n -> (s * n <= 8)%nat -> register 16 a -> register 16 b -> (i < 2 * n)%nat ->
  value_of sg' (s / 2) (ln (s / 2) i (demote_to t sg s sg' (s / 2) (2 * n) (combine_halves (s * n) b a))) = closest sg' (s / 2) (value_of sg s (from2 s n i a b))
  /\ register 16 (demote_to t sg s sg' (s / 2) (2 * n) (combine_halves (s * n) b a)).
Proof.
  intros Hc Hb Ra Rb Hi. assert (Q : ln s i (combine_halves (s * n) b a) = from2 s n i a b).
  { unfold from2. rewrite ln_combine; try apply Ra; try apply Rb; [|clear - Hc Hb; unfold two_config in Hc; enum Hc Hb; cbn; tauto || lia|clear - Hc Hi; unfold two_config in Hc; enum Hc Hi; cbn; lia].
    replace (s * n / s)%nat with n by (clear - Hc; unfold two_config in Hc; cbn in Hc; repeat destruct Hc as [Hc|Hc]; try contradiction; injection Hc as <- <-; reflexivity). reflexivity. }
  rewrite <- Q. apply demote_ok; auto; try (clear - Hc Hb; unfold two_config in Hc; unfold narrower, lane_count; enum Hc Hb; cbn; tauto || lia).
  apply combine_reg; auto. clear - Hc Hb; unfold two_config in Hc; enum Hc Hb; cbn; tauto || lia.
Qed.
Lemma demote2_src_ok t s sg' n a b i : two_config s n -> (s < 8)%nat -> register 16 a -> register 16 b -> (i < 2 * n)%nat ->
  ln (s / 2) i (demote2_signed_src t s sg' n a b) = wrap (bits (s / 2)) (closest sg' (s / 2) (swrap (bits s) (from2 s n i a b))) /\ register 16 (demote2_signed_src t s sg' n a b).
Proof.
  intros Hc H8 Ra Rb Hi. pose proof Ra as [La Ba]. pose proof Rb as [Lb Bb].
  assert (G : (s * n <= 8)%nat -> ln (s / 2) i (demote_to t true s sg' (s / 2) (2 * n) (combine_halves (s * n) b a)) = wrap (bits (s / 2)) (closest sg' (s / 2) (swrap (bits s) (from2 s n i a b))) /\ register 16 (demote_to t true s sg' (s / 2) (2 * n) (combine_halves (s * n) b a))).
  { intros Hb. destruct (demote_comb t true s sg' n a b i Hc Hb Ra Rb Hi) as [E R]. split; auto. apply (raw_of_value sg'); auto. clear - Hc; unfold two_config in Hc; cbn in Hc; repeat destruct Hc as [Hc|Hc]; try contradiction; injection Hc as <- <-; cbn; lia. apply ln_range. apply R. }
  unfold demote2_signed_src. cbn zeta. unfold two_config in Hc. enum Hc Hi; try lia.
  - destruct t; apply G; lia.
  - destruct t; apply G; lia.
  - assert (P : ln 1 i (select 4 [0; 2; 0; 2]%nat (pack 2 sg' a b)) = wrap 8 (closest sg' 1 (swrap 16 (from2 2 4 i a b))) /\ register 16 (select 4 [0; 2; 0; 2]%nat (pack 2 sg' a b))).
    { split; [|rg]. rewrite pack_half2 by (auto; lia). rewrite (sat_closest sg' 1) by lia. reflexivity. } destruct t; exact P.
  - assert (P : ln 1 i (pack 2 sg' a b) = wrap 8 (closest sg' 1 (swrap 16 (from2 2 8 i a b))) /\ register 16 (pack 2 sg' a b)).
    { split; [|rg]. rewrite pack_full2 by (auto; lia). rewrite (sat_closest sg' 1) by lia. reflexivity. } destruct t; exact P.
  - destruct t, sg'; apply G; lia.
  - assert (P : ln 2 i (select 4 [0; 2; 0; 2]%nat (pack 4 sg' a b)) = wrap 16 (closest sg' 2 (swrap 32 (from2 4 2 i a b))) /\ register 16 (select 4 [0; 2; 0; 2]%nat (pack 4 sg' a b))).
    { split; [|rg]. rewrite pack_half4 by (auto; lia). rewrite (sat_closest sg' 2) by lia. reflexivity. } destruct t, sg'; try exact P; apply G; lia.
  - assert (P : ln 2 i (pack 4 sg' a b) = wrap 16 (closest sg' 2 (swrap 32 (from2 4 4 i a b))) /\ register 16 (pack 4 sg' a b)).
    { split; [|rg]. rewrite pack_full4 by (auto; lia). rewrite (sat_closest sg' 2) by lia. reflexivity. }
    assert (P2 : ln 2 i (combine_halves 8 (demote_i32_u16 t 4 b) (demote_i32_u16 t 4 a)) = wrap 16 (closest false 2 (swrap 32 (from2 4 4 i a b))) /\ register 16 (combine_halves 8 (demote_i32_u16 t 4 b) (demote_i32_u16 t 4 a))).
    { assert (RA : register 16 (demote_i32_u16 t 4 a)) by (apply i32_u16_reg; auto; lia). assert (RB : register 16 (demote_i32_u16 t 4 b)) by (apply i32_u16_reg; auto; lia). split; [|rg].
      rewrite ln_combine; try apply RA; try apply RB; [|cbn; tauto|cbn; lia]. change (8 / 2)%nat with 4%nat. unfold from2. destruct (Nat.ltb_spec i 4); apply i32_u16_ok; auto; try (unfold lane_count; cbn; tauto); lia. }
    destruct t, sg'; try exact P; exact P2.
Qed.
Theorem demote2_ok t sg s sg' n a b i : two_config s n -> register 16 a -> register 16 b -> (i < 2 * n)%nat ->
  value_of sg' (s / 2) (ln (s / 2) i (demote2_to t sg s sg' n a b)) = closest sg' (s / 2) (value_of sg s (from2 s n i a b)) /\ register 16 (demote2_to t sg s sg' n a b).
Proof.
  intros Hc Ra Rb Hi. pose proof Ra as [La Ba]. pose proof Rb as [Lb Bb]. unfold demote2_to. cbn zeta.
  destruct (Nat.eq_dec s 8) as [->|N8].
  - destruct (Nat.eqb_spec (8 * n) 16) as [E|E].
    + assert (n = 2)%nat by lia. subst n. split.
      * assert (RM : forall v, register 16 v -> register 16 (map1 8 (saturate64 sg sg' 4) v)) by (intros; rg). rewrite concat_even_ok; [|unfold concat_config; cbn; tauto|auto|auto|cbn; lia]. unfold pick2, from2. change (16 / 4 / 2)%nat with 2%nat.
        assert (K : forall v j, register 16 v -> (j < 2)%nat -> value_of sg' 4 (ln 4 (2 * j) (map1 8 (saturate64 sg sg' 4) v)) = closest sg' 4 (value_of sg 8 (ln 8 j v))).
        { intros v j [L B] Hj. rewrite ln_even by apply map1_byte. change (2 * 4)%nat with 8%nat. rewrite ln_map1_16 by (auto; cbn; tauto || lia). destruct (saturate64_ok sg sg' 4 (ln 8 j v) ltac:(cbn; tauto) (ln_range 8 j v B)) as [E1 E2].
          change (bits 8) with 64. rewrite (wrap_small 64) by auto. exact E1. }
        change (8 / 2)%nat with 4%nat. destruct (Nat.ltb_spec i 2); apply K; auto; lia.
      * destruct t; unfold concat_even; cbn [shuffle_ps]; unfold shuffle_ps; (split; [|apply Forall_app; split; apply select_byte, map1_byte]); rewrite app_length; assert (LM : forall v, register 16 v -> length (map1 8 (saturate64 sg sg' 4) v) = 16%nat) by (intros v [L _]; len); pose proof (LM a Ra) as A1; pose proof (LM b Rb) as A2;
          set (ma := map1 _ _ a) in *; set (mb := map1 _ _ b) in *; clearbody ma mb; dreg ma A1; dreg mb A2; reflexivity.
    + apply demote_comb; auto. clear - Hc E. unfold two_config in Hc. cbn in Hc; repeat destruct Hc as [Hc|Hc]; try contradiction; injection Hc; intros; subst; lia.
  - assert (HS : In s [2; 4]%nat) by (clear - Hc N8; unfold two_config in Hc; enum Hc N8; try congruence; cbn; tauto). assert (H8 : (s < 8)%nat) by (cbn in HS; lia). assert (N : narrower s (s / 2)) by (clear - HS; unfold narrower; cbn in HS; repeat destruct HS as [<-|HS]; cbn; tauto).
    assert (HB : (n * s <= 16)%nat) by (clear - Hc Hi; unfold two_config in Hc; enum Hc Hi; lia). assert (S0 : (0 < s / 2)%nat) by (clear - HS; cbn in HS; repeat destruct HS as [<-|HS]; cbn; lia).
    assert (VW : forall y, value_of sg' (s / 2) (wrap (bits (s / 2)) (closest sg' (s / 2) y)) = closest sg' (s / 2) y) by (intros; apply value_wrap; [lia|apply closest_fits; lia]).
    assert (M : match sg, sg' with true, _ => demote2_signed_src t s sg' n a b | false, true => u2i (s / 2) (demote2_signed_src t s true n a b)
      | false, false => if (s * n =? 16)%nat then demote2_signed_src t s false n (min_signed t s a) (min_signed t s b) else demote_to t false s false (s / 2) (2 * n) (combine_halves (s * n) b a) end = demote2_to t sg s sg' n a b).
    { unfold demote2_to. cbn zeta. clear - HS. cbn in HS. repeat destruct HS as [<-|HS]; try contradiction; destruct sg, sg'; reflexivity. }
    unfold demote2_to in M. cbn zeta in M. rewrite <- M. clear M. destruct sg.
    + destruct (demote2_src_ok t s sg' n a b i Hc H8 Ra Rb Hi) as [E R]. split; auto. rewrite E. apply VW.
    + destruct sg'.
      * destruct (demote2_src_ok t s true n a b i Hc H8 Ra Rb Hi) as [E R]. split; [|apply u2i_reg; auto; clear - HS; cbn in HS; repeat destruct HS as [<-|HS]; cbn; tauto].
        unfold u2i. rewrite ln_map1_16; [|apply R|clear - HS; cbn in HS; repeat destruct HS as [<-|HS]; cbn; tauto|apply (lane_lt (2 * n)); auto; clear - HS HB; cbn in HS; repeat destruct HS as [<-|HS]; cbn; try contradiction; lia].
        rewrite E. unfold value_of at 2. apply u2i_ok; auto. apply from2_range; auto.
      * destruct (Nat.eqb_spec (s * n) 16) as [E16|E16].
        -- assert (RA : register 16 (min_signed t s a)) by (apply min_signed_reg; auto). assert (RB : register 16 (min_signed t s b)) by (apply min_signed_reg; auto).
           destruct (demote2_src_ok t s false n _ _ i Hc H8 RA RB Hi) as [E R]. split; auto. rewrite E. rewrite VW. unfold value_of.
           assert (F : from2 s n i (min_signed t s a) (min_signed t s b) = clamp_lane t s (from2 s n i a b)). { unfold from2. destruct (Nat.ltb_spec i n); apply min_signed_lane; auto; apply (lane_lt n); lia. }
           rewrite F. destruct (clamp_lane_ok t s (s / 2) (from2 s n i a b) N H8 (from2_range s n i a b Ra Rb)) as [C1 C2]. rewrite swrap_small; [exact C2|unfold bits; lia|unfold in_s; lia].
        -- apply demote_comb; auto. clear - Hc E16. unfold two_config in Hc. cbn in Hc; repeat destruct Hc as [Hc|Hc]; try contradiction; injection Hc; intros; subst; lia.
Qed.
Theorem truncate2_ok t s n a b i : two_config s n -> register 16 a -> register 16 b -> (i < 2 * n)%nat ->
  ln (s / 2) i (truncate2_to t s n a b) = wrap (bits (s / 2)) (from2 s n i a b).
Proof.
  intros Hc Ra Rb Hi. pose proof Ra as [La Ba]. pose proof Rb as [Lb Bb]. unfold truncate2_to. assert (HD : (s * n / (s / 2) = 2 * n)%nat /\ (2 * n / 2 = n)%nat /\ (2 * (s / 2) = s)%nat /\ concat_config (s * n) (s / 2)).
  { clear - Hc. unfold two_config in Hc. unfold concat_config. cbn in Hc; repeat destruct Hc as [Hc|Hc]; try contradiction; injection Hc as <- <-; cbn; tauto. }
  destruct HD as (D1 & D2 & D3 & D4). rewrite concat_even_ok; auto; [|rewrite D1; auto]. unfold pick2, from2. rewrite D1, D2. destruct (i <? n)%nat; rewrite ln_even by auto; rewrite D3; reflexivity.
Qed.
(** ** PromoteTo *)
Lemma le_app l m : le (l ++ m) = le l + 2 ^ bits (length l) * le m.
Proof. induction l as [|b l IH]; cbn [app le length]; [change (2 ^ bits 0) with 1; lia|]. rewrite IH, pow_bits_S. lia. Qed.
Lemma le_zeros k : le (repeat 0 k) = 0. Proof. induction k; cbn [repeat le]; lia. Qed.
Lemma widen_ok sg s s' v i : narrower s' s -> register 16 v -> (i < 16 / s')%nat -> value_of sg s' (ln s' i (widen sg s s' v)) = value_of sg s (ln s i v).
Proof.
  intros Hs [L B] Hi. destruct (narrower_facts s' s Hs) as (S1 & _). pose proof (ln_range s i v B) as R.
  assert (Hl : (16 / s' <= 16 / s)%nat) by (clear - Hs; unfold narrower in Hs; cbn in Hs; repeat destruct Hs as [Hs|Hs]; try contradiction; injection Hs as <- <-; cbn; lia).
  unfold widen. rewrite ln_of_lanes by (rewrite map_length, firstn_length, lanes_length, L; lia). rewrite (nth_map' _ _ i 0) by (rewrite firstn_length, lanes_length, L; lia).
  assert (N : nth i (firstn (16 / s') (lanes s v)) 0 = ln s i v). { rewrite <- (nth_lanes s v i) by (rewrite L; lia). clear - Hi. revert i Hi. generalize (16 / s')%nat as k. generalize (lanes s v) as l. intros l k. revert l. induction k; intros l i Hi; [lia|]. destruct l; [destruct i; reflexivity|]. destruct i; cbn; auto. apply IHk. lia. }
  rewrite N. assert (HB : 0 < bits s /\ bits s <= bits s') by (unfold bits; lia). unfold value_of. destruct sg.
  - rewrite swrap_wrap by lia. apply swrap_small; [lia|]. pose proof (swrap_range (bits s) (ln s i v) ltac:(lia)) as W. unfold in_s in *. assert (2 ^ (bits s - 1) <= 2 ^ (bits s' - 1)) by (apply Z.pow_le_mono_r; lia). lia.
  - apply wrap_small. assert (2 ^ bits s <= 2 ^ bits s') by (apply Z.pow_le_mono_r; lia). lia.
Qed.
Lemma zero_ext s s' i v R : lane_bytes s' i R = lane_bytes s i v ++ repeat 0 (s' - s) -> ln s' i R = ln s i v.
Proof. intros E. unfold ln. rewrite E, le_app, le_zeros. lia. Qed.
Lemma promote_u_ok t s s' v i : narrower s' s -> register 16 v -> (i < 16 / s')%nat -> ln s' i (promote_u t s s' v) = ln s i v.
Proof.
  intros Hs R Hi. destruct t.
  3: { replace (promote_u SSE4 s s' v) with (widen false s s' v). apply (widen_ok false s s' v i Hs R Hi). clear - Hs. unfold narrower in Hs. cbn in Hs; repeat destruct Hs as [Hs|Hs]; try contradiction; injection Hs as <- <-; reflexivity. }
  all: apply zero_ext; destruct R as [L _]; dreg v L; unfold narrower in Hs; enum Hs Hi; cases_lt i.
Qed.
Lemma shr_high w k lo x : 0 < k < w -> 0 <= lo < 2 ^ k -> 0 <= x < 2 ^ (w - k) -> swrap w (shr_s w k (lo + 2 ^ k * x)) = swrap (w - k) x.
Proof.
  intros Hk Hl Hx. pose proof (half_pow w ltac:(lia)) as [E1 P1]. pose proof (half_pow (w - k) ltac:(lia)) as [E2 P2]. pose proof (pow2_gt0 k ltac:(lia)) as P3.
  assert (E3 : 2 ^ w = 2 ^ (w - k) * 2 ^ k) by (rewrite <- Z.pow_add_r by lia; f_equal; lia). assert (E4 : 2 ^ (w - 1) = 2 ^ (w - k - 1) * 2 ^ k) by (rewrite <- Z.pow_add_r by lia; f_equal; lia).
  pose proof (swrap_range (w - k) x ltac:(lia)) as R. unfold in_s in R.
  assert (E : swrap w (lo + 2 ^ k * x) = lo + 2 ^ k * swrap (w - k) x).
  { apply swrap_unique; [lia| |].
    - unfold in_s. rewrite E4. nia.
    - rewrite (swrap_val (w - k) x) by lia. destruct (x <? 2 ^ (w - k - 1)); [reflexivity|]. replace (lo + 2 ^ k * (x - 2 ^ (w - k))) with (lo + 2 ^ k * x + (-1) * 2 ^ w) by (rewrite E3; ring). pose proof (Z.mod_add (lo + 2 ^ k * x) (-1) (2 ^ w) ltac:(lia)) as X. congruence. }
  unfold shr_s. rewrite E. rewrite swrap_wrap by lia. rewrite Z.shiftr_div_pow2 by lia. rewrite Z.mul_comm, Z.div_add by lia. rewrite (Z.div_small lo) by lia. cbn [Z.add]. rewrite Z.add_0_l. apply swrap_small; [lia|]. unfold in_s. assert (2 ^ (w - k - 1) <= 2 ^ (w - 1)) by (apply Z.pow_le_mono_r; lia). lia.
Qed.
Lemma sign_ext s s' i v R l : (0 < s < s')%nat -> Forall byte v -> register 16 R -> In s' [2; 4; 8]%nat -> (i < 16 / s')%nat -> lane_bytes s' i R = l ++ lane_bytes s i v -> length l = (s' - s)%nat ->
  swrap (bits s') (ln s' i (map1 s' (shr_s (bits s') (bits s' - bits s)) R)) = swrap (bits s) (ln s i v).
Proof.
  intros Hs B RR HI Hi E Hl. pose proof RR as [L B']. rewrite ln_map1_16; [|auto|cbn in *; tauto|auto]. rewrite swrap_wrap by (unfold bits; lia). assert (Bl : Forall byte l) by (pose proof (lane_bytes_byte s' i R B') as X; rewrite E in X; apply Forall_app in X; tauto).
  replace (ln s' i R) with (le l + 2 ^ (bits s' - bits s) * ln s i v). 2: { unfold ln at 2. rewrite E, le_app, Hl. unfold ln, bits. do 3 f_equal. lia. }
  assert (HX : bits s' - (bits s' - bits s) = bits s) by lia. replace (swrap (bits s) (ln s i v)) with (swrap (bits s' - (bits s' - bits s)) (ln s i v)) by (rewrite HX; reflexivity). apply shr_high.
  - unfold bits; lia.
  - pose proof (le_range l Bl) as X. rewrite Hl in X. replace (bits s' - bits s) with (bits (s' - s)) by (unfold bits; lia). exact X.
  - rewrite HX. apply ln_range; auto.
Qed.
Lemma lane_dup i r : length r = 16%nat -> (i < 2)%nat -> lane_bytes 8 i (unpacklo 4 r (shufflelo16 [1; 1; 3; 3]%nat r)) = lane_bytes 4 i r ++ skipn 2 (lane_bytes 4 i r) ++ skipn 2 (lane_bytes 4 i r).
Proof. intros L Hi. dreg r L. cases_lt i. Qed.
Lemma dup_ok r i y : register 16 r -> (i < 2)%nat -> swrap 32 (ln 4 i r) = y -> -32768 <= y < 32768 -> swrap 64 (ln 8 i (unpacklo 4 r (shufflelo16 [1; 1; 3; 3]%nat r))) = y.
Proof.
  intros [L B] Hi E Hy. unfold ln at 1. rewrite lane_dup by auto. pose proof (lane_bytes_byte 4 i r B) as Bc. assert (Lc : length (lane_bytes 4 i r) = 4%nat) by (unfold lane_bytes; rewrite firstn_length, skipn_length, L; lia).
  pose proof (ln_range 4 i r B) as R. unfold ln in *. set (c := lane_bytes 4 i r) in *. clearbody c. rewrite !le_app, skipn_length, Lc. rewrite le_skipn by (auto; lia). set (x := le c) in *. clearbody x.
  change (bits 4) with 32 in *. change (4 - 2)%nat with 2%nat. change (bits 2) with 16. rewrite (swrap_val 32 x) in E by lia. change (32 - 1) with 31 in E. clear - E R Hy. change (2 ^ 31) with 2147483648 in E. change (2 ^ 32) with 4294967296 in *. change (2 ^ 16) with 65536.
  destruct (Z.ltb_spec x 2147483648).
  - assert (x / 65536 = 0) by (apply Z.div_small; lia). rewrite H0. rewrite swrap_small; [lia|lia|]. unfold in_s. change (2 ^ (64 - 1)) with 9223372036854775808. lia.
  - assert (H0 : x / 65536 = 65535) by (symmetry; apply (Z.div_unique _ _ _ (x - 65535 * 65536)); lia). rewrite H0. rewrite swrap_val by (change (2 ^ 64) with 18446744073709551616; lia). change (2 ^ (64 - 1)) with 9223372036854775808. change (2 ^ 64) with 18446744073709551616.
    destruct (Z.ltb_spec (x + 4294967296 * (65535 + 65536 * 65535)) 9223372036854775808); lia.
Qed.
Lemma split_last {A} (x y : list A) k : skipn k x = y -> (k <= length x)%nat -> exists l, x = l ++ y /\ length l = k.
Proof. intros <- H. exists (firstn k x). split; [symmetry; apply firstn_skipn|]. apply firstn_length_le; auto. Qed.
Lemma sign_ext2 s s' i v R : (0 < s < s')%nat -> Forall byte v -> register 16 R -> In s' [2; 4; 8]%nat -> (i < 16 / s')%nat -> skipn (s' - s) (lane_bytes s' i R) = lane_bytes s i v ->
  swrap (bits s') (ln s' i (map1 s' (shr_s (bits s') (bits s' - bits s)) R)) = swrap (bits s) (ln s i v).
Proof.
  intros Hs B RR HI Hi E. destruct (split_last (lane_bytes s' i R) _ (s' - s)%nat E) as (l & E1 & E2).
  { pose proof RR as [L _]. assert ((i * s' + s' <= 16)%nat) by (clear - HI Hi; cbn in HI; repeat destruct HI as [<-|HI]; try contradiction; cbn in Hi; lia). unfold lane_bytes. rewrite firstn_length, skipn_length, L. lia. }
  apply (sign_ext s s' i v R l); auto.
Qed.
Lemma promote_s_ok t s s' v i : narrower s' s -> register 16 v -> (i < 16 / s')%nat -> swrap (bits s') (ln s' i (promote_s t s s' v)) = swrap (bits s) (ln s i v).
Proof.
  intros Hs R Hi. pose proof R as [L B]. assert (T : t = SSE4 \/ promote_s t s s' v = promote_s SSE2 s s' v) by (destruct t; auto). destruct T as [-> | ->].
  { apply (widen_ok true s s' v i Hs R Hi). }
  assert (U14 : forall j, (j < 4)%nat -> swrap 32 (ln 4 j (map1 4 (shr_s 32 24) (unpacklo 2 (unpacklo 1 v v) (unpacklo 1 v v)))) = swrap 8 (ln 1 j v)).
  { intros j Hj. apply (sign_ext2 1 4); auto; try lia; [rg|cbn; tauto|]. clear - L Hj. dreg v L. cases_lt j. }
  assert (U24 : forall j, (j < 4)%nat -> swrap 32 (ln 4 j (map1 4 (shr_s 32 16) (unpacklo 2 v v))) = swrap 16 (ln 2 j v)).
  { intros j Hj. apply (sign_ext2 2 4); auto; try lia; [rg|cbn; tauto|]. clear - L Hj. dreg v L. cases_lt j. }
  unfold narrower in Hs. enum Hs Hi.
  - apply (sign_ext2 1 2); auto; try lia; [rg|cbn; tauto|]. clear - L Hi. dreg v L. cases_lt i.
  - apply U14. lia.
  - apply U24. lia.
  - cbn [promote_s]. cbn zeta. apply dup_ok; [rg|lia|apply U14; lia|]. pose proof (swrap_range 8 (ln 1 i v) ltac:(lia)) as W. unfold in_s in W. change (2 ^ (8 - 1)) with 128 in W. change (bits 1) with 8. lia.
  - cbn [promote_s]. cbn zeta. apply dup_ok; [rg|lia|apply U24; lia|]. pose proof (swrap_range 16 (ln 2 i v) ltac:(lia)) as W. unfold in_s in W. change (2 ^ (16 - 1)) with 32768 in W. change (bits 2) with 16. lia.
  - apply (sign_ext2 4 8); auto; try lia; [rg|cbn; tauto|]. clear - L Hi. dreg v L. cases_lt i.
Qed.
Theorem promote_ok t sg s s' v i : narrower s' s -> register 16 v -> (i < 16 / s')%nat -> value_of sg s' (ln s' i (promote_to t sg s s' v)) = value_of sg s (ln s i v).
Proof. intros. unfold promote_to, value_of. destruct sg; [apply promote_s_ok | apply promote_u_ok]; auto. Qed.
