(** Integer conversions on x86: vectors of 256 bits. *)
From Coq Require Import ZArith List Bool Lia Arith.
From Verif Require Import Word Word_Proofs X86Int_Spec X86Int_Model X86Int_Proofs X86Int_Lane X86Int_Sel X86Int_Main X86Int_Two.
Import ListNotations.
Open Scope Z_scope.
Arguments Z.pow : simpl never.
Arguments Z.mul : simpl never.
Arguments Z.add : simpl never.
Arguments Z.of_nat : simpl never.
Ltac sizes H := cbn [In] in H; repeat destruct H as [<-|H]; try contradiction.
Lemma lo_reg a : register 32 a -> register 16 (lo128 a).
Proof. intros [L B]. split; [unfold lo128; rewrite firstn_length, L; reflexivity | apply Forall_firstn'; auto]. Qed.
Lemma hi_reg a : register 32 a -> register 16 (hi128 a).
Proof. intros [L B]. split; [unfold hi128; rewrite skipn_length, L; reflexivity | apply Forall_skipn'; auto]. Qed.
Lemma app_reg a b : register 16 a -> register 16 b -> register 32 (a ++ b).
Proof. intros [L B] [L' B']. split; [rewrite app_length; lia | apply Forall_app; auto]. Qed.
Lemma map1_32 s f r : register 32 r -> In s [1; 2; 4; 8]%nat -> register 32 (map1 s f r).
Proof. intros [L B] H. split; [|apply map1_byte]. rewrite map1_length, L. sizes H; reflexivity. Qed.
Lemma pack256_reg s sg a b : register 32 a -> register 32 b -> In s [2; 4]%nat -> register 32 (pack256 s sg a b).
Proof. intros Ra Rb H. apply app_reg; apply pack_reg; auto; (apply lo_reg || apply hi_reg); auto. Qed.
Lemma ln_lo s j a : register 32 a -> In s [1; 2; 4; 8]%nat -> (j < 16 / s)%nat -> ln s j (lo128 a) = ln s j a.
Proof. intros [L _] H Hj. unfold ln. f_equal. dreg32 a L. sizes H; cbn in Hj; cases_lt j. Qed.
Lemma ln_hi s j a : register 32 a -> In s [1; 2; 4; 8]%nat -> (j < 16 / s)%nat -> ln s j (hi128 a) = ln s (j + 16 / s) a.
Proof. intros [L _] H Hj. unfold ln. f_equal. dreg32 a L. sizes H; cbn in Hj; cases_lt j. Qed.
Lemma ln_cat s i a b : register 16 a -> register 16 b -> In s [1; 2; 4; 8]%nat -> (i < 32 / s)%nat -> ln s i (a ++ b) = from2 s (16 / s) i a b.
Proof.
  intros Ra Rb H Hi. pose proof (app_reg a b Ra Rb) as R. assert (EL : lo128 (a ++ b) = a) by (destruct Ra as [L _]; unfold lo128; rewrite firstn_app, L, Nat.sub_diag, firstn_O, app_nil_r; apply firstn_all2; lia).
  assert (EH : hi128 (a ++ b) = b) by (destruct Ra as [L _]; unfold hi128; rewrite skipn_app, L, Nat.sub_diag, skipn_O, skipn_all2 by lia; reflexivity).
  unfold from2. destruct (Nat.ltb_spec i (16 / s)).
  - rewrite <- (ln_lo s i (a ++ b)) by auto. rewrite EL. reflexivity.
  - assert (E2 : (32 / s = 16 / s + 16 / s)%nat) by (sizes H; reflexivity). rewrite <- EH at 2. rewrite ln_hi by (auto; lia). f_equal. lia.
Qed.
(** VPERMQ 3,1,2,0 *)
Lemma sel0213 s i A B : length A = 16%nat -> length B = 16%nat -> In s [1; 2; 4; 8]%nat -> (i < 32 / s)%nat ->
  ln s i (select 8 [0; 2; 1; 3]%nat (A ++ B)) = if (i <? 8 / s)%nat then ln s i A else if (i <? 16 / s)%nat then ln s (i - 8 / s) B else if (i <? 24 / s)%nat then ln s (i - 8 / s) A else ln s (i - 16 / s) B.
Proof. intros LA LB H Hi. dreg A LA. dreg B LB. sizes H; cbn in Hi; cases_lt i. Qed.
Lemma sel0202_256 s i A B : length A = 16%nat -> length B = 16%nat -> In s [1; 2; 4; 8]%nat -> (i < 16 / s)%nat ->
  ln s i (lo128 (select 8 [0; 2; 0; 2]%nat (A ++ B))) = if (i <? 8 / s)%nat then ln s i A else ln s (i - 8 / s) B.
Proof. intros LA LB H Hi. dreg A LA. dreg B LB. sizes H; cbn in Hi; cases_lt i. Qed.
(** pack of 256 bits, both halves of lanes in a uniform form *)
Lemma pack_full s sg a b i : register 16 a -> register 16 b -> In s [2; 4]%nat -> (i < 32 / s)%nat -> ln (s / 2) i (pack s sg a b) = wrap (bits (s / 2)) (sat sg (bits (s / 2)) (swrap (bits s) (from2 s (16 / s) i a b))).
Proof. intros [La _] [Lb _] H Hi. sizes H; [apply pack_full2; auto | apply pack_full4; auto]. Qed.
Lemma select_length s l r n : (forall i, In i l -> length (lane_bytes s i r) = s) -> length l = n -> length (select s l r) = (n * s)%nat.
Proof. intros H <-. unfold select. induction l; cbn [flat_map length]; [reflexivity|]. rewrite app_length, H by (left; reflexivity). rewrite IHl; [reflexivity|]. intros. apply H. right; auto. Qed.
Lemma select8_reg l r : register 32 r -> length l = 4%nat -> (forall i, In i l -> i < 4)%nat -> register 32 (select 8 l r).
Proof.
  intros [L B] Hl Hi. split; [|apply select_byte; auto]. apply (select_length 8 l r 4); auto. intros i H. apply Hi in H. unfold lane_bytes. rewrite firstn_length, skipn_length, L. lia.
Qed.
Lemma ordered_pack s sg a b i : register 32 a -> register 32 b -> In s [2; 4]%nat -> (i < 64 / s)%nat ->
  ln (s / 2) i (select 8 [0; 2; 1; 3]%nat (pack256 s sg a b)) = wrap (bits (s / 2)) (sat sg (bits (s / 2)) (swrap (bits s) (from2 s (32 / s) i a b))).
Proof.
  intros Ra Rb H Hi. pose proof (lo_reg a Ra). pose proof (hi_reg a Ra). pose proof (lo_reg b Rb). pose proof (hi_reg b Rb). unfold pack256.
  assert (D : In (s / 2)%nat [1; 2; 4; 8]%nat /\ (32 / (s / 2) = 64 / s)%nat /\ (8 / (s / 2) = 16 / s)%nat /\ (16 / (s / 2) = 32 / s)%nat /\ (24 / (s / 2) = 3 * (16 / s))%nat /\ (32 / s = 2 * (16 / s))%nat /\ (64 / s = 4 * (16 / s))%nat /\ In s [1; 2; 4; 8]%nat) by (sizes H; cbn; repeat split; tauto).
  destruct D as (D1 & D2 & D3 & D4 & D5 & D6 & D7 & D8). rewrite sel0213; [|apply pack_16; try apply H0; try apply H1; try apply H2; try apply H3; auto|apply pack_16; try apply H0; try apply H1; try apply H2; try apply H3; auto|auto|rewrite D2; auto].
  rewrite D3, D4, D5. unfold from2 at 1. rewrite D6, D7 in *. destruct (Nat.ltb_spec i (16 / s)).
  - rewrite pack_full by (auto; lia). unfold from2. destruct (Nat.ltb_spec i (16 / s)); [|lia]. destruct (Nat.ltb_spec i (2 * (16 / s))); [|lia]. rewrite ln_lo by auto. reflexivity.
  - destruct (Nat.ltb_spec i (2 * (16 / s))).
    + rewrite pack_full by (auto; lia). unfold from2. destruct (Nat.ltb_spec (i - 16 / s) (16 / s)); [|lia]. rewrite ln_hi by (auto; lia). do 4 f_equal. lia.
    + destruct (Nat.ltb_spec i (3 * (16 / s))).
      * rewrite pack_full by (auto; lia). unfold from2. destruct (Nat.ltb_spec (i - 16 / s) (16 / s)); [lia|]. rewrite ln_lo by (auto; lia). do 4 f_equal. lia.
      * rewrite pack_full by (auto; lia). unfold from2. destruct (Nat.ltb_spec (i - 2 * (16 / s)) (16 / s)); [lia|]. rewrite ln_hi by (auto; lia). do 4 f_equal. lia.
Qed.
Lemma self_pack s sg v i : register 32 v -> In s [2; 4]%nat -> (i < 32 / s)%nat -> ln (s / 2) i (pack_self256 s sg v) = wrap (bits (s / 2)) (sat sg (bits (s / 2)) (swrap (bits s) (ln s i v))).
Proof.
  intros R H Hi. pose proof (lo_reg v R). pose proof (hi_reg v R). unfold pack_self256, pack256.
  assert (D : In (s / 2)%nat [1; 2; 4; 8]%nat /\ (8 / (s / 2) = 16 / s)%nat /\ (16 / (s / 2) = 32 / s)%nat /\ (32 / s = 2 * (16 / s))%nat /\ In s [1; 2; 4; 8]%nat) by (sizes H; cbn; repeat split; tauto).
  destruct D as (D1 & D3 & D4 & D6 & D8). rewrite sel0202_256; [|apply pack_16; try apply H0; try apply H1; auto|apply pack_16; try apply H0; try apply H1; auto|auto|rewrite D4; auto].
  rewrite D3. rewrite D6 in *. destruct (Nat.ltb_spec i (16 / s)).
  - rewrite pack_full by (auto; lia). unfold from2. destruct (Nat.ltb_spec i (16 / s)); [|lia]. rewrite ln_lo by auto. reflexivity.
  - rewrite pack_full by (auto; lia). unfold from2. destruct (Nat.ltb_spec (i - 16 / s) (16 / s)); [|lia]. rewrite ln_hi by (auto; lia). do 4 f_equal. lia.
Qed.
Lemma self_pack_reg s sg v : register 32 v -> In s [2; 4]%nat -> register 16 (pack_self256 s sg v).
Proof. intros R H. unfold pack_self256. apply lo_reg. apply select8_reg; [apply pack256_reg; auto|reflexivity|cbn; intros; lia]. Qed.
(** ** TruncateTo *)
Lemma bytes2_le x y : byte x -> byte y -> bytes 2 (le [x; y]) = [x; y].
Proof.
  unfold byte. intros Hx Hy. cbn [bytes le]. unfold wrap. change (2 ^ 8) with 256. f_equal; [|f_equal]; Z.div_mod_to_equations; lia.
Qed.
Lemma pack_low16 half i x y : length half = 16%nat -> (i < 4)%nat -> byte x -> byte y -> lane_bytes 4 i half = [x; y; 0; 0] -> lane_bytes 2 i (pack 4 false half half) = [x; y].
Proof.
  intros L Hi Hx Hy E. unfold pack. change (4 / 2)%nat with 2%nat. rewrite lane_bytes_of_lanes by (rewrite map_length, app_length, !lanes_length, L; change (16 / 4)%nat with 4%nat; lia). rewrite (nth_map' _ _ i 0) by (rewrite app_length, !lanes_length, L; change (16 / 4)%nat with 4%nat; lia).
  rewrite app_nth1 by (rewrite lanes_length, L; exact Hi). rewrite nth_lanes by (rewrite L; exact Hi). unfold ln. rewrite E. rewrite <- (bytes2_le x y Hx Hy) at 1. f_equal. cbn [le]. unfold byte in *.
  replace (x + 256 * (y + 256 * (0 + 256 * (0 + 256 * 0)))) with (x + 256 * (y + 256 * 0)) by lia. change (bits 4) with 32. change (bits 2) with 16. rewrite swrap_small; [|lia|unfold in_s; change (2 ^ (32 - 1)) with 2147483648; lia].
  unfold sat. change (2 ^ 16) with 65536. destruct (Z.ltb_spec (x + 256 * (y + 256 * 0)) 0); [lia|]. destruct (Z.ltb_spec (65536 - 1) (x + 256 * (y + 256 * 0))); lia.
Qed.
Lemma pack_low16' half i : register 16 half -> (i < 4)%nat -> skipn 2 (lane_bytes 4 i half) = [0; 0] -> lane_bytes 2 i (pack 4 false half half) = firstn 2 (lane_bytes 4 i half).
Proof.
  intros [L B] Hi E. pose proof (lane_bytes_byte 4 i half B) as Bc. assert (Lc : length (lane_bytes 4 i half) = 4%nat) by (unfold lane_bytes; rewrite firstn_length, skipn_length, L; lia).
  remember (lane_bytes 4 i half) as c eqn:Ec. do 4 (destruct c as [|? c]; [discriminate Lc|]). destruct c; [|discriminate Lc]. cbn in E. injection E as -> ->. inversion Bc as [|? ? B1 Bc']; subst. inversion Bc' as [|? ? B2 _]; subst. cbn [firstn]. apply pack_low16; auto.
Qed.
Theorem truncate256_ok s s' v i : narrower s s' -> register 32 v -> (i < 32 / s)%nat -> ln s' i (truncate256 s s' v) = wrap (bits s') (ln s i v).
Proof.
  intros Hs R Hi. pose proof R as [L B]. apply trunc_lane; auto. assert (HR : forall l, length l = 16%nat -> register 16 (lo128 (select 8 [0; 3; 0; 3]%nat (pshufb256 v (u16s l))))).
  { intros l Hl. apply lo_reg. apply select8_reg; [|reflexivity|cbn; intros; lia]. unfold pshufb256. assert (LU : length (u16s l) = 32%nat) by (unfold u16s; rewrite of_lanes_length, Hl; reflexivity). 
    apply app_reg; apply pshufb_reg; [apply lo_reg; auto|rewrite firstn_length, LU; reflexivity|apply hi_reg; auto|rewrite skipn_length, LU; reflexivity]. }
  dreg32 v L. unfold narrower in Hs. enum Hs Hi.
  - cases_lt i.
  - cbn [truncate256]. unfold lookup_quarters. cbn zeta. match goal with |- context [pack 4 false ?h ?h] => set (half := h) end.
    assert (RH : register 16 half) by (apply HR; reflexivity). vm_compute in half. pose proof (pack_low16' half 0 RH ltac:(lia) eq_refl) as P0. pose proof (pack_low16' half 1 RH ltac:(lia) eq_refl) as P1.
    pose proof (pack_low16' half 2 RH ltac:(lia) eq_refl) as P2. pose proof (pack_low16' half 3 RH ltac:(lia) eq_refl) as P3.
    assert (LP : length (pack 4 false half half) = 16%nat) by reflexivity. set (p := pack 4 false half half) in *. clearbody p. clear - P0 P1 P2 P3 LP Hi. dreg p LP. cbn in P0, P1, P2, P3. injection P0 as -> ->. injection P1 as -> ->. injection P2 as -> ->. injection P3 as -> ->. cases_lt i.
  - cases_lt i.
  - cbn. rewrite !Z.lor_0_r. cases_lt i.
  - cbn [truncate256]. unfold lookup_quarters. cbn zeta. match goal with |- context [pack 4 false ?h ?h] => set (half := h) end. assert (RH : register 16 half) by (apply HR; reflexivity). vm_compute in half.
    destruct i as [|[|[|[|i]]]]; [| | | |exfalso; lia]; (rewrite (pack_low16' half) by (auto; lia || reflexivity); reflexivity).
  - cases_lt i.
Qed.
(** ** DemoteTo *)
Lemma ln_map1_32 s f r i : register 32 r -> (i < 32 / s)%nat -> ln s i (map1 s f r) = wrap (bits s) (f (ln s i r)).
Proof. intros [L _] Hi. apply ln_map1. rewrite L. exact Hi. Qed.
Lemma min_signed32 s v i : register 32 v -> In s [2; 4]%nat -> (i < 32 / s)%nat -> ln s i (min_signed SSE4 s v) = clamp_lane SSE4 s (ln s i v).
Proof.
  intros R Hs Hi. pose proof R as [L B]. unfold min_signed. cbn zeta. rewrite ln_map1_32 by auto. fold (clamp_lane SSE4 s (ln s i v)).
  assert (N : narrower s 1) by (unfold narrower; cbn in *; destruct Hs as [<-|[<-|[]]]; tauto). destruct (clamp_lane_ok SSE4 s 1 (ln s i v) N ltac:(cbn in Hs; lia) (ln_range s i v B)) as [C _].
  apply wrap_small. pose proof (half_pow (bits s) ltac:(unfold bits; cbn in Hs; lia)). lia.
Qed.
Lemma min_signed32_reg s v : register 32 v -> In s [2; 4]%nat -> register 32 (min_signed SSE4 s v).
Proof. intros R Hs. unfold min_signed. cbn zeta. apply map1_32; auto. cbn in *. tauto. Qed.
Lemma src256_ok s sg' s' v i : narrower s s' -> (s < 8)%nat -> register 32 v -> (i < 32 / s)%nat ->
  ln s' i (demote256_signed_src s sg' s' v) = wrap (bits s') (closest sg' s' (swrap (bits s) (ln s i v))) /\ register 16 (demote256_signed_src s sg' s' v).
Proof.
  intros Hs H8 R Hi. unfold narrower in Hs. enum Hs Hi; try lia; cbn [demote256_signed_src].
  - split; [|apply self_pack_reg; auto; cbn; tauto]. pose proof (self_pack 2 sg' v i) as P. change (2 / 2)%nat with 1%nat in P. rewrite P by (auto; cbn; tauto). clear P. rewrite (sat_closest sg' 1) by lia. reflexivity.
  - cbn zeta. assert (RP : register 16 (pack_self256 4 true v)) by (apply self_pack_reg; auto; cbn; tauto). split; [|rg]. rewrite ln_pack2_lo by (try apply RP; lia).
    pose proof (self_pack 4 true v i) as P. change (4 / 2)%nat with 2%nat in P. rewrite P by (auto; cbn; tauto). clear P. rewrite (sat_closest true 2) by lia. change (bits 2) with 16. rewrite swrap_wrap by lia. rewrite (swrap_small 16) by (try lia; apply (closest_fits true 2); lia).
    rewrite (sat_closest sg' 1) by lia. rewrite closest_trans. reflexivity.
  - split; [|apply self_pack_reg; auto; cbn; tauto]. pose proof (self_pack 4 sg' v i) as P. change (4 / 2)%nat with 2%nat in P. rewrite P by (auto; cbn; tauto). clear P. rewrite (sat_closest sg' 2) by lia. reflexivity.
Qed.
Theorem demote256_ok sg s sg' s' v i : narrower s s' -> register 32 v -> (i < 32 / s)%nat -> value_of sg' s' (ln s' i (demote256_to sg s sg' s' v)) = closest sg' s' (value_of sg s (ln s i v)).
Proof.
  intros Hs R Hi. pose proof R as [L B]. destruct (narrower_facts s s' Hs) as (S1 & S2 & S3 & _).
  assert (VW : forall y, value_of sg' s' (wrap (bits s') (closest sg' s' y)) = closest sg' s' y) by (intros; apply value_wrap; [lia|apply closest_fits; lia]).
  destruct (Nat.eq_dec s 8) as [->|N8].
  - cbn [demote256_to]. unfold demote256_to. rewrite truncate256_ok; [|auto|apply map1_32; auto; cbn; tauto|auto]. rewrite ln_map1_32 by auto. destruct (saturate64_ok sg sg' s' (ln 8 i v) S2 (ln_range 8 i v B)) as [E F].
    change (bits 8) with 64. rewrite (wrap_small 64) by auto. exact E.
  - assert (H8 : (s < 8)%nat) by (cbn in S3; lia). assert (SI : In s [2; 4]%nat) by (cbn in *; lia).
    replace (demote256_to sg s sg' s' v) with (match sg, sg' with true, _ => demote256_signed_src s sg' s' v | false, true => u2i s' (demote256_signed_src s true s' v) | false, false => demote256_signed_src s false s' (min_signed SSE4 s v) end)
      by (clear - SI; sizes SI; reflexivity).
    destruct sg; [|destruct sg'].
    + destruct (src256_ok s sg' s' v i Hs H8 R Hi) as [E _]. rewrite E. apply VW.
    + destruct (src256_ok s true s' v i Hs H8 R Hi) as [E RR]. unfold u2i. assert (HH : In s' [1; 2; 4; 8]%nat /\ (i < 16 / s')%nat). { clear - Hs Hi. unfold narrower in Hs. enum Hs Hi; cbn; split; try tauto; lia. }
      destruct HH as [HH1 HH2]. rewrite ln_map1_16; [|apply RR|auto|auto]. rewrite E. apply u2i_ok; auto. apply ln_range; auto.
    + destruct (src256_ok s false s' (min_signed SSE4 s v) i Hs H8 (min_signed32_reg s v R SI) Hi) as [E _]. rewrite E, VW. rewrite min_signed32 by auto.
      destruct (clamp_lane_ok SSE4 s s' (ln s i v) Hs H8 (ln_range s i v B)) as [C1 C2]. rewrite swrap_small; [exact C2|unfold bits; cbn in SI; lia|unfold in_s; lia].
Qed.
(** ** two vectors *)
Lemma shuffle_ps256_app i0 i1 i2 i3 a b : length (lo128 a) = 16%nat -> length (hi128 a) = 16%nat -> length (lo128 b) = 16%nat -> length (hi128 b) = 16%nat -> (i0 < 4)%nat -> (i1 < 4)%nat -> (i2 < 4)%nat -> (i3 < 4)%nat ->
  length (shuffle_ps i0 i1 i2 i3 (lo128 a) (lo128 b)) = 16%nat /\ length (shuffle_ps i0 i1 i2 i3 (hi128 a) (hi128 b)) = 16%nat.
Proof.
  intros. unfold shuffle_ps. rewrite !app_length. rewrite !(select_length 4 _ _ 2) by (try reflexivity; cbn [In]; intros j Hj; assert (j < 4)%nat by lia; unfold lane_bytes; rewrite firstn_length, skipn_length; lia). split; reflexivity.
Qed.
Lemma concat_sel (odd : bool) s hi lo i : register 32 hi -> register 32 lo -> In s [4; 8]%nat -> (i < 32 / s)%nat ->
  ln s i (if odd then concat_odd256 s hi lo else concat_even256 s hi lo) = pick2 (32 / s) i (fun i => 2 * i + (if odd then 1 else 0))%nat s hi lo.
Proof. intros [Lh _] [Ll _] H Hi. dreg32 hi Lh. dreg32 lo Ll. sizes H; cbn in Hi; destruct odd; cases_lt i. Qed.
Lemma concat_pack (odd : bool) s hi lo i f : register 32 hi -> register 32 lo -> In s [1; 2]%nat -> (i < 32 / s)%nat ->
  (forall r j, register 32 r -> (j < 16 / s)%nat -> wrap (bits (2 * s)) (f (ln (2 * s) j r)) = ln s (2 * j + (if odd then 1 else 0)) r) ->
  ln s i (select 8 [0; 2; 1; 3]%nat (pack256 (2 * s) false (map1 (2 * s) f lo) (map1 (2 * s) f hi))) = pick2 (32 / s) i (fun i => 2 * i + (if odd then 1 else 0))%nat s hi lo.
Proof.
  intros Rh Rl H Hi HF. assert (D : In (2 * s)%nat [2; 4]%nat /\ In (2 * s)%nat [1; 2; 4; 8]%nat /\ (64 / (2 * s) = 32 / s)%nat /\ (2 * s / 2 = s)%nat /\ (32 / (2 * s) = 16 / s)%nat /\ (32 / s / 2 = 16 / s)%nat /\ (32 / s = 16 / s + 16 / s)%nat /\ (0 < s)%nat) by (sizes H; cbn; repeat split; try tauto; lia).
  destruct D as (D1 & D2 & D3 & D4 & D5 & D6 & D7 & D8). pose proof (ordered_pack (2 * s) false (map1 (2 * s) f lo) (map1 (2 * s) f hi) i (map1_32 _ _ _ Rl D2) (map1_32 _ _ _ Rh D2) D1) as P. rewrite D3, D4, D5 in P. rewrite P by auto. clear P.
  unfold pick2. rewrite D6. unfold from2. destruct (Nat.ltb_spec i (16 / s)).
  - rewrite ln_map1_32 by (auto; rewrite D5; auto). rewrite HF by (auto; lia). pose proof (sat_u_small s (ln s (2 * i + (if odd then 1 else 0)) lo) D8 (ln_range _ _ _ (proj2 Rl))) as X. rewrite (wrap_small (bits (2 * s))) in X; [exact X|]. pose proof (ln_range s (2 * i + (if odd then 1 else 0)) lo (proj2 Rl)) as Y. assert (2 ^ bits s <= 2 ^ bits (2 * s)) by (apply Z.pow_le_mono_r; unfold bits; lia). lia.
  - rewrite ln_map1_32 by (auto; rewrite D5; lia). rewrite HF by (auto; lia). pose proof (sat_u_small s (ln s (2 * (i - 16 / s) + (if odd then 1 else 0)) hi) D8 (ln_range _ _ _ (proj2 Rh))) as X. rewrite (wrap_small (bits (2 * s))) in X; [exact X|]. pose proof (ln_range s (2 * (i - 16 / s) + (if odd then 1 else 0)) hi (proj2 Rh)) as Y. assert (2 ^ bits s <= 2 ^ bits (2 * s)) by (apply Z.pow_le_mono_r; unfold bits; lia). lia.
Qed.
Theorem concat_odd256_ok s hi lo i : register 32 hi -> register 32 lo -> In s [1; 2; 4; 8]%nat -> (i < 32 / s)%nat -> ln s i (concat_odd256 s hi lo) = pick2 (32 / s) i (fun i => 2 * i + 1)%nat s hi lo.
Proof.
  intros Rh Rl H Hi. assert (X : (s = 1 \/ s = 2 \/ In s [4; 8])%nat) by (cbn in *; lia). destruct X as [-> |[-> |X]]; [| |apply (concat_sel true); auto].
  - apply (concat_pack true 1); auto; [cbn; tauto|]. intros r j R Hj. rewrite ln_odd by (try apply R; rewrite (proj1 R); cbn in Hj; lia). change (2 * 1)%nat with 2%nat. pose proof (ln_range 2 j r (proj2 R)) as Y. unfold shr_u. rewrite Z.shiftr_div_pow2 by lia. apply wrap_small. change (bits 2) with 16 in *. change (2 ^ 16) with 65536 in *. change (2 ^ bits 1) with 256. Z.div_mod_to_equations; lia.
  - apply (concat_pack true 2); auto; [cbn; tauto|]. intros r j R Hj. rewrite ln_odd by (try apply R; rewrite (proj1 R); cbn in Hj; lia). change (2 * 2)%nat with 4%nat. pose proof (ln_range 4 j r (proj2 R)) as Y. unfold shr_u. rewrite Z.shiftr_div_pow2 by lia. apply wrap_small. change (bits 4) with 32 in *. change (2 ^ 32) with 4294967296 in *. change (2 ^ bits 2) with 65536. Z.div_mod_to_equations; lia.
Qed.
Theorem concat_even256_ok s hi lo i : register 32 hi -> register 32 lo -> In s [1; 2; 4; 8]%nat -> (i < 32 / s)%nat -> ln s i (concat_even256 s hi lo) = pick2 (32 / s) i (fun i => 2 * i)%nat s hi lo.
Proof.
  intros Rh Rl H Hi. assert (P : forall X, X = pick2 (32 / s) i (fun i => 2 * i + 0)%nat s hi lo -> X = pick2 (32 / s) i (fun i => 2 * i)%nat s hi lo) by (intros X ->; unfold pick2; rewrite !Nat.add_0_r; reflexivity).
  apply P. assert (X : (s = 1 \/ s = 2 \/ In s [4; 8])%nat) by (cbn in *; lia). destruct X as [-> |[-> |X]]; [| |apply (concat_sel false); auto].
  - apply (concat_pack false 1); auto; [cbn; tauto|]. intros r j R Hj. rewrite Nat.add_0_r. rewrite ln_even by apply R. change (2 * 1)%nat with 2%nat. rewrite Z.land_comm. change 255 with (2 ^ 8 - 1). rewrite land_ones' by lia. apply wrap_small. pose proof (wrap_range 8 (ln 2 j r) ltac:(lia)). change (bits 1) with 8. change (bits 2) with 16 in *. change (2 ^ 16) with 65536 in *. change (2 ^ 8) with 256 in *. lia.
  - apply (concat_pack false 2); auto; [cbn; tauto|]. intros r j R Hj. rewrite Nat.add_0_r. rewrite ln_even by apply R. change (2 * 2)%nat with 4%nat. rewrite Z.land_comm. change 65535 with (2 ^ 16 - 1). rewrite land_ones' by lia. apply wrap_small. pose proof (wrap_range 16 (ln 4 j r) ltac:(lia)). change (bits 2) with 16. change (bits 4) with 32 in *. change (2 ^ 32) with 4294967296 in *. change (2 ^ 16) with 65536 in *. lia.
Qed.
Theorem truncate2_256_ok s a b i : In s [2; 4; 8]%nat -> register 32 a -> register 32 b -> (i < 64 / s)%nat -> ln (s / 2) i (truncate2_256 s a b) = wrap (bits (s / 2)) (from2 s (32 / s) i a b).
Proof.
  intros H Ra Rb Hi. unfold truncate2_256. assert (D : In (s / 2)%nat [1; 2; 4; 8]%nat /\ (32 / (s / 2) = 64 / s)%nat /\ (64 / s / 2 = 32 / s)%nat /\ (2 * (s / 2) = s)%nat) by (sizes H; cbn; tauto). destruct D as (D1 & D2 & D3 & D4).
  rewrite concat_even256_ok; [|auto|auto|auto|rewrite D2; auto]. unfold pick2, from2. rewrite D2, D3. destruct (i <? 32 / s)%nat; (rewrite ln_even; [rewrite D4; reflexivity | apply Ra || apply Rb]).
Qed.
(** block [k] of the result holds block [k] of [a], then of [b] *)
Definition reordered (s i : nat) (a b : reg) : Z := let n := (16 / s)%nat in let k := (i / (2 * n))%nat in let j := (i mod (2 * n))%nat in if (j <? n)%nat then ln s (k * n + j) a else ln s (k * n + (j - n)) b.
Lemma pack256_lanes s sg a b i : register 32 a -> register 32 b -> In s [2; 4]%nat -> (i < 64 / s)%nat ->
  ln (s / 2) i (pack256 s sg a b) = wrap (bits (s / 2)) (sat sg (bits (s / 2)) (swrap (bits s) (reordered s i a b))).
Proof.
  intros Ra Rb H Hi. pose proof (lo_reg a Ra). pose proof (hi_reg a Ra). pose proof (lo_reg b Rb). pose proof (hi_reg b Rb). unfold pack256.
  assert (D : In (s / 2)%nat [1; 2; 4; 8]%nat /\ (32 / (s / 2) = 64 / s)%nat /\ (16 / (s / 2) = 32 / s)%nat /\ (32 / s = 2 * (16 / s))%nat /\ (64 / s = 4 * (16 / s))%nat /\ In s [1; 2; 4; 8]%nat /\ (0 < 16 / s)%nat) by (sizes H; cbn; repeat split; try tauto; lia).
  destruct D as (D1 & D2 & D3 & D4 & D5 & D6 & D7). rewrite ln_cat; [|apply pack_reg; auto|apply pack_reg; auto|auto|rewrite D2; auto]. rewrite D3, D4. unfold from2 at 1. unfold reordered. cbn zeta. rewrite D5 in Hi. destruct (Nat.ltb_spec i (2 * (16 / s))).
  - rewrite pack_full by (auto; lia). rewrite (Nat.div_small i), (Nat.mod_small i) by auto. unfold from2. cbn [Nat.mul Nat.add]. destruct (Nat.ltb_spec i (16 / s)); rewrite ln_lo by (auto; lia); reflexivity.
  - rewrite pack_full by (auto; lia). assert (Q1 : (i / (2 * (16 / s)) = 1)%nat) by (symmetry; apply (Nat.div_unique _ _ _ (i - 2 * (16 / s))); lia). assert (Q2 : (i mod (2 * (16 / s)) = i - 2 * (16 / s))%nat) by (symmetry; apply (Nat.mod_unique _ _ 1); lia).
    rewrite Q1, Q2. unfold from2. destruct (Nat.ltb_spec (i - 2 * (16 / s)) (16 / s)); rewrite ln_hi by (auto; lia); do 4 f_equal; lia.
Qed.
Lemma reordered_map s i a b f g : In s [2; 4; 8]%nat -> (i < 64 / s)%nat -> (forall r m, (r = a \/ r = b) -> (m < 32 / s)%nat -> ln s m (f r) = g (ln s m r)) -> reordered s i (f a) (f b) = g (reordered s i a b).
Proof.
  intros H Hi HF. unfold reordered. cbn zeta. assert (D : (32 / s = 2 * (16 / s))%nat /\ (64 / s = 4 * (16 / s))%nat /\ (0 < 16 / s)%nat) by (sizes H; cbn; repeat split; lia). destruct D as (D1 & D2 & D3).
  pose proof (Nat.mod_upper_bound i (2 * (16 / s)) ltac:(lia)) as M. assert (K : (i / (2 * (16 / s)) < 2)%nat) by (apply Nat.div_lt_upper_bound; lia). destruct (Nat.ltb_spec (i mod (2 * (16 / s))) (16 / s)); apply HF; auto; nia.
Qed.
Lemma from2_map s n i a b f g : (i < 2 * n)%nat -> (forall r m, (r = a \/ r = b) -> (m < n)%nat -> ln s m (f r) = g (ln s m r)) -> from2 s n i (f a) (f b) = g (from2 s n i a b).
Proof. intros Hi HF. unfold from2. destruct (Nat.ltb_spec i n); apply HF; auto; lia. Qed.
Lemma reordered_range s i a b : register 32 a -> register 32 b -> 0 <= reordered s i a b < 2 ^ bits s.
Proof. intros [_ A] [_ B]. unfold reordered. cbn zeta. destruct (_ <? _)%nat; apply ln_range; auto. Qed.
(** 64-bit lanes *)
Lemma ps_reorder a b i : register 32 a -> register 32 b -> (i < 8)%nat -> ln 4 i (shuffle_ps256 0 2 0 2 a b) = wrap 32 (reordered 8 i a b).
Proof.
  intros [La Ba] [Lb Bb] Hi. unfold reordered. change (16 / 8)%nat with 2%nat. cbn zeta.
  assert (E : ln 4 i (shuffle_ps256 0 2 0 2 a b) = if (i mod 4 <? 2)%nat then ln 4 (2 * (i / 4 * 2 + i mod 4)) a else ln 4 (2 * (i / 4 * 2 + (i mod 4 - 2))) b).
  { clear Ba Bb. dreg32 a La. dreg32 b Lb. cases_lt i. }
  rewrite E. change (2 * 2)%nat with 4%nat. destruct (i mod 4 <? 2)%nat; rewrite ln_even by auto; reflexivity.
Qed.
Theorem reorder256_ok sg s sg' a b i : In s [2; 4; 8]%nat -> register 32 a -> register 32 b -> (i < 64 / s)%nat ->
  value_of sg' (s / 2) (ln (s / 2) i (demote2_256_reorder sg s sg' a b)) = closest sg' (s / 2) (value_of sg s (reordered s i a b)).
Proof.
  intros H Ra Rb Hi. assert (N : narrower s (s / 2)) by (unfold narrower; sizes H; cbn; tauto). destruct (narrower_facts s (s / 2) N) as (S1 & S2 & S3 & _).
  assert (VW : forall y, value_of sg' (s / 2) (wrap (bits (s / 2)) (closest sg' (s / 2) y)) = closest sg' (s / 2) y) by (intros; apply value_wrap; [lia|apply closest_fits; lia]).
  pose proof (reordered_range s i a b Ra Rb) as RR. destruct (Nat.eq_dec s 8) as [->|N8].
  - unfold demote2_256_reorder. change (8 / 2)%nat with 4%nat in *. rewrite ps_reorder by (try apply map1_32; auto; cbn; tauto).
    rewrite (reordered_map 8 i a b (map1 8 (saturate64 sg sg' 4)) (fun x => wrap (bits 8) (saturate64 sg sg' 4 x))) by (auto; intros r m [-> | ->] Hm; apply ln_map1_32; auto).
    destruct (saturate64_ok sg sg' 4 (reordered 8 i a b) S2 RR) as [E F]. change (bits 8) with 64. rewrite (wrap_small 64) by auto. exact E.
  - assert (SI : In s [2; 4]%nat) by (cbn in *; lia). assert (H8 : (s < 8)%nat) by (cbn in SI; lia).
    replace (demote2_256_reorder sg s sg' a b) with (match sg, sg' with true, _ => pack256 s sg' a b | false, true => u2i (s / 2) (pack256 s true a b) | false, false => pack256 s false (min_signed SSE4 s a) (min_signed SSE4 s b) end)
      by (clear - SI; sizes SI; reflexivity).
    destruct sg; [|destruct sg'].
    + rewrite pack256_lanes by auto. rewrite sat_closest by lia. apply VW.
    + unfold u2i. rewrite ln_map1_32; [|apply pack256_reg; auto|clear - SI Hi; sizes SI; cbn in *; auto]. rewrite pack256_lanes by auto. rewrite sat_closest by lia. apply u2i_ok; auto.
    + rewrite pack256_lanes by (auto; apply min_signed32_reg; auto). rewrite sat_closest by lia. rewrite VW. rewrite (reordered_map s i a b (min_signed SSE4 s) (clamp_lane SSE4 s)) by (auto; intros r m [-> | ->] Hm; apply min_signed32; auto).
      destruct (clamp_lane_ok SSE4 s (s / 2) (reordered s i a b) N H8 RR) as [C1 C2]. rewrite swrap_small; [exact C2|unfold bits; cbn in SI; lia|unfold in_s; lia].
Qed.
Ltac cases_plt i := first [exfalso; lia | destruct i as [|i]; [apply Nat.ltb_lt; reflexivity | cases_plt i]].
Lemma lohi r : register 32 r -> r = lo128 r ++ hi128 r. Proof. intros _. symmetry. apply firstn_skipn. Qed.
Theorem ordered256_ok sg s sg' a b i : In s [2; 4; 8]%nat -> register 32 a -> register 32 b -> (i < 64 / s)%nat ->
  value_of sg' (s / 2) (ln (s / 2) i (demote2_256_ordered sg s sg' a b)) = closest sg' (s / 2) (value_of sg s (from2 s (32 / s) i a b)).
Proof.
  intros H Ra Rb Hi. assert (N : narrower s (s / 2)) by (unfold narrower; sizes H; cbn; tauto). destruct (narrower_facts s (s / 2) N) as (S1 & S2 & S3 & _).
  assert (RG : register 32 (demote2_256_reorder sg s sg' a b)).
  { destruct (Nat.eq_dec s 8) as [->|N8].
    - unfold demote2_256_reorder. assert (XA : register 32 (map1 8 (saturate64 sg sg' 4) a)) by (apply map1_32; auto; cbn; tauto). assert (XB : register 32 (map1 8 (saturate64 sg sg' 4) b)) by (apply map1_32; auto; cbn; tauto).
      set (x := map1 _ _ a) in *. set (y := map1 _ _ b) in *. clearbody x y. pose proof (lo_reg x XA) as [? ?]. pose proof (hi_reg x XA) as [? ?]. pose proof (lo_reg y XB) as [? ?]. pose proof (hi_reg y XB) as [? ?].
      unfold shuffle_ps256. destruct (shuffle_ps256_app 0 2 0 2 x y) as [E1 E2]; auto; try lia. apply app_reg; (split; [auto|]); unfold shuffle_ps; apply Forall_app; split; apply select_byte; auto.
    - assert (SI : In s [2; 4]%nat) by (cbn in *; lia). replace (demote2_256_reorder sg s sg' a b) with (match sg, sg' with true, _ => pack256 s sg' a b | false, true => u2i (s / 2) (pack256 s true a b) | false, false => pack256 s false (min_signed SSE4 s a) (min_signed SSE4 s b) end) by (clear - SI; sizes SI; reflexivity).
      destruct sg; [|destruct sg']; [apply pack256_reg; auto|apply map1_32; [apply pack256_reg; auto|clear - SI; sizes SI; cbn; tauto]|apply pack256_reg; auto; apply min_signed32_reg; auto]. }
  set (p := match i / (16 / s) with 1 => i + 16 / s | 2 => i - 16 / s | _ => i end%nat).
  assert (P : (p < 64 / s)%nat /\ ln (s / 2) i (demote2_256_ordered sg s sg' a b) = ln (s / 2) p (demote2_256_reorder sg s sg' a b) /\ reordered s p a b = from2 s (32 / s) i a b).
  { unfold demote2_256_ordered. destruct RG as [LR _]. set (r := demote2_256_reorder sg s sg' a b) in *. clearbody r. clear - LR H Hi. subst p. split; [|split].
    - assert (K : (i < 32)%nat) by (sizes H; cbn in Hi; lia). sizes H; cbn in Hi; cases_plt i.
    - dreg32 r LR. sizes H; cbn in Hi; cases_lt i.
    - unfold reordered, from2. sizes H; cbn in Hi; cases_lt i. }
  destruct P as (P1 & P2 & P3). rewrite P2, <- P3. apply reorder256_ok; auto.
Qed.
Theorem demote2_avx2_ok sg sg' a b i : register 16 a -> register 16 b -> (i < 4)%nat -> value_of sg' 4 (ln 4 i (demote2_to_avx2 sg sg' a b)) = closest sg' 4 (value_of sg 8 (from2 8 2 i a b)).
Proof.
  intros Ra Rb Hi. unfold demote2_to_avx2. rewrite demote256_ok; [|unfold narrower; cbn; tauto|apply app_reg; auto|cbn; lia]. rewrite ln_cat by (auto; cbn; tauto || lia). reflexivity.
Qed.
