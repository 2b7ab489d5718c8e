(** Odd and even lanes, multiplication on x86: lemmas about moves and lane-wise operations. *)
From Coq Require Import ZArith List Bool Lia Arith.
From Verif Require Import Word Word_Proofs X86Int_Spec X86Int_Model X86Int_Proofs X86Int_Lane X86Int_Sel X86Int_Main X86Int_Two X86Mul_Model Properties_X86Int.
Import ListNotations.
Open Scope Z_scope.
Arguments Z.pow : simpl never.
Arguments Z.mul : simpl never.
Arguments Z.add : simpl never.
Arguments Z.of_nat : simpl never.
Definition size (s : nat) : Prop := In s [1; 2; 4; 8]%nat.
Definition half_size (s : nat) : Prop := In s [1; 2; 4]%nat.
Ltac sizes4 Hs := unfold size, half_size in Hs; cbn [In] in Hs; repeat destruct Hs as [<-|Hs]; try contradiction.
Lemma half_is_size s : half_size s -> size s. Proof. unfold size, half_size. cbn. tauto. Qed.
Lemma dbl_is_size s : half_size s -> size (2 * s). Proof. intros H. sizes4 H; unfold size; cbn; tauto. Qed.
Lemma bits_dbl s : bits (2 * s) = 2 * bits s. Proof. unfold bits. lia. Qed.
Lemma size_pos s : size s -> (0 < s)%nat. Proof. intros H. sizes4 H; lia. Qed.
Lemma half_pos s : half_size s -> (0 < s)%nat. Proof. intros H. sizes4 H; lia. Qed.
Lemma pow_dbl s : 2 ^ bits (2 * s) = 2 ^ bits s * 2 ^ bits s. Proof. rewrite bits_dbl, <- Z.pow_add_r by (unfold bits; lia). f_equal. lia. Qed.
Lemma dbl_lane s j : half_size s -> (j < 16 / (2 * s))%nat -> (2 * j + 1 < 16 / s)%nat. Proof. intros H. sizes4 H; cbn; lia. Qed.
(** ** lane-wise *)
Lemma ln_map1' s f r i : size s -> register 16 r -> (i < 16 / s)%nat -> ln s i (map1 s f r) = wrap (bits s) (f (ln s i r)).
Proof. intros Hs [L B] Hi. apply ln_map1_16; auto. Qed.
Lemma ln_map2 s f a b i : size s -> register 16 a -> register 16 b -> (i < 16 / s)%nat -> ln s i (map2 s f a b) = wrap (bits s) (f (ln s i a) (ln s i b)).
Proof.
  intros Hs [La _] [Lb _] Hi. unfold map2. rewrite ln_of_lanes by (rewrite map_length, List.combine_length, !lanes_length, La, Lb; lia).
  rewrite (nth_map' _ _ i (0, 0)) by (rewrite List.combine_length, !lanes_length, La, Lb; lia). rewrite combine_nth by (rewrite !lanes_length; congruence). cbn [fst snd].
  rewrite !nth_lanes by (rewrite ?La, ?Lb; auto). reflexivity.
Qed.
Lemma map2_reg s f a b : size s -> register 16 a -> register 16 b -> register 16 (map2 s f a b).
Proof.
  intros Hs [La _] [Lb _]. split; [|apply of_lanes_byte]. unfold map2. rewrite of_lanes_length, map_length, List.combine_length, !lanes_length, La, Lb. sizes4 Hs; reflexivity.
Qed.
Lemma ln_pair s j r : half_size s -> register 16 r -> (j < 16 / (2 * s))%nat -> ln (2 * s) j r = ln s (2 * j) r + 2 ^ bits s * ln s (2 * j + 1) r.
Proof.
  intros Hs [L B] Hj. rewrite ln_even by auto. rewrite ln_odd by (auto; rewrite L; sizes4 Hs; cbn in Hj; lia). unfold wrap. pose proof (pow_bits_pos s). pose proof (Z.div_mod (ln (2 * s) j r) (2 ^ bits s) ltac:(lia)). lia.
Qed.
Lemma pair_unique s j r x y : half_size s -> register 16 r -> (j < 16 / (2 * s))%nat -> ln (2 * s) j r = x + 2 ^ bits s * y -> 0 <= x < 2 ^ bits s -> ln s (2 * j) r = x /\ ln s (2 * j + 1) r = y.
Proof.
  intros Hs R Hj E Hx. rewrite (ln_pair s j r Hs R Hj) in E. pose proof (ln_range s (2 * j) r (proj2 R)) as L1. pose proof (pow_bits_pos s) as P. apply and_comm. apply (Z.div_mod_unique (2 ^ bits s)); [left; lia | left; lia | lia].
Qed.
Lemma shr_even s j r : half_size s -> register 16 r -> (j < 16 / (2 * s))%nat -> ln s (2 * j) (map1 (2 * s) (shr_u (bits s)) r) = ln s (2 * j + 1) r /\ ln s (2 * j + 1) (map1 (2 * s) (shr_u (bits s)) r) = 0.
Proof.
  intros Hs R Hj. pose proof (ln_range s (2 * j) r (proj2 R)) as R1. pose proof (ln_range s (2 * j + 1) r (proj2 R)) as R2. pose proof (pow_bits_pos s) as P. assert (D : size (2 * s)) by (apply dbl_is_size; auto).
  apply pair_unique; auto; [apply map1_reg; auto|]. rewrite ln_map1' by auto. rewrite (ln_pair s j r) by auto. unfold shr_u. rewrite Z.shiftr_div_pow2 by (unfold bits; lia). rewrite Z.mul_comm, Z.div_add by lia. rewrite Z.div_small by lia.
  rewrite wrap_small by (rewrite pow_dbl; nia). lia.
Qed.
Lemma shl_even s j r : half_size s -> register 16 r -> (j < 16 / (2 * s))%nat -> ln s (2 * j) (map1 (2 * s) (shl (bits (2 * s)) (bits s)) r) = 0 /\ ln s (2 * j + 1) (map1 (2 * s) (shl (bits (2 * s)) (bits s)) r) = ln s (2 * j) r.
Proof.
  intros Hs R Hj. pose proof (ln_range s (2 * j) r (proj2 R)) as R1. pose proof (pow_bits_pos s) as P. assert (D : size (2 * s)) by (apply dbl_is_size; auto).
  apply pair_unique; auto; [apply map1_reg; auto| |lia]. rewrite ln_map1' by auto. unfold shl. rewrite wrap_wrap by (unfold bits; lia). rewrite Z.shiftl_mul_pow2 by (unfold bits; lia). unfold wrap. rewrite pow_dbl. rewrite Z.mul_mod_distr_r by lia.
  rewrite ln_even by apply R. unfold wrap. lia.
Qed.
(** ** moves *)
Lemma ln_odd_even t s i a b : size s -> register 16 a -> register 16 b -> (i < 16 / s)%nat -> ln s i (odd_even t s a b) = if Nat.odd i then ln s i a else ln s i b.
Proof. intros Hs [La _] [Lb _] Hi. dreg a La. dreg b Lb. sizes4 Hs; cbn in Hi; destruct t; cases_lt i. Qed.
Lemma blend_reg m a b : register 16 a -> register 16 b -> length m = 16%nat -> register 16 (blend m a b).
Proof.
  intros [La Ba] [Lb Bb] Lm. split; [unfold blend; rewrite map_length, !List.combine_length; lia|]. unfold blend. apply Forall_forall. intros x Hx. apply in_map_iff in Hx. destruct Hx as ((c & y & z) & <- & Hc).
  apply in_combine_r in Hc. pose proof (in_combine_l _ _ _ _ Hc). pose proof (in_combine_r _ _ _ _ Hc). rewrite Forall_forall in Ba, Bb. cbn. destruct c; auto.
Qed.
Lemma app_len16 (a b : reg) : length a = 8%nat -> length b = 8%nat -> length (a ++ b) = 16%nat. Proof. rewrite app_length. lia. Qed.
Lemma odd_even_reg t s a b : size s -> register 16 a -> register 16 b -> register 16 (odd_even t s a b).
Proof.
  intros Hs Ra Rb. pose proof Ra as [La Ba]. pose proof Rb as [Lb Bb]. assert (BI : forall s imm, Forall byte (blend_imm s imm a b)). { intros. apply flat_byte. intros i. destruct (Z.testbit _ _); apply lane_bytes_byte; auto. }
  sizes4 Hs; destruct t; cbn [odd_even]; try (apply blend_reg; auto; reflexivity); try (split; [dreg a La; dreg b Lb; reflexivity | solve [apply BI]]); try rg.
  all: split; [dreg a La; dreg b Lb; reflexivity|]; apply Forall_app; split; apply select_byte; auto.
Qed.
Lemma ln_blend2 b0 b1 i a b : length a = 16%nat -> length b = 16%nat -> (i < 16)%nat -> ln 1 i (blend (rep8 [b0; b1]) a b) = if (if Nat.odd i then b1 else b0 : bool) then ln 1 i a else ln 1 i b.
Proof. intros La Lb Hi. dreg a La. dreg b Lb. destruct b0, b1; cases_lt i. Qed.
Lemma half_lane i : (exists j, i = 2 * j /\ Nat.odd i = false /\ i / 2 = j)%nat \/ (exists j, i = 2 * j + 1 /\ Nat.odd i = true /\ i / 2 = j)%nat.
Proof.
  destruct (Nat.Even_or_Odd i) as [[j ->]|[j ->]]; [left|right]; exists j; (split; [reflexivity|]); (split; [|symmetry; rewrite Nat.mul_comm; first [symmetry; apply Nat.div_mul; lia | rewrite Nat.div_add_l by lia; cbn; lia]]).
  - apply (Nat.odd_mul 2 j).
  - rewrite Nat.odd_add, Nat.odd_mul. reflexivity.
Qed.
Definition cfg (s n : nat) : Prop := size s /\ lane_count n /\ (n * s <= 16)%nat.
Definition cfgs : list (nat * nat) := [(1, 1); (1, 2); (1, 4); (1, 8); (1, 16); (2, 1); (2, 2); (2, 4); (2, 8); (4, 1); (4, 2); (4, 4); (8, 1); (8, 2)]%nat.
Lemma cfg_in s n : cfg s n -> In (s, n) cfgs.
Proof. intros (Hs & Hn & H). unfold lane_count in Hn. cbn [In] in Hn. sizes4 Hs; repeat destruct Hn as [<-|Hn]; try contradiction; try lia; cbn; tauto. Qed.
Lemma cfg_lane s n i : cfg s n -> (i < n)%nat -> (i < 16 / s)%nat.
Proof. intros (Hs & _ & H) Hi. apply (lane_lt n); auto. apply size_pos; auto. Qed.
Ltac cfgs_tac Hc := apply cfg_in in Hc; unfold cfgs in Hc; cbn [In] in Hc; repeat destruct Hc as [Hc|Hc]; try contradiction; (inversion Hc; clear Hc; subst).
Lemma ln_dup_even t s n i v : cfg s n -> register 16 v -> (i < n)%nat -> ln s i (dup_even t s n v) = ln s (2 * (i / 2)) v.
Proof.
  intros Hc R Hi. pose proof R as [L B].
  assert (Q : (i < 16)%nat -> ln 1 i (blend (rep8 [false; true]) (map1 2 (shl 16 8) v) v) = ln 1 (2 * (i / 2)) v).
  { intros Hl. rewrite ln_blend2 by (try (apply map1_16; [auto | cbn; tauto]); auto). destruct (half_lane i) as [(j & -> & -> & ->)|(j & -> & -> & ->)]; [reflexivity|].
    apply (shl_even 1 j v); auto; [unfold half_size; cbn; tauto | cbn; lia]. }
  cfgs_tac Hc; destruct t; cbn [dup_even]; first [apply Q; lia | clear Q B R; dreg v L; cases_lt i].
Qed.
Lemma ln_dup_odd t s n i v : cfg s n -> (2 <= n)%nat -> register 16 v -> (i < n)%nat -> ln s i (dup_odd t s n v) = ln s (2 * (i / 2) + 1) v.
Proof.
  intros Hc Hn R Hi. pose proof R as [L B].
  assert (Q : (i < 16)%nat -> ln 1 i (blend (rep8 [true; false]) (map1 2 (shr_u 8) v) v) = ln 1 (2 * (i / 2) + 1) v).
  { intros Hl. rewrite ln_blend2 by (try (apply map1_16; [auto | cbn; tauto]); auto). destruct (half_lane i) as [(j & -> & -> & ->)|(j & -> & -> & ->)]; [|reflexivity].
    apply (shr_even 1 j v); auto; [unfold half_size; cbn; tauto | cbn; lia]. }
  cfgs_tac Hc; try lia; destruct t; cbn [dup_odd Nat.leb]; first [apply Q; lia | clear Q B R Hn; dreg v L; cases_lt i].
Qed.
Lemma ln_int_even t s n i a b : cfg s n -> (2 <= n)%nat -> register 16 a -> register 16 b -> (i < n)%nat -> ln s i (interleave_even t s n a b) = if Nat.odd i then ln s (i - 1) b else ln s i a.
Proof.
  intros Hc Hn Ra Rb Hi. pose proof (cfg_lane s n i Hc Hi) as Hl. unfold interleave_even. destruct (Nat.leb_spec n 2) as [N|N].
  - assert (n = 2%nat) as -> by lia. assert (E : (2 * s / s = 2)%nat) by (apply Nat.div_mul; pose proof (size_pos s (proj1 Hc)); lia).
    rewrite concat_even_ok; [|cfgs_tac Hc; try lia; unfold concat_config; cbn; tauto|auto|auto|rewrite E; auto]. unfold pick2. rewrite E. clear -Hi. destruct i as [|[|]]; [reflexivity|reflexivity|lia].
  - assert (Hs : half_size s) by (cfgs_tac Hc; try lia; unfold half_size; cbn; tauto).
    assert (Q : (s <> 4)%nat -> ln s i (odd_even t s (map1 (2 * s) (shl (bits (2 * s)) (bits s)) b) a) = if Nat.odd i then ln s (i - 1) b else ln s i a).
    { intros _. assert (D : size (2 * s)) by (apply dbl_is_size; auto). rewrite ln_odd_even; [|apply half_is_size; auto | solve [auto | apply map1_reg; auto] | solve [auto | apply map1_reg; auto] | auto]. destruct (half_lane i) as [(j & -> & -> & _)|(j & -> & -> & _)]; [reflexivity|].
      replace (2 * j + 1 - 1)%nat with (2 * j)%nat by lia. apply (shl_even s j b); auto. sizes4 Hs; cbn in *; lia. }
    pose proof Ra as [La _]. pose proof Rb as [Lb _]. cfgs_tac Hc; try lia; try (apply Q; lia); clear Q Ra Rb N Hn Hs. dreg a La. dreg b Lb. cbn in Hi. destruct t; cases_lt i.
Qed.
Lemma ln_int_odd t s n i a b : cfg s n -> (2 <= n)%nat -> register 16 a -> register 16 b -> (i < n)%nat -> ln s i (interleave_odd t s n a b) = if Nat.odd i then ln s i b else ln s (i + 1) a.
Proof.
  intros Hc Hn Ra Rb Hi. pose proof (cfg_lane s n i Hc Hi) as Hl. unfold interleave_odd. destruct (Nat.leb_spec n 2) as [N|N].
  - assert (n = 2%nat) as -> by lia. assert (E : (2 * s / s = 2)%nat) by (apply Nat.div_mul; pose proof (size_pos s (proj1 Hc)); lia).
    rewrite concat_odd_ok; [|cfgs_tac Hc; try lia; unfold concat_config; cbn; tauto|auto|auto|rewrite E; auto]. unfold pick2. rewrite E. clear -Hi. destruct i as [|[|]]; [reflexivity|reflexivity|lia].
  - assert (Hs : half_size s) by (cfgs_tac Hc; try lia; unfold half_size; cbn; tauto).
    assert (Q : (s <> 4)%nat -> ln s i (odd_even t s b (map1 (2 * s) (shr_u (bits s)) a)) = if Nat.odd i then ln s i b else ln s (i + 1) a).
    { intros _. assert (D : size (2 * s)) by (apply dbl_is_size; auto). rewrite ln_odd_even; [|apply half_is_size; auto | solve [auto | apply map1_reg; auto] | solve [auto | apply map1_reg; auto] | auto]. destruct (half_lane i) as [(j & -> & -> & _)|(j & -> & -> & _)]; [|reflexivity].
      apply (shr_even s j a); auto. sizes4 Hs; cbn in *; lia. }
    pose proof Ra as [La _]. pose proof Rb as [Lb _]. cfgs_tac Hc; try lia; try (apply Q; lia); clear Q Ra Rb N Hn Hs. dreg a La. dreg b Lb. cbn in Hi. destruct t; cases_lt i.
Qed.
