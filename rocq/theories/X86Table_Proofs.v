(** Table lookups on x86: proofs, by the value of each byte. *)
From Coq Require Import ZArith List Bool Lia Arith.
From Verif Require Import Word Word_Proofs Float_Conv X86Int_Spec X86Int_Model X86Int_Proofs X86Int_Lane X86Int_Sel X86Int_Main X86Int_Two X86Mul_Model Properties_X86Int X86Mul_Move X86Slide_Model X86Slide_Proofs X86Slide_More X86Slide_Perm X86Table_Model.
Import ListNotations.
Open Scope Z_scope.
Arguments Z.pow : simpl never.
Arguments Z.mul : simpl never.
Arguments Z.add : simpl never.
Arguments Z.of_nat : simpl never.
Lemma nth_byte p r : Forall byte r -> 0 <= nth p r 0 < 256.
Proof. intros H. destruct (nth_in_or_default p r 0) as [I|E]; [|rewrite E; lia]. rewrite Forall_forall in H. apply H in I. exact I. Qed.
Lemma unsigned_nonneg s k r : Forall byte r -> 0 <= unsigned_at s k r.
Proof. intros H. revert k. induction s as [|s IH]; intros k; [reflexivity|]. cbn [unsigned_at]. pose proof (nth_byte k r H). specialize (IH (S k)). lia. Qed.
(** the lowest byte of a small lane *)
Lemma low_byte s i r : (0 < s)%nat -> Forall byte r -> ln s i r < 256 -> nth (i * s) r 0 = ln s i r.
Proof.
  intros Hs B. rewrite <- lvu. unfold lane_value. cbn [andb]. destruct s as [|s]; [lia|]. cbn [unsigned_at]. pose proof (nth_byte (i * S s) r B). pose proof (unsigned_nonneg s (S (i * S s)) r B). lia.
Qed.
Lemma nth_lane_bytes s i q r : (q < s)%nat -> nth q (lane_bytes s i r) 0 = nth (i * s + q) r 0.
Proof. intros H. unfold lane_bytes. rewrite nth_firstn'. apply Nat.ltb_lt in H. rewrite H. apply nth_skipn'. Qed.
Lemma nth_map1 s f r j q : size s -> register 16 r -> (j < 16 / s)%nat -> (q < s)%nat -> nth (j * s + q) (map1 s f r) 0 = nth q (bytes s (f (ln s j r))) 0.
Proof.
  intros Hs [L _] Hj Hq. rewrite <- nth_lane_bytes by auto. unfold map1. rewrite lane_bytes_of_lanes by (rewrite map_length, lanes_length, L; auto).
  rewrite (nth_map' _ _ j 0) by (rewrite lanes_length, L; auto). rewrite nth_lanes by (rewrite L; auto). reflexivity.
Qed.
Lemma nth_map2_1 f a b p : register 16 a -> register 16 b -> (p < 16)%nat -> nth p (map2 1 f a b) 0 = wrap 8 (f (nth p a 0) (nth p b 0)).
Proof.
  intros Ra Rb Hp. assert (S1 : size 1) by (unfold size; cbn; tauto). pose proof (map2_reg 1 f a b S1 Ra Rb) as R. rewrite <- (ln1 p (map2 1 f a b)) by (rewrite (proj1 R); auto). rewrite ln_map2 by auto.
  rewrite !ln1 by (rewrite ?(proj1 Ra), ?(proj1 Rb); auto). reflexivity.
Qed.
Lemma nth_shl16 k r p : 0 <= k -> register 16 r -> (forall q, (q < 16)%nat -> nth q r 0 * 2 ^ k < 256) -> (p < 16)%nat -> nth p (map1 2 (shl 16 k) r) 0 = nth p r 0 * 2 ^ k.
Proof.
  intros Hk R H Hp. pose proof R as [L B]. set (j := (p / 2)%nat). set (q := (p mod 2)%nat). assert (E : p = (j * 2 + q)%nat) by (unfold j, q; rewrite Nat.mul_comm; apply Nat.div_mod; lia).
  assert (Hq : (q < 2)%nat) by (apply Nat.mod_upper_bound; lia). rewrite E. rewrite nth_map1; [| unfold size; cbn; tauto | auto | change (16 / 2)%nat with 8%nat; lia | auto].
  assert (F : bytes 2 (shl 16 k (ln 2 j r)) = [nth (j * 2) r 0 * 2 ^ k; nth (j * 2 + 1) r 0 * 2 ^ k]).
  { pose proof (H (j * 2)%nat ltac:(lia)) as H0. pose proof (H (j * 2 + 1)%nat ltac:(lia)) as H1. pose proof (nth_byte (j * 2) r B) as B0. pose proof (nth_byte (j * 2 + 1) r B) as B1. pose proof (pow2_gt0 k Hk) as P.
    assert (ln 2 j r = nth (j * 2) r 0 + 256 * nth (j * 2 + 1) r 0) as -> by (rewrite <- lvu; unfold lane_value; cbn [andb unsigned_at]; replace (S (j * 2)) with (j * 2 + 1)%nat by lia; lia).
    set (x := nth (j * 2) r 0) in *. set (y := nth (j * 2 + 1) r 0) in *. unfold shl. rewrite Z.shiftl_mul_pow2 by auto. assert (0 <= x * 2 ^ k) by (apply Z.mul_nonneg_nonneg; lia). assert (0 <= y * 2 ^ k) by (apply Z.mul_nonneg_nonneg; lia).
    replace ((x + 256 * y) * 2 ^ k) with (le [x * 2 ^ k; y * 2 ^ k]) by (cbn [le]; lia). rewrite wrap_small by (cbn [le]; change (2 ^ 16) with 65536; lia). apply (bytes_le [_; _]). unfold byte. repeat constructor; lia. }
  rewrite F. destruct q as [|[|q]]; [cbn [nth]; rewrite Nat.add_0_r; reflexivity | reflexivity | lia].
Qed.
(** ** TableLookupBytes *)
Lemma nth_table t v from p : (p < length from)%nat -> 0 <= nth p from 0 < 128 -> nth p (table_bytes t v from) 0 = nth (Z.to_nat (nth p from 0 mod 16)) v 0.
Proof.
  intros Hp H. destruct t; cbn [table_bytes].
  - rewrite (nth_map' _ _ p 0) by auto. rewrite (land_ones' _ 4) by lia. reflexivity.
  - rewrite nth_pshufb by auto. cbv zeta. assert (128 <=? nth p from 0 = false) as -> by (apply Z.leb_gt; lia). reflexivity.
  - rewrite nth_pshufb by auto. cbv zeta. assert (128 <=? nth p from 0 = false) as -> by (apply Z.leb_gt; lia). reflexivity.
Qed.
Lemma table_reg t v from : register 16 v -> length from = 16%nat -> register 16 (table_bytes t v from).
Proof.
  intros [L B] F. destruct t; cbn [table_bytes]; try (apply pshufb_reg; [split; auto | auto]). split; [rewrite map_length; auto|]. apply Forall_forall. intros x Hx. apply in_map_iff in Hx. destruct Hx as (i & <- & _). apply nth_byte. auto.
Qed.
(** ** indices of bytes *)
Definition wide (s : nat) : Prop := s = 2%nat \/ s = 4%nat.
Lemma nth_bcast s p : wide s -> (p < 16)%nat -> nth p (broadcast_bytes s) 0 = Z.of_nat (p / s * s).
Proof. intros _ H. unfold broadcast_bytes. rewrite (nth_map' _ _ p 0%nat) by (rewrite seq_length; auto). rewrite seq_nth by auto. reflexivity. Qed.
Lemma nth_offsets s p : wide s -> (p < 16)%nat -> nth p (byte_offsets s) 0 = Z.of_nat (p mod s).
Proof. intros _ H. unfold byte_offsets. rewrite (nth_map' _ _ p 0%nat) by (rewrite seq_length; auto). rewrite seq_nth by auto. reflexivity. Qed.
Lemma small_reg l : length l = 16%nat -> (forall p, (p < 16)%nat -> 0 <= nth p l 0 < 256) -> register 16 l.
Proof. intros L H. split; auto. apply Forall_forall. intros x Hx. destruct (In_nth l x 0 Hx) as (p & Hp & <-). apply H. lia. Qed.
Lemma load_len nb l : (nb <= 16)%nat -> length l = 16%nat -> length (load nb l) = 16%nat.
Proof. intros. unfold load. rewrite app_length, firstn_length, repeat_length. lia. Qed.
Lemma div_lt_16 s p : wide s -> (p < 16)%nat -> (p / s * s <= p)%nat /\ (p / s * s < 16)%nat.
Proof. intros H Hp. assert (s <> 0)%nat by (destruct H; lia). pose proof (Nat.mul_div_le p s ltac:(auto)). lia. Qed.
Lemma to_byte_ok t s n vec i q : wide s -> lane_count n -> (n * s <= 16)%nat -> register 16 vec -> (forall j, (j < n)%nat -> ln s j vec < 32 / Z.of_nat s) -> (i < n)%nat -> (q < s)%nat ->
  nth (i * s + q) (to_byte_indices t s n vec) 0 = ln s i vec * Z.of_nat s + Z.of_nat q /\ length (to_byte_indices t s n vec) = 16%nat.
Proof.
  intros Hw Hn H R X Hi Hq. pose proof R as [L B]. assert (S0 : (0 < s)%nat) by (destruct Hw; lia). assert (N0 : (0 < n)%nat) by lia.
  assert (S1 : size 1) by (unfold size; cbn; tauto). assert (S2 : size 2) by (unfold size; cbn; tauto).
  assert (LB : length (broadcast_bytes s) = 16%nat) by (unfold broadcast_bytes; rewrite map_length; apply seq_length). assert (LO : length (byte_offsets s) = 16%nat) by (unfold byte_offsets; rewrite map_length; apply seq_length).
  set (k := if (s =? 2)%nat then 1 else 2). assert (K : 2 ^ k = Z.of_nat s /\ 0 <= k /\ 32 / Z.of_nat s * Z.of_nat s = 32) by (unfold k; destruct Hw; subst s; cbn; repeat split; lia). destruct K as (K & K0 & K32).
  set (bc := load (n * s) (broadcast_bytes s)). assert (LBC : length bc = 16%nat) by (apply load_len; auto).
  assert (NBC : forall p, (p < 16)%nat -> nth p bc 0 = if (p <? n * s)%nat then Z.of_nat (p / s * s) else 0) by (intros p Hp; unfold bc; rewrite nth_load, nth_bcast by auto; reflexivity).
  set (li := table_bytes t vec bc). assert (RL : register 16 li) by (apply table_reg; auto).
  assert (NL : forall p, (p < 16)%nat -> nth p li 0 = if (p <? n * s)%nat then ln s (p / s) vec else ln s 0 vec).
  { intros p Hp. pose proof (div_lt_16 s p Hw Hp) as [D1 D2]. assert (E0 : nth (0 * s) vec 0 = ln s 0 vec) by (apply low_byte; auto; specialize (X 0%nat N0); assert (32 / Z.of_nat s <= 32) by (destruct Hw; subst s; cbn; lia); lia).
    unfold li. rewrite nth_table; rewrite ?LBC; auto; rewrite NBC by auto.
    - destruct (Nat.ltb_spec p (n * s)) as [C|C]; [|exact E0]. rewrite Z.mod_small by lia. rewrite Nat2Z.id. apply low_byte; auto. assert (p / s < n)%nat by (apply Nat.div_lt_upper_bound; nia). specialize (X (p / s)%nat ltac:(auto)). assert (32 / Z.of_nat s <= 32) by (destruct Hw; subst s; cbn; lia). lia.
    - destruct (p <? n * s)%nat; lia. }
  assert (SM : forall p, (p < 16)%nat -> nth p li 0 * 2 ^ k < 32 /\ 0 <= nth p li 0).
  { intros p Hp. split; [|apply nth_byte; apply RL]. rewrite K, NL by auto. assert (A : forall j, (j < n)%nat -> ln s j vec * Z.of_nat s < 32) by (intros j Hj; specialize (X j Hj); rewrite <- K32; apply Z.mul_lt_mono_pos_r; lia).
    destruct (Nat.ltb_spec p (n * s)) as [C|C]; apply A; auto. apply Nat.div_lt_upper_bound; nia. }
  assert (R2 : register 16 (map1 2 (shl 16 k) li)) by (apply map1_reg; auto).
  assert (RO : register 16 (load (n * s) (byte_offsets s))).
  { apply small_reg; [apply load_len; auto|]. intros p Hp. rewrite nth_load. destruct (p <? n * s)%nat; [|lia]. rewrite nth_offsets by auto. pose proof (Nat.mod_upper_bound p s ltac:(lia)). destruct Hw; subst s; lia. }
  assert (R3 : register 16 (to_byte_indices t s n vec)) by (apply map2_reg; auto). split; [|apply R3].
  assert (P16 : (i * s + q < n * s)%nat) by nia. unfold to_byte_indices. fold bc. fold li. fold k. unfold add. rewrite nth_map2_1 by (auto; lia). rewrite nth_shl16; auto; [|intros p Hp; pose proof (SM p Hp); lia | lia].
  pose proof (SM (i * s + q)%nat ltac:(lia)) as [M1 M0]. assert (DM : ((i * s + q) / s = i /\ (i * s + q) mod s = q)%nat) by (split; [rewrite Nat.div_add_l by lia; rewrite Nat.div_small by auto; lia | rewrite Nat.add_comm, Nat.mod_add by lia; apply Nat.mod_small; auto]).
  destruct DM as [D M]. rewrite nth_load, nth_offsets by (auto; lia). rewrite M. rewrite NL in * by lia. apply Nat.ltb_lt in P16. rewrite P16 in *. rewrite D, K in *. apply wrap_small. destruct Hw; subst s; lia.
Qed.
(** a lookup through indices of bytes copies lanes *)
Lemma lane_by_bytes s i x v r idx t : (0 < s)%nat -> length idx = 16%nat -> (i * s + s <= 16)%nat -> 0 <= x -> x * Z.of_nat s + Z.of_nat s <= 16 ->
  (forall q, (q < s)%nat -> nth (i * s + q) idx 0 = x * Z.of_nat s + Z.of_nat q) -> r = table_bytes t v idx -> ln s i r = ln s (Z.to_nat x) v.
Proof.
  intros Hs L Hi X0 X1 H ->. rewrite <- !lvu. apply lane_ext. intros q Hq. assert (E := H q Hq). assert (X2 : 0 <= x * Z.of_nat s) by (apply Z.mul_nonneg_nonneg; lia). rewrite nth_table by (rewrite ?L, ?E; lia). rewrite E. f_equal. rewrite Z.mod_small by lia.
  rewrite Z2Nat.inj_add, Z2Nat.inj_mul by lia. rewrite !Nat2Z.id. reflexivity.
Qed.
Lemma ln_gather s v idx i : size s -> register 16 v -> register 16 idx -> (i < 16 / s)%nat -> 0 <= ln s i idx < Z.of_nat (16 / s) -> ln s i (gather s v idx) = ln s (Z.to_nat (ln s i idx)) v.
Proof.
  intros Hs [Lv Bv] [Li Bi] Hi X. unfold gather. rewrite ln_of_lanes by (rewrite map_length, lanes_length, Li; auto). rewrite (nth_map' _ _ i 0) by (rewrite lanes_length, Li; auto). rewrite (nth_lanes s idx) by (rewrite Li; auto).
  assert (Z.land (ln s i idx) (Z.of_nat (16 / s) - 1) = ln s i idx) as ->.
  { sizes4 Hs; [change (16 / 1)%nat with 16%nat in * | change (16 / 2)%nat with 8%nat in * | change (16 / 4)%nat with 4%nat in * | change (16 / 8)%nat with 2%nat in *];
    [change (Z.of_nat 16 - 1) with (2 ^ 4 - 1) | change (Z.of_nat 8 - 1) with (2 ^ 3 - 1) | change (Z.of_nat 4 - 1) with (2 ^ 2 - 1) | change (Z.of_nat 2 - 1) with (2 ^ 1 - 1)]; rewrite land_ones' by lia; apply Z.mod_small; exact X. }
  rewrite nth_lanes by (rewrite Lv; lia). apply wrap_small. apply ln_range; auto.
Qed.
