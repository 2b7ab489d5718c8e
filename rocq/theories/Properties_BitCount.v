(** C77: LeadingZeroCount, TrailingZeroCount, HighestSetBitIndex of
    hwy/ops/generic_ops-inl.h. Lanes are given by their bits, as testbit. *)
From Coq Require Import ZArith List Bool Lia.
From Verif Require Import Word Word_Proofs IntOps_Proofs BitCount_Model BitCount_Proofs.
Import ListNotations.
Local Open Scope Z_scope.

Definition lanes (w : Z) (v : list Z) : Prop := Forall (fun x => 0 <= x < 2 ^ w) v.
(** what the three counts are *)
Definition is_lzc (w x r : Z) : Prop := 0 <= r <= w /\ (forall j, w - r <= j < w -> Z.testbit x j = false) /\ (r < w -> Z.testbit x (w - 1 - r) = true).
Definition is_tzc (w x r : Z) : Prop := 0 <= r <= w /\ (forall j, 0 <= j < r -> Z.testbit x j = false) /\ (r < w -> Z.testbit x r = true).
Definition is_highest (w x r : Z) : Prop := 0 <= r < w /\ Z.testbit x r = true /\ (forall j, r < j < w -> Z.testbit x j = false).
(** the specifications determine the result *)
Lemma lzc_unique w x r r' : is_lzc w x r -> is_lzc w x r' -> r = r'.
Proof.
  intros (B & Z1 & O1) (B' & Z2 & O2). destruct (Z.lt_trichotomy r r') as [H|[H|H]]; [|exact H|].
  - rewrite Z2 in O1 by lia. specialize (O1 ltac:(lia)). discriminate.
  - rewrite Z1 in O2 by lia. specialize (O2 ltac:(lia)). discriminate.
Qed.
Lemma tzc_unique w x r r' : is_tzc w x r -> is_tzc w x r' -> r = r'.
Proof.
  intros (B & Z1 & O1) (B' & Z2 & O2). destruct (Z.lt_trichotomy r r') as [H|[H|H]]; [|exact H|].
  - rewrite Z2 in O1 by lia. specialize (O1 ltac:(lia)). discriminate.
  - rewrite Z1 in O2 by lia. specialize (O2 ltac:(lia)). discriminate.
Qed.
Lemma Forall2_map_r {A B} (R : A -> B -> Prop) (P : A -> Prop) (f : A -> B) l : (forall x, P x -> R x (f x)) -> Forall P l -> Forall2 R l (map f l).
Proof. intros H. induction 1; cbn; constructor; auto. Qed.
Lemma lowest_exists w v : 0 < w -> 0 < v < 2 ^ w -> exists k, 0 <= k < w /\ Z.testbit v k = true /\ (forall j, 0 <= j < k -> Z.testbit v j = false).
Proof.
  intros Hw Hv. assert (H : forall n : nat, (forall j, 0 <= j < Z.of_nat n -> Z.testbit v j = false) \/ exists k, 0 <= k < Z.of_nat n /\ Z.testbit v k = true /\ (forall j, 0 <= j < k -> Z.testbit v j = false)).
  { induction n as [|n [IH|IH]]; [left; lia| |right; destruct IH as (k & ? & ? & ?); exists k; repeat split; try lia; assumption].
    destruct (Z.testbit v (Z.of_nat n)) eqn:T.
    - right. exists (Z.of_nat n). repeat split; try lia; assumption.
    - left. intros j Hj. destruct (Z.eq_dec j (Z.of_nat n)) as [->|]; [assumption|]. apply IH. lia. }
  destruct (H (Z.to_nat w)) as [A|(k & A & B & C)].
  - exfalso. assert (v = 0); [|lia]. apply Z.bits_inj'. intros j Hj. rewrite Z.bits_0. destruct (Z_lt_ge_dec j w); [apply A; lia|]. apply (testbit_small v w); lia.
  - exists k. repeat split; try lia; assumption.
Qed.
(** C77: for every lane of every width, on every kind of target *)
Theorem C77_leading_zero_count : forall scalar sse bytes w v, width w -> lanes w v ->
  Forall2 (is_lzc w) v (map (leading_zero_count scalar sse bytes w) v).
Proof.
  intros scalar sse bytes w v Hw. apply Forall2_map_r. intros x Hx. rewrite lzc_ok by assumption. pose proof (width_b w Hw). destruct (Z.eqb_spec x 0) as [->|].
  - split; [lia|]. split; [intros; apply Z.bits_0|lia].
  - pose proof (log2_b x w ltac:(lia)). split; [lia|]. split.
    + intros j Hj. apply Z.bits_above_log2; lia.
    + intros _. replace (w - 1 - (w - 1 - Z.log2 x)) with (Z.log2 x) by lia. apply Z.bit_log2. lia.
Qed.
Theorem C77_trailing_zero_count : forall scalar sse bytes w v, width w -> lanes w v ->
  Forall2 (is_tzc w) v (map (trailing_zero_count scalar sse bytes w) v).
Proof.
  intros scalar sse bytes w v Hw. apply Forall2_map_r. intros x Hx. pose proof (width_b w Hw). destruct (Z.eq_dec x 0) as [->|].
  - rewrite tzc_0 by assumption. split; [lia|]. split; [intros; apply Z.bits_0|lia].
  - destruct (lowest_exists w x ltac:(lia) ltac:(lia)) as (k & Hk & B & C). rewrite (tzc_ok scalar sse bytes w x k) by assumption. split; [lia|]. split; [assumption|intros _; assumption].
Qed.
(** C77: the highest set bit of non-zero lanes; zero lanes give a value with the top bit set (negative for signed lanes) *)
Theorem C77_highest_set_bit : forall scalar sse bytes w v, width w -> lanes w v ->
  Forall2 (fun x r => (x <> 0 -> is_highest w x r) /\ (x = 0 -> 2 ^ (w - 1) <= r < 2 ^ w)) v (map (highest_set_bit scalar sse bytes w) v).
Proof.
  intros scalar sse bytes w v Hw. apply Forall2_map_r. intros x Hx. pose proof (width_b w Hw). split; [intros Hx0|intros ->].
  - rewrite hsb_ok by (try assumption; lia). pose proof (log2_b x w ltac:(lia)). split; [lia|]. split; [apply Z.bit_log2; lia|]. intros j Hj. apply Z.bits_above_log2; lia.
  - rewrite hsb_0 by assumption. pose proof (IntOps_Proofs.pow_half w ltac:(lia)). assert (2 ^ 7 <= 2 ^ (w - 1)) by (apply Z.pow_le_mono_r; lia). lia.
Qed.
Transparent Float_Model.f32_of_uint.
Example C77_nonvacuous :
  map (leading_zero_count false true true 32) [0; 1; 0xFFFFFFFF; 0x01FFFFFF] = [32; 31; 0; 7] /\
  map (leading_zero_count false false false 64) [0x00FFFFFFFFFFFFFF; 0x00000000FFFFFFFF; 0] = [8; 32; 64] /\
  map (trailing_zero_count false true true 64) [0; 0x8000000000000000; 12] = [64; 63; 2] /\
  map (highest_set_bit true false false 16) [0xFFFF; 5] = [15; 2] /\ lanes 32 [0; 1; 0xFFFFFFFF; 0x01FFFFFF].
Proof. do 4 (split; [vm_compute; reflexivity|]). unfold lanes. repeat constructor; lia. Qed.
