(** C108-C112: shifts, rotates and bit permutations (spec: Shift_Spec.v). *)
From Coq Require Import ZArith List Bool Lia.
From Verif Require Import Word Ops_Model Shift_Spec Shift_Model Shift_Proofs Shift_Var BitPerm_Model BitPerm_Proofs BitPerm_Shuffle.
Import ListNotations.
Open Scope Z_scope.
Ltac Zify.zify_post_hook ::= idtac.

(** ** C108: ShiftLeft, ShiftRight, ShiftLeftSame, ShiftRightSame *)
Theorem C108_shift_left8 k v : 0 <= k < 8 -> Nat.Even (length v) -> Forall (lane 8) v ->
  shift_left8 k v = map (shl_spec 8 k) v /\ shift_left_same8 k v = map (shl_spec 8 k) v.
Proof. intros. split; [now apply shift_left8_ok|now apply shift_left_same8_ok]. Qed.
Theorem C108_shift_right_u8 k v : 0 <= k < 8 -> Nat.Even (length v) -> Forall (lane 8) v ->
  shift_right_u8 k v = map (shr_spec k) v /\ shift_right_same_u8 k v = map (shr_spec k) v.
Proof. intros. split; [now apply shift_right_u8_ok|now apply shift_right_same_u8_ok]. Qed.
Theorem C108_shift_right_i8 k v : 0 <= k < 8 -> Nat.Even (length v) -> Forall (lane 8) v ->
  Forall2 (sar_spec 8 k) v (shift_right_i8 k v) /\ Forall2 (sar_spec 8 k) v (shift_right_same_i8 k v).
Proof. intros. split; [now apply shift_right_i8_ok|now apply shift_right_same_i8_ok]. Qed.
Theorem C108_shift_right_i64 cmp k x : 0 <= k < 64 -> lane 64 x -> sar_spec 64 k x (shift_right_i64 cmp k x).
Proof. apply shift_right_i64_ok. Qed.
Theorem C108_gfni k x : 0 <= k < 8 -> lane 8 x ->
  gf_shift_left k x = shl_spec 8 k x /\ gf_shift_right_u8 k x = shr_spec k x /\ sar_spec 8 k x (gf_shift_right_i8 k x).
Proof. intros. repeat split; [now apply gf_shift_left_ok|now apply gf_shift_right_u8_ok|now apply gf_shift_right_i8_ok|now apply gf_shift_right_i8_ok|now apply gf_shift_right_i8_ok]. Qed.
Theorem C108_broadcast_sign cmp x y : lane 64 x -> lane 8 y ->
  broadcast_sign64 cmp x = (if signed 64 x <? 0 then 2 ^ 64 - 1 else 0) /\ gf_broadcast_sign8 y = (if signed 8 y <? 0 then 255 else 0).
Proof. intros. split; [now apply broadcast64_ok|now apply gf_broadcast_sign8_ok]. Qed.
(** bytes of a pair do not leak into each other: 0x81, 0xFF << 3 and >> 3; -1 >> 63 and -2^63 >> 1 *)
Example C108_ex : shift_left8 3 [0x81; 0xFF] = [0x08; 0xF8] /\ shift_right_u8 3 [0x81; 0xFF] = [0x10; 0x1F] /\ shift_right_i8 3 [0x81; 0x7F] = [0xF0; 0x0F] /\
  shift_left_same8 1 [0x81; 0x80] = [2; 0] /\ shift_right_i64 false 63 (2 ^ 64 - 1) = 2 ^ 64 - 1 /\ shift_right_i64 true 1 (2 ^ 63) = 2 ^ 63 + 2 ^ 62 /\
  gf_shift_right_i8 3 0x81 = 0xF0.
Proof. vm_compute. repeat split. Qed.

(** ** C109: Shl, Shr (variable counts) *)
(** what the proofs assume of the rounding of CVTPS2DQ / CVTTPS2DQ: integers (in units of 2^-1074) convert to themselves *)
Definition rounds_integers (rnd : Z -> Z) : Prop := forall i, 0 <= i -> rnd (i * 2 ^ 1074) = i.
Lemma shl_lanes_map2 w v b : length b = length v -> shl_lanes w v b (map2 (fun x k => shl_spec w k x) v b).
Proof. intros H. apply Forall3_map2; [lia|reflexivity]. Qed.
Lemma shr_lanes_map2 v b : length b = length v -> shr_lanes v b (map2 (fun x k => shr_spec k x) v b).
Proof. intros H. apply Forall3_map2; [lia|reflexivity]. Qed.
Theorem C109_sse_16 t rnd v b : rounds_integers rnd -> length b = length v -> Forall (lane 16) v -> counts 16 b ->
  shl_lanes 16 v b (shl_16 t rnd v b) /\ shr_lanes v b (shr_16 t rnd v b).
Proof. intros H Hl Hv Hb. rewrite shl_16_ok, shr_16_ok by assumption. split; [now apply shl_lanes_map2|now apply shr_lanes_map2]. Qed.
Theorem C109_sse_8 t rnd v b : rounds_integers rnd -> length b = length v -> Nat.Even (length v) -> Forall (lane 8) v -> counts 8 b ->
  shl_lanes 8 v b (shl_8 t rnd v b) /\ shr_lanes v b (shr_8 t rnd v b).
Proof. intros H Hl He Hv Hb. rewrite shl_8_ok, shr_8_ok by assumption. split; [now apply shl_lanes_map2|now apply shr_lanes_map2]. Qed.
Theorem C109_sse_32 rnd v b : rounds_integers rnd -> length v = 4%nat -> length b = 4%nat -> Forall (lane 32) v -> counts 32 b ->
  shl_lanes 32 v b (shl_32 rnd v b) /\ shr_lanes v b (shr_32 rnd v b).
Proof. intros H Hv4 Hb4 Hv Hb. rewrite shl_32_ok, shr_32_ok by assumption. split; [apply shl_lanes_map2; congruence|apply shr_lanes_map2; congruence]. Qed.
Theorem C109_sse_64 v b : length v = 2%nat -> length b = 2%nat -> counts 64 b -> shl_lanes 64 v b (shl_64 v b) /\ shr_lanes v b (shr_64 v b).
Proof. intros Hv Hb Hc. rewrite shl_64_ok, shr_64_ok by assumption. split; [apply shl_lanes_map2; congruence|apply shr_lanes_map2; congruence]. Qed.
(** one 8-bit lane, whatever is in the rest of the register *)
Theorem C109_sse_8_single x g b gb : lane 8 x -> lane 8 g -> 0 <= b < 8 -> lane 8 gb ->
  shl_8_1 x g b gb = shl_spec 8 b x /\ shr_8_1 x g b gb = shr_spec b x.
Proof. intros. split; [now apply shl_8_1_ok|now apply shr_8_1_ok]. Qed.
(** signed Shr from the unsigned one, for lanes of any width *)
Theorem C109_signed w shr v b : 0 < w -> (forall u c, length u = length v -> length c = length u -> Forall (lane w) u -> counts w c -> shr_lanes u c (shr u c)) ->
  length b = length v -> Forall (lane w) v -> counts w b -> sar_lanes w v b (signed_shr w shr v b).
Proof.
  intros Hw Hs Hl Hv Hb. apply (signed_shr_ok w shr (fun u => length u = length v)); try assumption.
  - intros u c Hu Hc Hul Hcc. specialize (Hs u c Hu Hc Hul Hcc). revert Hs. clear. unfold shr_lanes, map2. generalize (shr u c). revert c.
    induction u as [|x u IH]; intros [|k c] [|y r]; cbn [Forall3]; try tauto; try reflexivity. intros [-> H]. cbn [combine map fst snd]. now rewrite (IH _ _ H).
  - unfold vxor, map2. rewrite map_length, combine_length, map_length. lia.
Qed.
Theorem C109_avx2 w W v b : 0 < w < W -> length b = length v -> Forall (lane w) v -> counts w b ->
  shl_lanes w v b (avx2_shl w W v b) /\ shr_lanes v b (avx2_shr_u w W v b) /\ sar_lanes w v b (avx2_shr_i w W v b).
Proof.
  intros Hw Hl Hv Hb. rewrite avx2_shl_ok by (assumption || lia). rewrite avx2_shr_u_ok by assumption.
  split; [now apply shl_lanes_map2|]. split; [now apply shr_lanes_map2|now apply avx2_shr_i_ok].
Qed.
Theorem C109_avx2_8 v b : length b = length v -> Forall (lane 8) v -> counts 8 b ->
  shr_lanes v b (avx2_shr_u8_full v b) /\ sar_lanes 8 v b (avx2_shr_i8_full v b) /\ shl_lanes 8 v b (gf_shl_8 v b).
Proof.
  intros Hl Hv Hb. rewrite avx2_shr_u8_full_ok by assumption. rewrite gf_shl_8_ok by assumption.
  split; [now apply shr_lanes_map2|]. split; [now apply avx2_shr_i8_full_ok|now apply shl_lanes_map2].
Qed.
Definition rnd_trunc (v : Z) : Z := Z.quot v (2 ^ 1074).
Lemma C109_hyp : rounds_integers rnd_trunc.
Proof. intros i Hi. unfold rnd_trunc. apply Z.quot_mul. apply Z.pow_nonzero; lia. Qed.
Example C109_ex : shl_16 SSE2 rnd_trunc [0xFFFF; 1; 3] [15; 0; 4] = [0x8000; 1; 48] /\ shr_16 SSE4 rnd_trunc [0xFFFF; 0x8000] [15; 0] = [1; 0x8000] /\
  shl_8 SSSE3 rnd_trunc [0xFF; 0x81] [1; 7] = [0xFE; 0x80] /\ shr_8 SSE2 rnd_trunc [0xFF; 0x81] [1; 0] = [0x7F; 0x81] /\
  shr_32 rnd_trunc [0xFFFFFFFF; 0x80000000; 7; 9] [31; 1; 0; 2] = [1; 0x40000000; 7; 2] /\
  signed_shr 8 (shr_8 SSE2 rnd_trunc) [0x80; 0x7F] [7; 3] = [0xFF; 0x0F] /\ gf_shl_8 [0xFF; 0x81] [1; 7] = [0xFE; 0x80].
Proof. vm_compute. repeat split. Qed.

(** ** C110: rotates *)
(** RotateRight<k>, RotateLeft<k> of 16, 32 and 64-bit lanes, with the shift instructions *)
Lemma instr_ops w : width w -> shl_op w (fun k => map (slli w k)) (fun _ => True) /\ shr_op w (fun k => map (srli w k)) (fun _ => True).
Proof. intros H. split; intros k v Hk _ Hv; apply map_ext; intros x; [apply slli_spec|apply srli_spec]; lia. Qed.
Theorem C110_rotate w k v : width w -> 0 <= k < w -> Forall (lane w) v ->
  Forall2 (rotated_left w (- k)) v (rotate_right w (fun k => map (srli w k)) (fun k => map (slli w k)) k v) /\
  Forall2 (rotated_left w k) v (rotate_left w (fun k => map (srli w k)) (fun k => map (slli w k)) k v).
Proof.
  intros Hw Hk Hv. destruct (instr_ops w Hw) as [H1 H2]. pose proof (width_pos w Hw). split.
  - now apply (rotate_right_ok w _ _ (fun _ => True)).
  - now apply (rotate_left_ok w _ _ (fun _ => True)).
Qed.
(** 8-bit lanes: on the shifts of C108, and GFNI *)
Lemma ops8 : shl_op 8 shift_left8 (fun v => Nat.Even (length v)) /\ shr_op 8 shift_right_u8 (fun v => Nat.Even (length v)).
Proof. split; intros k v Hk He Hv; [now apply shift_left8_ok|now apply shift_right_u8_ok]. Qed.
Theorem C110_rotate8 k v : 0 <= k < 8 -> Nat.Even (length v) -> Forall (lane 8) v ->
  Forall2 (rotated_left 8 (- k)) v (rotate_right 8 shift_right_u8 shift_left8 k v) /\
  Forall2 (rotated_left 8 k) v (rotate_left 8 shift_right_u8 shift_left8 k v) /\
  Forall2 (rotated_left 8 (- k)) v (map (gf_rotate_right k) v).
Proof.
  intros Hk He Hv. destruct ops8 as [H1 H2]. split; [|split].
  - now apply (rotate_right_ok 8 _ _ (fun v => Nat.Even (length v))).
  - now apply (rotate_left_ok 8 _ _ (fun v => Nat.Even (length v))).
  - apply Forall2_map_r. eapply Forall_impl; [|exact Hv]. intros x Hx. now apply gf_rotate_right_ok.
Qed.
(** Rol, Ror: any lane pattern as count (only its lower bits matter), for any correct Shl and Shr *)
Theorem C110_rol_ror w shl shr a b : width w ->
  (forall u c, length u = length a -> length c = length u -> Forall (lane w) u -> counts w c -> shl_lanes w u c (shl u c) /\ shr_lanes u c (shr u c)) ->
  length b = length a -> Forall (lane w) a -> Forall (lane w) b ->
  Forall3 (fun x k r => rotated_left w k x r) a b (rol w shl shr a b) /\ Forall3 (fun x k r => rotated_left w (- k) x r) a b (ror w shl shr a b).
Proof.
  intros Hw Hs Hl Ha Hb.
  assert (E : forall f u c r, Forall3 (fun x k y => y = f x k) u c r -> r = map2 (f : Z -> Z -> Z) u c).
  { clear. intros f u. unfold map2. induction u as [|x u IH]; intros [|k c] [|y r]; cbn [Forall3]; try tauto; try reflexivity. intros [-> H]. cbn [combine map fst snd]. now rewrite (IH _ _ H). }
  assert (H1 : vshl_op w shl (fun u => length u = length a)) by (intros u c Hu Hc Hul Hcc; apply E, Hs; assumption).
  assert (H2 : vshr_op w shr (fun u => length u = length a)) by (intros u c Hu Hc Hul Hcc; apply E, Hs; assumption).
  split; [eapply rol_ok; eassumption || reflexivity|eapply ror_ok; eassumption || reflexivity].
Qed.
(** on SSE2 to SSE4, bytes *)
Theorem C110_rol_ror_sse_8 t rnd a b : rounds_integers rnd -> Nat.Even (length a) -> length b = length a -> Forall (lane 8) a -> Forall (lane 8) b ->
  Forall3 (fun x k r => rotated_left 8 k x r) a b (rol 8 (shl_8 t rnd) (shr_8 t rnd) a b) /\
  Forall3 (fun x k r => rotated_left 8 (- k) x r) a b (ror 8 (shl_8 t rnd) (shr_8 t rnd) a b).
Proof.
  intros Hr He Hl Ha Hb. apply C110_rol_ror; try assumption; [now left|]. intros u c Hu Hc Hul Hcc. apply C109_sse_8; try assumption. now rewrite Hu.
Qed.
(** RotateLeftSame, RotateRightSame: any int *)
Theorem C110_same w bits v : width w -> Forall (lane w) v ->
  Forall2 (rotated_left w bits) v (rotate_left_same w (fun k => map (slli w k)) (fun k => map (srli w k)) v bits) /\
  Forall2 (rotated_left w (- bits)) v (rotate_right_same w (fun k => map (slli w k)) (fun k => map (srli w k)) v bits).
Proof.
  intros Hw Hv. destruct (instr_ops w Hw) as [H1 H2]. split; [now apply (rotate_left_same_ok w _ _ (fun _ => True))|now apply (rotate_right_same_ok w _ _ (fun _ => True))].
Qed.
Theorem C110_same8 bits v : Nat.Even (length v) -> Forall (lane 8) v ->
  Forall2 (rotated_left 8 bits) v (rotate_left_same 8 shift_left_same8 shift_right_same_u8 v bits) /\
  Forall2 (rotated_left 8 (- bits)) v (rotate_right_same 8 shift_left_same8 shift_right_same_u8 v bits).
Proof.
  intros He Hv. assert (H1 : shl_op 8 shift_left_same8 (fun v => Nat.Even (length v))) by (intros k u Hk Hu Hul; now apply shift_left_same8_ok).
  assert (H2 : shr_op 8 shift_right_same_u8 (fun v => Nat.Even (length v))) by (intros k u Hk Hu Hul; now apply shift_right_same_u8_ok).
  split; [eapply rotate_left_same_ok; eauto; now left|eapply rotate_right_same_ok; eauto; now left].
Qed.
(** the relation determines the result *)
Theorem C110_unique w k x r1 r2 : 0 < w -> rotated_left w k x r1 -> rotated_left w k x r2 -> r1 = r2.
Proof.
  intros Hw [L1 H1] [L2 H2]. apply Z.bits_inj'. intros n Hn. destruct (Z_lt_le_dec n w) as [H|H].
  - specialize (H1 ((n - k) mod w) (Z.mod_pos_bound _ _ Hw)). specialize (H2 ((n - k) mod w) (Z.mod_pos_bound _ _ Hw)).
    rewrite Zplus_mod_idemp_l in H1, H2. replace (n - k + k) with n in H1, H2 by lia. rewrite Z.mod_small in H1, H2 by lia. congruence.
  - rewrite (tb_high w r1), (tb_high w r2) by (try assumption; lia). reflexivity.
Qed.
Example C110_ex : rol 8 (shl_8 SSE2 rnd_trunc) (shr_8 SSE2 rnd_trunc) [0x81; 0x12] [0xFF; 4] = [0xC0; 0x21] /\
  rotate_right 32 (fun k => map (srli 32 k)) (fun k => map (slli 32 k)) 8 [0x12345678] = [0x78123456] /\
  rotate_left_same 16 (fun k => map (slli 16 k)) (fun k => map (srli 16 k)) [0x1234] (-4) = [0x4123] /\ gf_rotate_right 4 0x12 = 0x21.
Proof. vm_compute. repeat split. Qed.

(** ** C111: Reverse2/4/8 of bytes, ReverseLaneBytes, ReverseBits *)
Theorem C111_reverse8 prefer rot8 rot16 n v : length v = (16 * n)%nat -> Forall (lane 8) v ->
  reverse2_8 rot8 n v = groups_reversed 2 (8 * n) v /\ reverse4_8 prefer rot8 rot16 n v = groups_reversed 4 (4 * n) v /\
  reverse8_8 prefer rot8 rot16 n v = groups_reversed 8 (2 * n) v.
Proof. intros. split; [now apply reverse2_8_ok|]. split; [now apply reverse4_8_ok|now apply reverse8_8_ok]. Qed.
Theorem C111_reverse2_16 rot16 n v : length v = (2 * n)%nat -> Forall (lane 16) v -> reverse2_16 rot16 v = groups_reversed 2 n v.
Proof. apply reverse2_16_ok. Qed.
(** lanes of 2, 4 and 8 bytes in [n] registers *)
Lemma rev8_2 rot8 n : rev8_op 2 (reverse2_8 rot8 n) (8 * n).
Proof. intros u Hu Hl. apply reverse2_8_ok; [lia|exact Hl]. Qed.
Lemma rev8_4 prefer rot8 rot16 n : rev8_op 4 (reverse4_8 prefer rot8 rot16 n) (4 * n).
Proof. intros u Hu Hl. apply reverse4_8_ok; [lia|exact Hl]. Qed.
Lemma rev8_8 prefer rot8 rot16 n : rev8_op 8 (reverse8_8 prefer rot8 rot16 n) (2 * n).
Proof. intros u Hu Hl. apply reverse8_8_ok; [lia|exact Hl]. Qed.
Theorem C111_reverse_lane_bytes prefer rot8 rot16 n v :
  (length v = (8 * n)%nat -> Forall2 (bytes_reversed 2) v (reverse_lane_bytes 2 (8 * n) (reverse2_8 rot8 n) v)) /\
  (length v = (4 * n)%nat -> Forall2 (bytes_reversed 4) v (reverse_lane_bytes 4 (4 * n) (reverse4_8 prefer rot8 rot16 n) v)) /\
  (length v = (2 * n)%nat -> Forall2 (bytes_reversed 8) v (reverse_lane_bytes 8 (2 * n) (reverse8_8 prefer rot8 rot16 n) v)).
Proof.
  split; [|split]; intros E; rewrite <- E.
  - apply (reverse_lane_bytes_ok 2). rewrite E. apply rev8_2.
  - apply (reverse_lane_bytes_ok 4). rewrite E. apply rev8_4.
  - apply (reverse_lane_bytes_ok 8). rewrite E. apply rev8_8.
Qed.
Theorem C111_reverse_bits8 w16 v : Nat.Even (length v) -> Forall (lane 8) v -> Forall2 (bits_reversed 8) v (reverse_bits8 w16 v).
Proof. intros. now apply reverse_bits8_ok. Qed.
Theorem C111_reverse_bits8_gfni x : lane 8 x -> bits_reversed 8 x (gf_reverse_bits8 x).
Proof. apply gf_reverse_bits8_ok. Qed.
Theorem C111_reverse_bits prefer rot8 rot16 w16 n v :
  (length v = (8 * n)%nat -> Forall2 (bits_reversed 16) v (reverse_bits_wide (reverse_bits8 w16) 2 (8 * n) (reverse2_8 rot8 n) v)) /\
  (length v = (4 * n)%nat -> Forall2 (bits_reversed 32) v (reverse_bits_wide (reverse_bits8 w16) 4 (4 * n) (reverse4_8 prefer rot8 rot16 n) v)) /\
  (length v = (2 * n)%nat -> Forall2 (bits_reversed 64) v (reverse_bits_wide (map gf_reverse_bits8) 8 (2 * n) (reverse8_8 prefer rot8 rot16 n) v)).
Proof.
  assert (R : forall len, Nat.Even len -> rb8_op (reverse_bits8 w16) len) by (intros len He u Hu Hb; apply C111_reverse_bits8; [now rewrite Hu|exact Hb]).
  assert (G : forall len, rb8_op (map gf_reverse_bits8) len).
  { intros len u _ Hb. apply Forall2_map_r. eapply Forall_impl; [|exact Hb]. apply gf_reverse_bits8_ok. }
  split; [|split]; intros E; rewrite <- E.
  - apply (reverse_bits_wide_ok 2); [|rewrite E; apply rev8_2]. apply R. now exists (length v).
  - apply (reverse_bits_wide_ok 4); [|rewrite E; apply rev8_4]. apply R. exists (2 * length v)%nat. lia.
  - apply (reverse_bits_wide_ok 8); [apply G|rewrite E; apply rev8_8].
Qed.
Definition iota16 : list Z := [0; 1; 2; 3; 4; 5; 6; 7; 8; 9; 10; 11; 12; 13; 14; 255].
Example C111_ex : reverse4_8 true true false 1 iota16 = [3; 2; 1; 0; 7; 6; 5; 4; 11; 10; 9; 8; 255; 14; 13; 12] /\
  reverse8_8 false false false 1 iota16 = [7; 6; 5; 4; 3; 2; 1; 0; 255; 14; 13; 12; 11; 10; 9; 8] /\
  reverse_bits8 true [0x01; 0x2C] = [0x80; 0x34] /\
  reverse_bits_wide (reverse_bits8 true) 4 4 (reverse4_8 true true true 1) [1; 0x80000000; 0x12345678; 0] = [0x80000000; 1; 0x1E6A2C48; 0].
Proof. vm_compute. repeat split. Qed.

(** ** C112: BitShuffle, MultiRotateRight *)
Theorem C112_bit_shuffle w16 rol8 v idx :
  (forall a b, length a = 16%nat -> length b = 16%nat -> Forall (lane 8) a -> Forall (lane 8) b -> Forall3 (fun x k r => rotated_left 8 k x r) a b (rol8 a b)) ->
  length idx = length v -> Forall (fun i => length i = 16%nat /\ Forall (lane 8) i) idx ->
  Forall3 (fun p i r => bit_shuffled (fst p) (firstn 8 i) (fst r) /\ bit_shuffled (snd p) (skipn 8 i) (snd r)) v idx (bit_shuffle w16 rol8 0 v idx).
Proof. intros Hr. now apply bit_shuffle_ok. Qed.
Theorem C112_bit_shuffle_sse t rnd v idx : rounds_integers rnd -> length idx = length v -> Forall (fun i => length i = 16%nat /\ Forall (lane 8) i) idx ->
  Forall3 (fun p i r => bit_shuffled (fst p) (firstn 8 i) (fst r) /\ bit_shuffled (snd p) (skipn 8 i) (snd r)) v idx
    (bit_shuffle true (rol 8 (shl_8 t rnd) (shr_8 t rnd)) 0 v idx).
Proof. intros Hr. apply C112_bit_shuffle. intros a b La Lb Ha Hb. apply (C110_rol_ror_sse_8 t rnd a b); try assumption; [rewrite La; now exists 8%nat|congruence]. Qed.
(** MultiRotateRight: registers of 16 bytes (pairs of lanes in [v]); SSE2 to SSE4 shifts *)
Theorem C112_multi_rotate_right t rnd v idx : rounds_integers rnd -> length idx = length v -> Forall (fun i => length i = 16%nat /\ Forall (lane 8) i) idx ->
  Forall3 multi_rotated (interleave (map fst v) (map snd v)) (concat (map (fun i => [firstn 8 i; skipn 8 i]) idx))
    (multi_rotate_right (shift_right_u8 3) (shr_16 t rnd) v idx).
Proof.
  intros Hr Hl Hi. apply (multi_rotate_right_ok (shift_right_u8 3) (shr_16 t rnd) (fun _ => True)); try assumption; try easy.
  - intros u Hu Hb. apply shift_right_u8_ok; [lia|rewrite Hu; now exists 8%nat|exact Hb].
  - intros u c _ Hc Hul Hcc. now apply shr_16_ok.
Qed.
Theorem C112_multi_rotate_right_any shr3 shr16 v idx :
  (forall u, length u = 16%nat -> Forall (lane 8) u -> shr3 u = map (shr_spec 3) u) ->
  (forall u c, length c = length u -> Forall (lane 16) u -> counts 16 c -> shr16 u c = map2 (fun x k => shr_spec k x) u c) ->
  length idx = length v -> Forall (fun i => length i = 16%nat /\ Forall (lane 8) i) idx ->
  Forall3 multi_rotated (interleave (map fst v) (map snd v)) (concat (map (fun i => [firstn 8 i; skipn 8 i]) idx)) (multi_rotate_right shr3 shr16 v idx).
Proof. intros H3 H16 Hl Hi. apply (multi_rotate_right_ok shr3 shr16 (fun _ => True)); try assumption; try easy. intros u c _. apply H16. Qed.
Theorem C112_multi_rotate_right_single t rnd x idx : rounds_integers rnd -> length idx = 8%nat -> Forall (lane 8) idx ->
  multi_rotated x idx (multi_rotate_right_1 (shift_right_u8 3) (shr_16 t rnd) x idx).
Proof.
  intros Hr Hl Hi. apply (multi_rotate_right_1_ok (shift_right_u8 3) (shr_16 t rnd) (fun _ => True)); try assumption; try easy.
  - intros u Hu Hb. apply shift_right_u8_ok; [lia|rewrite Hu; now exists 4%nat|exact Hb].
  - intros u c _ Hc Hul Hcc. now apply shr_16_ok.
Qed.
Example C112_ex :
  let idx := [63; 0; 1; 62; 7; 8; 32; 31; 0; 0; 0; 0; 63; 63; 63; 63] in
  bit_shuffle true (rol 8 (shl_8 SSE2 rnd_trunc) (shr_8 SSE2 rnd_trunc)) 0 [(0x8000000000000181, 2 ^ 63); (5, 6)] [idx; idx] = [(0x33, 0xF0); (0x02, 0x00)] /\
  multi_rotate_right (shift_right_u8 3) (shr_16 SSE4 rnd_trunc) [(0x123456789ABCDEF0, 0xFF)] [[0; 4; 8; 60; 63; 1; 56; 32; 0; 63; 1; 60; 8; 4; 56; 32]] = [0x781278E001DEEFF0; 0x00000F00F07FFEFF].
Proof. vm_compute. repeat split. Qed.
