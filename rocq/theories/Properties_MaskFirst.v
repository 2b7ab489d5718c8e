(** C104: SetAtOrAfterFirst, SetBeforeFirst, SetAtOrBeforeFirst, SetOnlyFirst. *)
From Coq Require Import ZArith List Arith Bool Lia.
From Verif Require Import Word Compress_Spec Compress_Model Compress_Bits MaskFirst_Spec MaskFirst_Model MaskFirst_Proofs.
Import ListNotations.
Open Scope Z_scope.
(** EMU128, any number of lanes and lane width *)
Theorem C104_emu : forall w m, 0 < w ->
  (exists r, emu_at_or_after_first (lanes_of w m) = lanes_of w r /\ at_or_after_first m r) /\ (exists r, emu_before_first w (lanes_of w m) = lanes_of w r /\ before_first m r) /\
  (exists r, emu_at_or_before_first w (lanes_of w m) = lanes_of w r /\ at_or_before_first m r) /\ (exists r, emu_only_first w (lanes_of w m) = lanes_of w r /\ only_first m r).
Proof.
  intros w m Hw. split; [|split; [|split]].
  - exists (aaf m). split; [apply emu_at_or_after_ok; lia|apply aaf_spec].
  - exists (bf m). split; [apply emu_before_ok; lia|apply bf_spec].
  - exists (abf m). split; [apply (emu_to_first_loop_ok w m true Hw)|apply abf_spec].
  - exists (onlyf m). split; [apply (emu_only_loop_ok w m true Hw)|apply onlyf_spec].
Qed.
(** AVX3, 128 and 256 bits: masks of N bits, arithmetic on u = 32 or 64 bits *)
Theorem C104_avx3 : forall u m, let n := length m in Z.of_nat n <= u ->
  (exists r, avx3_at_or_after_first u n (bits_from_mask m) = bits_from_mask r /\ at_or_after_first m r) /\ (exists r, avx3_before_first u n (bits_from_mask m) = bits_from_mask r /\ before_first m r) /\
  (exists r, avx3_at_or_before_first u n (bits_from_mask m) = bits_from_mask r /\ at_or_before_first m r) /\ (exists r, avx3_only_first u n (bits_from_mask m) = bits_from_mask r /\ only_first m r).
Proof.
  intros u m n Hu. split; [|split; [|split]].
  - exists (aaf m). split; [|apply aaf_spec]. unfold avx3_at_or_after_first. rewrite (land_active m), <- (after_bits u m Hu), <- (wrap_wrap u m Hu (- _)). rewrite Z.sub_0_l. reflexivity.
  - exists (bf m). split; [|apply bf_spec]. unfold avx3_before_first. rewrite (land_active m), <- (before_bits u m Hu), <- (wrap_wrap u m Hu (_ - 1)). reflexivity.
  - exists (abf m). split; [|apply abf_spec]. unfold avx3_at_or_before_first. rewrite (land_active m). apply (to_first_bits u m Hu).
  - exists (onlyf m). split; [|apply onlyf_spec]. apply (only_bits u m Hu).
Qed.
(** AVX3, 512 bits *)
Theorem C104_avx3_512 : forall u m, let n := length m in Z.of_nat n <= u ->
  (exists r, avx3_512_at_or_after_first u n (bits_from_mask m) = bits_from_mask r /\ at_or_after_first m r) /\ (exists r, avx3_512_before_first u n (bits_from_mask m) = bits_from_mask r /\ before_first m r) /\
  (exists r, avx3_512_at_or_before_first u n (bits_from_mask m) = bits_from_mask r /\ at_or_before_first m r) /\ (exists r, avx3_only_first u n (bits_from_mask m) = bits_from_mask r /\ only_first m r).
Proof.
  intros u m n Hu. split; [|split; [|split]].
  - exists (aaf m). split; [|apply aaf_spec]. unfold avx3_512_at_or_after_first. rewrite Z.sub_0_l, (wrap_wrap u m Hu). apply (after_bits u m Hu).
  - exists (bf m). split; [|apply bf_spec]. unfold avx3_512_before_first. rewrite (wrap_wrap u m Hu). apply (before_bits u m Hu).
  - exists (abf m). split; [|apply abf_spec]. apply (to_first_bits u m Hu).
  - exists (onlyf m). split; [|apply onlyf_spec]. apply (only_bits u m Hu).
Qed.
(** SSE2 to AVX2: one and two lanes *)
Theorem C104_one : forall w m, length m = 1%nat ->
  (exists r, sse_at_or_after_first1 (lanes_of w m) = lanes_of w r /\ at_or_after_first m r) /\ (exists r, not_all w (sse_at_or_after_first1 (lanes_of w m)) = lanes_of w r /\ before_first m r) /\
  (exists r, sse_at_or_before_first1 w (lanes_of w m) = lanes_of w r /\ at_or_before_first m r) /\ (exists r, sse_only_first1 (lanes_of w m) = lanes_of w r /\ only_first m r).
Proof.
  intros w m H. split; [|split; [|split]].
  - exists (aaf m). split; [apply one_after, H|apply aaf_spec].
  - exists (bf m). split; [|apply bf_spec]. rewrite one_after by exact H. apply not_all_ok.
  - exists (abf m). split; [apply one_to, H|apply abf_spec].
  - exists (onlyf m). split; [apply one_only, H|apply onlyf_spec].
Qed.
Lemma shifted m : m <> [] -> bf (shift_left_lanes1 m) = abf m. Proof. intros H. rewrite bf_shift. destruct m; [congruence|reflexivity]. Qed.
Lemma shift_length m : m <> [] -> length (shift_left_lanes1 m) = length m. Proof. intros H. unfold shift_left_lanes1. cbn [length]. rewrite firstn_length. destruct m; [congruence|]. cbn [length]. lia. Qed.
Theorem C104_two : forall w m, 0 < w -> length m = 2%nat ->
  (exists r, sse_at_or_after_first2 (lanes_of w m) = lanes_of w r /\ at_or_after_first m r) /\ (exists r, not_all w (sse_at_or_after_first2 (lanes_of w m)) = lanes_of w r /\ before_first m r) /\
  (exists r, not_all w (sse_at_or_after_first2 (lanes_of w (shift_left_lanes1 m))) = lanes_of w r /\ at_or_before_first m r) /\ (exists r, sse_only_first2 w (lanes_of w m) = lanes_of w r /\ only_first m r).
Proof.
  intros w m Hw H. assert (Hn : m <> []) by (intros ->; discriminate). split; [|split; [|split]].
  - exists (aaf m). split; [apply two_after, H|apply aaf_spec].
  - exists (bf m). split; [|apply bf_spec]. rewrite two_after by exact H. apply not_all_ok.
  - exists (abf m). split; [|apply abf_spec]. rewrite two_after by (rewrite shift_length by exact Hn; exact H). rewrite <- shifted by exact Hn. apply not_all_ok.
  - exists (onlyf m). split; [apply two_only; assumption|apply onlyf_spec].
Qed.
(** more lanes in up to 64 bits, whatever the undefined upper bits *)
Theorem C104_half : forall w n m junk, small_config w n -> length m = n ->
  (exists r, sse_at_or_after_first64 w n junk (chunk w m) = lanes_of w r /\ at_or_after_first m r) /\ (exists r, not_all w (sse_at_or_after_first64 w n junk (chunk w m)) = lanes_of w r /\ before_first m r) /\
  (exists r, not_all w (sse_at_or_after_first64 w n junk (chunk w (shift_left_lanes1 m))) = lanes_of w r /\ at_or_before_first m r) /\ (exists r, sse_only_first64 w n junk (chunk w m) = lanes_of w r /\ only_first m r).
Proof.
  intros w n m junk Hc H. assert (Hn : m <> []). { intros ->. unfold small_config in Hc. cbn in Hc, H. repeat (destruct Hc as [Hc|Hc]; [injection Hc as <- <-; discriminate|]). exact Hc. } split; [|split; [|split]].
  - exists (aaf m). split; [apply small_after; assumption|apply aaf_spec].
  - exists (bf m). split; [|apply bf_spec]. rewrite small_after by assumption. apply not_all_ok.
  - exists (abf m). split; [|apply abf_spec]. rewrite small_after by (try assumption; rewrite shift_length by exact Hn; exact H). rewrite <- shifted by exact Hn. apply not_all_ok.
  - exists (onlyf m). split; [apply small_only; assumption|apply onlyf_spec].
Qed.
(** 128 bits: two 64-bit chunks with lanes of 8, 16 or 32 bits (64-bit lanes: C104_two) *)
Theorem C104_full : forall w m, chunk_lanes w -> length m = (2 * per_chunk w)%nat ->
  (exists r, sse_at_or_after_first128 (chunks w 2 m) = chunks w 2 r /\ at_or_after_first m r) /\ (exists r, not_all 64 (sse_at_or_after_first128 (chunks w 2 m)) = chunks w 2 r /\ before_first m r) /\
  (exists r, not_all 64 (sse_at_or_after_first128 (chunks w 2 (shift_left_lanes1 m))) = chunks w 2 r /\ at_or_before_first m r) /\ (exists r, sse_only_first128 w (chunks w 2 m) = chunks w 2 r /\ only_first m r).
Proof.
  intros w m Hw H. assert (Hn : m <> []). { intros ->. unfold chunk_lanes in Hw. cbn in Hw, H. repeat (destruct Hw as [Hw|Hw]; [subst w; discriminate|]). exact Hw. } split; [|split; [|split]].
  - exists (aaf m). split; [apply sse_after128_ok; assumption|apply aaf_spec].
  - exists (bf m). split; [|apply bf_spec]. rewrite sse_after128_ok by assumption. apply chunks_not; [assumption|rewrite aaf_length; assumption].
  - exists (abf m). split; [|apply abf_spec]. rewrite sse_after128_ok by (try assumption; rewrite shift_length by exact Hn; exact H). rewrite <- shifted by exact Hn. apply chunks_not; [assumption|rewrite aaf_length, shift_length by exact Hn; assumption].
  - exists (onlyf m). split; [apply sse_only128_ok; assumption|apply onlyf_spec].
Qed.
(** AVX2, 256 bits, all lane sizes *)
Theorem C104_avx2 : forall w m, chunk_lanes w -> length m = (4 * per_chunk w)%nat ->
  (exists r, avx2_at_or_after_first (chunks w 4 m) = chunks w 4 r /\ at_or_after_first m r) /\ (exists r, not_all 64 (avx2_at_or_after_first (chunks w 4 m)) = chunks w 4 r /\ before_first m r) /\
  (exists r, not_all 64 (avx2_at_or_after_first (chunks w 4 (avx2_shift_left1 m))) = chunks w 4 r /\ at_or_before_first m r) /\ (exists r, avx2_only_first w (chunks w 4 m) = chunks w 4 r /\ only_first m r).
Proof.
  intros w m Hw H. assert (Hn : m <> []). { intros ->. unfold chunk_lanes in Hw. cbn in Hw, H. repeat (destruct Hw as [Hw|Hw]; [subst w; discriminate|]). exact Hw. }
  assert (Es : avx2_shift_left1 m = shift_left_lanes1 m). { apply (avx2_shift_ok m (2 * per_chunk w)); [|lia]. destruct m; [congruence|cbn [length] in H; lia]. } rewrite Es. split; [|split; [|split]].
  - exists (aaf m). split; [apply avx2_after_ok; assumption|apply aaf_spec].
  - exists (bf m). split; [|apply bf_spec]. rewrite avx2_after_ok by assumption. apply chunks_not; [assumption|rewrite aaf_length; assumption].
  - exists (abf m). split; [|apply abf_spec]. rewrite avx2_after_ok by (try assumption; rewrite shift_length by exact Hn; exact H). rewrite <- shifted by exact Hn. apply chunks_not; [assumption|rewrite aaf_length, shift_length by exact Hn; assumption].
  - exists (onlyf m). split; [apply avx2_only_ok; assumption|apply onlyf_spec].
Qed.
Example C104_ex : avx3_before_first 32 4 (bits_from_mask [false; false; true; false]) = bits_from_mask [true; true; false; false] /\ avx3_512_at_or_before_first 64 64 0 = 2 ^ 64 - 1 /\
  sse_only_first64 8 4 77 (chunk 8 [false; true; true; false]) = [0; 255; 0; 0] /\ sse_at_or_after_first128 (chunks 16 2 [false; false; true; false; false; false; false; true]) = [2 ^ 64 - 2 ^ 32; 2 ^ 64 - 1].
Proof. repeat split. Qed.
