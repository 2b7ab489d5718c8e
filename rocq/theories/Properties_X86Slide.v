(** C123, C124: slides, Reverse, Broadcast and CombineShiftRightBytes on SSE2, SSSE3, SSE4 (and AVX2 for 128-bit vectors). A vector of [n] lanes of [s] bytes is the first n * s bytes
    of a 16-byte register; [lane_value sg s i r]: the number in lane i (X86Int_Spec). *)
From Coq Require Import ZArith List Bool Lia Arith.
From Verif Require Import Word Word_Proofs X86Int_Spec X86Int_Model X86Int_Proofs X86Int_Lane X86Int_Sel X86Int_Main X86Int_Two X86Mul_Model Properties_X86Int X86Mul_Move X86Slide_Model X86Slide_Proofs X86Slide_More X86Slide_Perm.
Import ListNotations.
Open Scope Z_scope.
Arguments Z.pow : simpl never.
Arguments Z.mul : simpl never.
Arguments Z.add : simpl never.
Arguments Z.of_nat : simpl never.
(** lane i - amt moves to lane i, zeros enter; [const]: the amount is known to the compiler, which takes another path *)
Theorem C123_slide_up : forall t const sg s n amt v i, In s [1; 2; 4; 8]%nat -> lane_count n -> (n * s <= 16)%nat -> register 16 v -> (amt < n)%nat -> (i < n)%nat ->
  lane_value sg s i (slide_up t const s n amt v) = if (i <? amt)%nat then 0 else lane_value sg s (i - amt) v.
Proof.
  intros t c sg s n amt v i Hs Hn H R A Hi. assert (Hc : cfg s n) by (split; auto). apply (up_lanes sg s n amt v); auto; [apply size_pos; auto|]. intros p Hp. apply slide_up_ok; auto.
Qed.
Theorem C123_slide_down : forall t const sg s n amt v i, In s [1; 2; 4; 8]%nat -> lane_count n -> (n * s <= 16)%nat -> register 16 v -> (amt < n)%nat -> (i < n)%nat ->
  lane_value sg s i (slide_down t const s n amt v) = if (i + amt <? n)%nat then lane_value sg s (i + amt) v else 0.
Proof.
  intros t c sg s n amt v i Hs Hn H R A Hi. assert (Hc : cfg s n) by (split; auto). apply (down_lanes sg s n amt v); auto; [apply size_pos; auto|]. intros p Hp. apply slide_down_ok; auto.
Qed.
(** ShiftLeftLanes and ShiftRightLanes by any number of lanes, also beyond the end: the bytes beyond a partial vector do not enter *)
Theorem C123_shift_left_lanes : forall sg s n amt v i, In s [1; 2; 4; 8]%nat -> (n * s <= 16)%nat -> register 16 v -> (i < n)%nat ->
  lane_value sg s i (shift_left_lanes s amt v) = if (i <? amt)%nat then 0 else lane_value sg s (i - amt) v.
Proof. intros sg s n amt v i Hs H R Hi. apply (up_lanes sg s n amt v); auto; [apply size_pos; auto|]. intros p Hp. apply nth_sll. lia. Qed.
Theorem C123_shift_right_lanes : forall sg s n amt v i, In s [1; 2; 4; 8]%nat -> lane_count n -> (n * s <= 16)%nat -> register 16 v -> (i < n)%nat ->
  lane_value sg s i (shift_right_lanes s n amt v) = if (i + amt <? n)%nat then lane_value sg s (i + amt) v else 0.
Proof.
  intros sg s n amt v i Hs Hn H R Hi. apply (down_lanes sg s n amt v); auto; [apply size_pos; auto|]. intros p Hp. unfold shift_right_lanes, shift_right_bytes. rewrite nth_srl, Nat.add_comm. destruct (Nat.eqb_spec (n * s) 16) as [->|N].
  - destruct (Nat.ltb_spec (p + amt * s) 16); [reflexivity|]. apply nth_out; [apply R | auto].
  - unfold clear_upper. apply nth_load.
Qed.
(** by one lane; of a single lane: zero *)
Theorem C123_slide1_up : forall sg s n v i, In s [1; 2; 4; 8]%nat -> lane_count n -> (n * s <= 16)%nat -> register 16 v -> (i < n)%nat ->
  lane_value sg s i (slide1_up s n v) = if (i <? 1)%nat then 0 else lane_value sg s (i - 1) v.
Proof.
  intros sg s n v i Hs Hn H R Hi. unfold slide1_up. destruct (Nat.eqb_spec n 1) as [->|N]; [|apply C123_shift_left_lanes with n; auto]. assert (i = 0%nat) as -> by lia. cbn [Nat.ltb Nat.leb]. apply lane_zero; [apply size_pos; auto|]. intros. apply (nth_zeros _ 16).
Qed.
Theorem C123_slide1_down : forall sg s n v i, In s [1; 2; 4; 8]%nat -> lane_count n -> (n * s <= 16)%nat -> register 16 v -> (i < n)%nat ->
  lane_value sg s i (slide1_down s n v) = if (i + 1 <? n)%nat then lane_value sg s (i + 1) v else 0.
Proof.
  intros sg s n v i Hs Hn H R Hi. unfold slide1_down. destruct (Nat.eqb_spec n 1) as [->|N]; [|apply C123_shift_right_lanes; auto]. assert (i = 0%nat) as -> by lia. cbn [Nat.add Nat.ltb Nat.leb]. apply lane_zero; [apply size_pos; auto|]. intros. apply (nth_zeros _ 16).
Qed.
(** hi concatenated with lo, shifted right by k bytes *)
Theorem C124_combine_shift_right : forall t nb k hi lo p, In nb [2; 4; 8; 16]%nat -> (0 < k < nb)%nat -> register 16 hi -> register 16 lo -> (p < nb)%nat ->
  nth p (combine_shift_right t nb k hi lo) 0 = nth (p + k) (firstn nb lo ++ firstn nb hi) 0.
Proof.
  intros t nb k hi lo p Hn Hk Rh Rl Hp. rewrite combine_shift_ok by auto. assert (N : (nb <= 16)%nat) by (cbn in Hn; lia). assert (L : length (firstn nb lo) = nb) by (rewrite firstn_length, (proj1 Rl); lia). rewrite nth_app', L, !nth_firstn'.
  destruct (Nat.ltb_spec (p + k) nb); [reflexivity|]. destruct (Nat.ltb_spec (p + k - nb) nb); [reflexivity | lia].
Qed.
Theorem C124_broadcast : forall t sg s n k v i, In s [1; 2; 4; 8]%nat -> lane_count n -> (n * s <= 16)%nat -> register 16 v -> (k < n)%nat -> (i < n)%nat ->
  lane_value sg s i (broadcast t s k v) = lane_value sg s k v.
Proof.
  intros t sg s n k v i Hs Hn H R Hk Hi. assert (Hc : cfg s n) by (split; auto). pose proof (cfg_lane s n i Hc Hi) as I. pose proof (cfg_lane s n k Hc Hk) as K. pose proof (size_pos s Hs).
  rewrite !lv; try apply R; auto; [|apply broadcast_byte; auto]. f_equal. apply broadcast_ok; auto.
Qed.
Theorem C124_reverse : forall t sg s n v i, In s [1; 2; 4; 8]%nat -> lane_count n -> (n * s <= 16)%nat -> register 16 v -> (i < n)%nat ->
  lane_value sg s i (reverse t s n v) = lane_value sg s (n - 1 - i) v.
Proof.
  intros t sg s n v i Hs Hn H R Hi. assert (Hc : cfg s n) by (split; auto). pose proof (size_pos s Hs). rewrite !lv; try apply R; auto; [|apply reverse_reg; auto]. f_equal. apply reverse_ok; auto.
Qed.
(** concrete vectors *)
Definition counting : reg := [1; 2; 3; 4; 5; 6; 7; 8; 9; 10; 11; 12; 13; 14; 15; 16].
Example X86Slide_slides : register 16 counting /\ slide_up SSE2 false 2 8 5 counting = [0; 0; 0; 0; 0; 0; 0; 0; 0; 0; 1; 2; 3; 4; 5; 6] /\
  slide_down SSE2 false 2 8 3 counting = [7; 8; 9; 10; 11; 12; 13; 14; 15; 16; 0; 0; 0; 0; 0; 0] /\ slide_down SSSE3 false 1 16 13 counting = [14; 15; 16; 0; 0; 0; 0; 0; 0; 0; 0; 0; 0; 0; 0; 0].
Proof. split; [split; [reflexivity | repeat constructor; lia] | repeat split; vm_compute; reflexivity]. Qed.
Example X86Slide_moves : firstn 4 (combine_shift_right SSSE3 4 3 counting (rev counting)) = [13; 1; 2; 3] /\ reverse SSE2 1 16 counting = rev counting /\ broadcast SSE2 1 10 counting = repeat 11 16.
Proof. repeat split; vm_compute; reflexivity. Qed.
