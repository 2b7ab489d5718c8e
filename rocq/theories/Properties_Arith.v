(** Property theorems C01-C06 (integer helpers of hwy/base.h). *)
From Coq Require Import ZArith List Lia.
From Verif Require Import Word Arith_Spec Arith_Model Arith_Proofs.
Local Open Scope Z_scope.

(** C01: Divisor(d).Divide/Remainder/GetDivisor for every 32-bit d >= 1 and n. *)
Theorem C01_divisor_exact : forall d n, in_u 32 d -> d <> 0 -> in_u 32 n ->
  Divisor_Divide (Divisor_ctor d) n = n / d /\
  Divisor_Remainder (Divisor_ctor d) n = n mod d /\
  d_divisor (Divisor_ctor d) = d.
Proof. exact Divisor_all. Qed.
Print Assumptions C01_divisor_exact.
Example C01_ex : in_u 32 4294967295 /\ Divisor_Divide (Divisor_ctor 7) 4294967295 = 613566756.
Proof. split; [unfold in_u; lia | vm_compute; reflexivity]. Qed.

(** C02: the same for 64 bits, with and without a 128-bit division. *)
Theorem C02_divisor64_exact : forall d n, in_u 64 d -> d <> 0 -> in_u 64 n ->
  (exists D, Divisor64_ctor d = Some D /\ Divisor64_Divide D n = n / d /\
             Divisor64_Remainder D n = n mod d /\ e_divisor D = d) /\
  Divisor64_plain_Divide d n = Some (n / d) /\ Divisor64_plain_Remainder d n = Some (n mod d).
Proof. exact Divisor64_all. Qed.
Print Assumptions C02_divisor64_exact.
Example C02_ex : in_u 64 (2 ^ 63 + 1) /\
  option_map (fun D => Divisor64_Divide D (2 ^ 64 - 1)) (Divisor64_ctor (2 ^ 63 + 1)) = Some 1.
Proof. split; [unfold in_u; lia | vm_compute; reflexivity]. Qed.

(** C03: both halves of the exact product. *)
Theorem C03_mul128_unsigned : forall a b, in_u 64 a -> in_u 64 b ->
  snd (Mul128_u a b) = (a * b) mod 2 ^ 64 /\ fst (Mul128_u a b) = (a * b) / 2 ^ 64.
Proof. exact Mul128_u_all. Qed.
Print Assumptions C03_mul128_unsigned.

Theorem C03_mul128_signed : forall a b, in_s 64 a -> in_s 64 b ->
  in_s 64 (snd (Mul128_s a b)) /\ (snd (Mul128_s a b)) mod 2 ^ 64 = (a * b) mod 2 ^ 64 /\
  fst (Mul128_s a b) = (a * b) / 2 ^ 64.
Proof. exact Mul128_s_all. Qed.
Print Assumptions C03_mul128_signed.
Example C03_ex : in_s 64 (- 2 ^ 63) /\ Mul128_s (- 2 ^ 63) (- 2 ^ 63) = (2 ^ 62, 0).
Proof. split; [unfold in_s; cbn; lia | vm_compute; reflexivity]. Qed.

(** C04 *)
Theorem C04_popcount32 : forall x, in_u 32 x -> PopCount32 x = count_ones 32 x.
Proof. exact PopCount32_correct. Qed.
Print Assumptions C04_popcount32.

Theorem C04_popcount64 : forall x, in_u 64 x -> PopCount64 x = count_ones 64 x.
Proof. exact PopCount64_correct. Qed.
Print Assumptions C04_popcount64.

Theorem C04_bits_below : forall x, in_u 64 x -> x <> 0 ->
  exists r, Num0BitsBelowLS1Bit_Nonzero64_fallback x = Some r /\ is_lowest_one x r /\ 0 <= r < 64.
Proof. exact ctz64_fallback_correct. Qed.
Print Assumptions C04_bits_below.

Theorem C04_bits_above : forall x, in_u 64 x -> x <> 0 ->
  exists r, Num0BitsAboveMS1Bit_Nonzero64_fallback x = Some r /\ is_highest_one x (63 - r) /\ 0 <= r < 64.
Proof. exact clz64_fallback_correct. Qed.
Print Assumptions C04_bits_above.
Example C04_ex : in_u 64 (2 ^ 40) /\ Num0BitsBelowLS1Bit_Nonzero64_fallback (2 ^ 40) = Some 40
  /\ Num0BitsAboveMS1Bit_Nonzero64_fallback (2 ^ 40) = Some 23 /\ PopCount64 (2 ^ 64 - 1) = 64.
Proof. repeat split; vm_compute; congruence. Qed.

(** C05: DivCeil is the least quotient, whenever a + b - 1 does not overflow. *)
Theorem C05_divceil : forall a b, 0 <= a -> 0 < b -> a + b - 1 < 2 ^ 64 ->
  exists q, DivCeil a b = Some q /\ a <= q * b /\ forall q', a <= q' * b -> q <= q'.
Proof. exact DivCeil_ok_edge. Qed.
Print Assumptions C05_divceil.

Theorem C05_round_up : forall what align, 0 <= what -> 0 < align -> what + align - 1 < 2 ^ 64 ->
  exists r, RoundUpTo what align = Some r /\ (align | r) /\ what <= r < what + align.
Proof. exact RoundUpTo_ok. Qed.
Print Assumptions C05_round_up.

(** "Works for any non-zero align" is false near 2^64: the result is smaller than the argument. *)
Theorem C05_round_up_refuted : exists what align r, in_u 64 what /\ in_u 64 align /\ align <> 0 /\
  RoundUpTo what align = Some r /\ r < what.
Proof. exact RoundUpTo_refuted_l. Qed.
Print Assumptions C05_round_up_refuted.

Theorem C05_round_down : forall what align, 0 <= what < 2 ^ 64 -> 0 < align ->
  exists r, RoundDownTo what align = Some r /\ (align | r) /\ r <= what < r + align.
Proof. exact RoundDownTo_ok. Qed.
Print Assumptions C05_round_down.

Theorem C05_floor_log2 : forall x, in_u 64 x -> x <> 0 ->
  exists r, FloorLog2_fuel 64 x = Some r /\ 0 <= r /\ 2 ^ r <= x < 2 ^ (r + 1).
Proof. exact FloorLog2_all. Qed.
Print Assumptions C05_floor_log2.

(** FloorLog2(0) never returns. *)
Theorem C05_floor_log2_zero_diverges : forall fuel, FloorLog2_fuel fuel 0 = None.
Proof. exact FloorLog2_zero. Qed.
Print Assumptions C05_floor_log2_zero_diverges.

Theorem C05_ceil_log2 : forall x, in_u 64 x -> x <> 0 ->
  exists r, CeilLog2_fuel 64 64 x = Some r /\ 0 <= r /\ x <= 2 ^ r /\
            forall r', 0 <= r' -> x <= 2 ^ r' -> r <= r'.
Proof. exact CeilLog2_all. Qed.
Print Assumptions C05_ceil_log2.

Theorem C05_shift_count : forall k, 0 <= k < 64 -> ShiftCount (2 ^ k) = Some k.
Proof. exact ShiftCount_ok. Qed.
Print Assumptions C05_shift_count.
Example C05_ex : RoundUpTo 100 64 = Some 128 /\ RoundDownTo 100 64 = Some 64 /\
  FloorLog2_fuel 64 1000 = Some 9 /\ CeilLog2_fuel 64 64 1000 = Some 10.
Proof. vm_compute. auto. Qed.

(** C06 *)
Theorem C06_scalar_shr : forall w val s, 0 < w -> in_s w val -> 0 <= s < w ->
  ScalarShr_portable w val s = Some (val / 2 ^ s) /\ ScalarShr_native w val s = Some (val / 2 ^ s).
Proof.
  exact (fun w val s Hw Hv Hs => conj (ScalarShr_portable_ok w val s Hw Hv Hs) (ScalarShr_native_ok w val s Hs)).
Qed.
Print Assumptions C06_scalar_shr.

Theorem C06_scalar_abs : forall w x, 0 < w -> in_s w x ->
  ScalarAbs_s w x = if x =? - 2 ^ (w - 1) then x else Z.abs x.
Proof. exact ScalarAbs_s_ok. Qed.
Print Assumptions C06_scalar_abs.

Theorem C06_add_wraparound_unsigned : forall w t n, 0 < w <= 64 ->
  AddWithWraparound_u w t n = (t + n) mod 2 ^ w.
Proof. exact AddWithWraparound_u_ok. Qed.
Print Assumptions C06_add_wraparound_unsigned.

Theorem C06_add_wraparound_signed : forall w t n, 0 < w <= 64 ->
  in_s w (AddWithWraparound_s w t n) /\ (AddWithWraparound_s w t n) mod 2 ^ w = (t + n) mod 2 ^ w.
Proof. exact AddWithWraparound_s_ok. Qed.
Print Assumptions C06_add_wraparound_signed.
Example C06_ex : ScalarShr_portable 8 (-7) 1 = Some (-4) /\ ScalarAbs_s 8 (-128) = -128 /\
  AddWithWraparound_s 8 127 1 = -128.
Proof. vm_compute. auto. Qed.
