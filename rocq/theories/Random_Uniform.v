(** Uniform(): the result is exactly (r / 2^11) * 2^-53. *)
From Coq Require Import ZArith List Lia Bool.
From Verif Require Import Word Float_Spec Float_Model Float_Proofs Float_Conv Float_F64 Random_Model Random_Spec.
Local Open Scope Z_scope.

Lemma kMul_value : mag_value binary64 kMulConst = 2 ^ 1021.
Proof. vm_compute. reflexivity. Qed.
Lemma repr53 m p : 0 <= m < 2 ^ 53 -> 0 <= p <= 1074 -> mag_value binary64 (ieee_round binary64 (m * 2 ^ p)) = m * 2 ^ p.
Proof.
  intros Hm Hp. apply round_repr; [apply ok64|lia| | |].
  - intros. change (mbits binary64) with 52. apply (log2_small m 53); lia.
  - change (s0 binary64) with 0. lia.
  - apply Z.le_trans with (2 ^ 53 * 2 ^ 1074).
    + apply Z.mul_le_mono_nonneg; [lia|lia|apply Z.pow_nonneg; lia|]. apply Z.pow_le_mono_r; lia.
    + vm_compute. discriminate.
Qed.
Lemma uniform_ok r : u64 r ->
  is_pattern binary64 (uniform r) /\ negative binary64 (uniform r) = false /\ ~ is_nan binary64 (uniform r) /\
  value binary64 (uniform r) = r / 2 ^ 11 * 2 ^ (1074 - 53).
Proof.
  intros Hr. unfold uniform, f64_of_uint, f64_mul_mag. rewrite Z.shiftr_div_pow2 by lia.
  set (m := r / 2 ^ 11).
  assert (Hm : 0 <= m < 2 ^ 53).
  { unfold m, u64 in *. split; [apply Z.div_pos; lia|]. apply Z.div_lt_upper_bound; [lia|]. change (2 ^ 11 * 2 ^ 53) with (2 ^ 64). lia. }
  clearbody m. rewrite repr53, kMul_value by (auto; lia).
  assert (E : m * 2 ^ 1074 * 2 ^ 1021 / 2 ^ 1074 = m * 2 ^ 1021).
  { replace (m * 2 ^ 1074 * 2 ^ 1021) with (m * 2 ^ 1021 * 2 ^ 1074) by ring. apply Z.div_mul. apply Z.pow_nonzero; lia. }
  rewrite E.
  pose proof (ieee_round_range binary64 ok64 (m * 2 ^ 1021)) as R.
  assert (0 <= m * 2 ^ 1021) by (apply Z.mul_nonneg_nonneg; [lia|apply Z.pow_nonneg; lia]). specialize (R H).
  set (b := ieee_round binary64 (m * 2 ^ 1021)) in *.
  assert (Bv : mag_value binary64 b = m * 2 ^ 1021) by (apply repr53; [exact Hm|lia]).
  assert (I : inf_mag binary64 < 2 ^ 63) by reflexivity.
  assert (M : magnitude binary64 b = b). { unfold magnitude. change (ebits binary64 + mbits binary64) with 63. apply Z.mod_small. lia. }
  assert (Ng : negative binary64 b = false). { unfold negative. change (ebits binary64 + mbits binary64) with 63. apply Z.leb_gt. lia. }
  repeat split.
  - lia.
  - change (fwidth binary64) with 64. lia.
  - exact Ng.
  - unfold is_nan. rewrite M. lia.
  - unfold value. rewrite Ng, M. exact Bv.
Qed.
