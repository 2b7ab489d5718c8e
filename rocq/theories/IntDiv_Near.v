(** Divisors just below a power of two: the product of the rounded divisor and its
    rounded reciprocal is rounded to at least one. *)
From Coq Require Import ZArith Reals Lia Lra Psatz.
From Flocq Require Import Core.
From Verif Require Import Word Word_Proofs IntOps_Model IntDiv_Model IntDiv_Real.
Local Open Scope R_scope.

Section P.
Context (p : Z) (Hp : (10 <= p)%Z).
Lemma rnd_scale x e : rnd p (x * bpow radix2 e) = rnd p x * bpow radix2 e.
Proof.
  destruct (Req_dec x 0) as [->|N]; [rewrite Rmult_0_l; unfold rnd; rewrite round_0 by apply valid_rnd_N; ring|].
  unfold rnd, round, scaled_mantissa, cexp, F2R, FLX_exp; cbn. rewrite mag_mult_bpow by assumption.
  replace (x * bpow radix2 e * bpow radix2 (- (mag radix2 x + e - p))) with (x * bpow radix2 (- (mag radix2 x - p))).
  - rewrite Rmult_assoc, <- bpow_plus. do 2 f_equal. lia.
  - rewrite Rmult_assoc, <- bpow_plus. do 2 f_equal. lia.
Qed.
(** rounding in the binade below 2^e *)
Lemma rnd_binade x e : bpow radix2 (e - 1) <= x < bpow radix2 e -> exists X, rnd p x = IZR X * bpow radix2 (e - p) /\ Rabs (IZR X - x * bpow radix2 (p - e)) <= / 2.
Proof.
  intros H. assert (x0 : 0 < x) by (pose proof (bpow_gt_0 radix2 (e - 1)); lra).
  assert (M : mag radix2 x = e :> Z) by (apply mag_unique; rewrite Rabs_pos_eq by lra; exact H).
  unfold rnd, round, scaled_mantissa, cexp, F2R, FLX_exp; cbn. rewrite M. exists (ZnearestE (x * bpow radix2 (- (e - p)))). split; [reflexivity|].
  replace (p - e)%Z with (- (e - p))%Z by lia. rewrite Rabs_minus_sym. apply Znearest_half.
Qed.
Lemma near_one x : 1 - bpow radix2 (- p - 2) <= x -> 1 <= rnd p x.
Proof.
  intros H. change 1 with (bpow radix2 0). rewrite <- (rnd_bpow p Hp 0). destruct (Rle_lt_dec (bpow radix2 0) x) as [L|L]; [apply rnd_mono; assumption|].
  rewrite rnd_bpow by assumption. change (bpow radix2 0) with 1 in *.
  assert (S : bpow radix2 (- p - 2) <= / 4). { change (/ 4) with (bpow radix2 (-2)). apply bpow_le. lia. }
  destruct (rnd_binade x 0) as (X & -> & E). { change (bpow radix2 (0 - 1)) with (/ 2). change (bpow radix2 0) with 1. lra. }
  apply Rabs_le_inv in E. replace (p - 0)%Z with p in E by lia. replace (0 - p)%Z with (- p)%Z by lia.
  assert (XP : bpow radix2 p - / 4 <= x * bpow radix2 p).
  { apply Rle_trans with ((1 - bpow radix2 (- p - 2)) * bpow radix2 p); [|apply Rmult_le_compat_r; [apply bpow_ge_0|exact H]]. rewrite Rmult_minus_distr_r, <- bpow_plus. replace (- p - 2 + p)%Z with (-2)%Z by lia. change (bpow radix2 (-2)) with (/ 4). lra. }
  assert (XZ : (2 ^ p <= X)%Z). { apply le_IZR. rewrite <- p2 by lia. assert (bpow radix2 p - 1 < IZR X) by lra. rewrite p2 in * by lia. rewrite <- minus_IZR in H0. apply lt_IZR in H0. apply IZR_le. lia. }
  apply Rle_trans with (IZR (2 ^ p) * bpow radix2 (- p)); [rewrite <- p2 by lia; rewrite <- bpow_plus; replace (p + - p)%Z with 0%Z by lia; apply Rle_refl|apply Rmult_le_compat_r; [apply bpow_ge_0|apply IZR_le; exact XZ]].
Qed.
(** the divisor in units of 2^(n-p): X = 2^p - j with j <= 10 *)
Lemma recip_near n b : (p <= n)%Z -> (2 ^ n - 10 * 2 ^ (n - p) < b < 2 ^ n)%Z -> 1 <= rnd p (of_int p b * fdiv p 1 (of_int p b)).
Proof.
  intros Hn Hb. assert (P10 : (1024 <= 2 ^ p)%Z) by (change 1024%Z with (2 ^ 10)%Z; apply Z.pow_le_mono_r; lia).
  assert (PN : (2 ^ n = 2 ^ (n - p) * 2 ^ p)%Z) by (rewrite <- Z.pow_add_r by lia; f_equal; lia). assert (U0 : (0 < 2 ^ (n - p))%Z) by (apply pow2_gt0; lia).
  assert (H2 : (2 ^ n = 2 * 2 ^ (n - 1))%Z) by (rewrite <- Z.pow_succ_r by lia; f_equal; lia).
  destruct (rnd_binade (IZR b) n) as (X & EX & BX).
  { rewrite !p2 by lia. split; [apply IZR_le; nia|apply IZR_lt; lia]. }
  fold (of_int p b) in EX. rewrite EX. apply Rabs_le_inv in BX.
  assert (BP : IZR b * bpow radix2 (p - n) * IZR (2 ^ (n - p)) = IZR b). { rewrite Rmult_assoc, <- p2 by lia. rewrite <- bpow_plus. replace (p - n + (n - p))%Z with 0%Z by lia. change (bpow radix2 0) with 1. ring. }
  set (v := IZR b * bpow radix2 (p - n)) in *. assert (RU : 0 < IZR (2 ^ (n - p))) by (apply (IZR_lt 0); exact U0).
  assert (VL : IZR (2 ^ p) - 10 < v).
  { apply Rmult_lt_reg_r with (IZR (2 ^ (n - p))); [exact RU|]. rewrite BP. rewrite <- minus_IZR, <- mult_IZR. apply IZR_lt. nia. }
  assert (VU : v < IZR (2 ^ p)). { apply Rmult_lt_reg_r with (IZR (2 ^ (n - p))); [exact RU|]. rewrite BP. rewrite <- mult_IZR. apply IZR_lt. nia. }
  assert (XL : (2 ^ p - 10 <= X)%Z). { assert (IZR (2 ^ p - 10 - 1) < IZR X) by (rewrite !minus_IZR; lra). apply lt_IZR in H. lia. }
  assert (XU : (X <= 2 ^ p)%Z). { assert (IZR X < IZR (2 ^ p + 1)) by (rewrite plus_IZR; lra). apply lt_IZR in H. lia. }
  destruct (Z.eq_dec X (2 ^ p)) as [->|NX].
  { assert (E : IZR (2 ^ p) * bpow radix2 (n - p) = bpow radix2 n) by (rewrite <- p2 by lia; rewrite <- bpow_plus; f_equal; lia). rewrite E. unfold fdiv. replace (1 / bpow radix2 n) with (bpow radix2 (- n)) by (rewrite bpow_opp; field; apply Rgt_not_eq, bpow_gt_0).
    rewrite (rnd_bpow p Hp), <- bpow_plus. replace (n + - n)%Z with 0%Z by lia. rewrite (rnd_bpow p Hp). apply Rle_refl. }
  assert (XU' : (X < 2 ^ p)%Z) by lia. assert (RX : 0 < IZR X) by (apply (IZR_lt 0); lia).
  set (xb := IZR X * bpow radix2 (n - p)). assert (xb0 : 0 < xb) by (apply Rmult_lt_0_compat; [exact RX|apply bpow_gt_0]).
  destruct (rnd_binade (1 / xb) (1 - n)) as (Y & EY & BY).
  { split.
    - apply Rmult_le_reg_r with xb; [exact xb0|]. replace (1 / xb * xb) with 1 by (field; lra). unfold xb. rewrite (Rmult_comm (IZR X)), <- Rmult_assoc, <- bpow_plus. replace (1 - n - 1 + (n - p))%Z with (- p)%Z by lia.
      apply Rle_trans with (bpow radix2 (- p) * IZR (2 ^ p)); [apply Rmult_le_compat_l; [apply bpow_ge_0|apply IZR_le; lia]|]. rewrite (u_P p Hp). apply Rle_refl.
    - apply Rmult_lt_reg_r with xb; [exact xb0|]. replace (1 / xb * xb) with 1 by (field; lra). unfold xb. rewrite (Rmult_comm (IZR X)), <- Rmult_assoc, <- bpow_plus. replace (1 - n + (n - p))%Z with (1 + - p)%Z by lia. rewrite bpow_plus. change (bpow radix2 1) with 2.
      apply Rlt_le_trans with (2 * bpow radix2 (- p) * (IZR (2 ^ p) - 10)). { rewrite Rmult_minus_distr_l. rewrite (Rmult_assoc 2), (u_P p Hp). pose proof (u_small p Hp). lra. }
      apply Rmult_le_compat_l; [pose proof (bpow_ge_0 radix2 (- p)); lra|]. rewrite <- minus_IZR. apply IZR_le. lia. }
  unfold fdiv. rewrite EY. apply Rabs_le_inv in BY. replace (p - (1 - n))%Z with (p - 1 + n)%Z in BY by lia. replace (1 - n - p)%Z with (- (p - 1 + n))%Z by lia.
  assert (XV : IZR X * (1 / xb * bpow radix2 (p - 1 + n)) = IZR (2 ^ (2 * p - 1))).
  { rewrite <- p2 by lia. unfold xb. pose proof (bpow_gt_0 radix2 (n - p)). replace (2 * p - 1)%Z with (p - 1 + n + - (n - p))%Z by lia. rewrite (bpow_plus _ (p - 1 + n)), (bpow_opp _ (n - p)). field. split; apply Rgt_not_eq; assumption. }
  set (y := 1 / xb * bpow radix2 (p - 1 + n)) in *. assert (K : (- X <= 2 * (X * Y - 2 ^ (2 * p - 1)) <= X)%Z).
  { assert (- IZR X <= 2 * (IZR X * IZR Y - IZR X * y) <= IZR X) as [K1 K2] by nra. rewrite XV in K1, K2. rewrite <- mult_IZR, <- minus_IZR, <- mult_IZR in K1, K2. rewrite <- opp_IZR in K1. apply le_IZR in K1, K2. split; assumption. }
  assert (PP : (2 ^ (2 * p - 1) = 2 ^ p * 2 ^ (p - 1))%Z) by (rewrite <- Z.pow_add_r by lia; f_equal; lia). assert (P1 : (2 ^ p = 2 * 2 ^ (p - 1))%Z) by (rewrite <- Z.pow_succ_r by lia; f_equal; lia).
  assert (XY : (2 ^ (2 * p - 1) - 100 <= X * Y)%Z).
  { set (h := (2 ^ (p - 1))%Z) in *. set (j := (2 ^ p - X)%Z). set (k := (Y - h)%Z). assert (EXj : X = (2 * h - j)%Z) by lia. assert (EYk : Y = (h + k)%Z) by lia. assert (Hj : (1 <= j <= 10)%Z) by lia.
    rewrite PP, P1, EXj, EYk in *. clearbody h j k. clear - K Hj P10. assert (h512 : (512 <= h)%Z) by lia.
    assert (K' : (- (2 * h - j) <= 2 * (h * (2 * k - j) - j * k) <= 2 * h - j)%Z) by nia. clear K.
    assert (kb : (-1 <= k <= 6)%Z). { split; nia. }
    assert (2 * k - j >= 0)%Z. { assert (k = -1 \/ k = 0 \/ k = 1 \/ k = 2 \/ k = 3 \/ k = 4 \/ k = 5 \/ k = 6)%Z as J by lia. destruct J as [->|[->|[->|[->|[->|[->|[->| ->]]]]]]]; nia. }
    nia. }
  apply near_one. replace (xb * (IZR Y * bpow radix2 (- (p - 1 + n)))) with (IZR (X * Y) * bpow radix2 (1 - 2 * p)).
  2: { unfold xb. rewrite mult_IZR. replace (1 - 2 * p)%Z with (n - p + - (p - 1 + n))%Z by lia. rewrite bpow_plus. ring. }
  apply Rle_trans with (IZR (2 ^ (2 * p - 1) - 100) * bpow radix2 (1 - 2 * p)); [|apply Rmult_le_compat_r; [apply bpow_ge_0|apply IZR_le; exact XY]].
  rewrite minus_IZR, <- p2 by lia. rewrite Rmult_minus_distr_r, <- bpow_plus. replace (2 * p - 1 + (1 - 2 * p))%Z with 0%Z by lia. change (bpow radix2 0) with 1.
  assert (100 * bpow radix2 (1 - 2 * p) <= bpow radix2 (- p - 2)); [|lra].
  replace (- p - 2)%Z with (p - 3 + (1 - 2 * p))%Z by lia. rewrite bpow_plus. apply Rmult_le_compat_r; [apply bpow_ge_0|]. apply Rle_trans with (bpow radix2 7); [change (bpow radix2 7) with 128; lra|apply bpow_le; lia].
Qed.
Lemma prod_near n a b : (p <= n)%Z -> (2 ^ n - 10 * 2 ^ (n - p) < b < 2 ^ n)%Z -> ((b <= a)%Z -> 1 <= prod p a b) /\ ((2 * b <= a)%Z -> 2 <= prod p a b).
Proof.
  intros Hn Hb. pose proof (recip_near n b Hn Hb) as R1. unfold prod, fmul.
  assert (Hb0 : (0 < b)%Z). { assert (2 ^ n = 2 ^ (n - p) * 2 ^ p)%Z by (rewrite <- Z.pow_add_r by lia; f_equal; lia). assert (0 < 2 ^ (n - p))%Z by (apply pow2_gt0; lia). assert (1024 <= 2 ^ p)%Z by (change 1024%Z with (2 ^ 10)%Z; apply Z.pow_le_mono_r; lia). nia. }
  assert (rb : 0 <= fdiv p 1 (of_int p b)).
  { assert (0 <= of_int p b) by (unfold of_int; replace 0 with (rnd p 0) by (apply round_0, valid_rnd_N); apply rnd_mono; [exact Hp|apply (IZR_le 0); lia]).
    unfold fdiv. replace 0 with (rnd p 0) by (apply round_0, valid_rnd_N). apply rnd_mono; [exact Hp|]. destruct (Req_dec (of_int p b) 0) as [->|N]; [unfold Rdiv; rewrite Rmult_1_l; rewrite Rinv_0; lra|]. apply Rmult_le_pos; [lra|left; apply Rinv_0_lt_compat; lra]. }
  split; intros Ha.
  - eapply Rle_trans; [exact R1|]. apply rnd_mono; [exact Hp|]. apply Rmult_le_compat_r; [exact rb|]. apply rnd_mono; [exact Hp|]. apply IZR_le. exact Ha.
  - replace 2 with (1 * bpow radix2 1) by (change (bpow radix2 1) with 2; ring). eapply Rle_trans; [apply Rmult_le_compat_r; [apply bpow_ge_0|exact R1]|]. rewrite <- rnd_scale. apply rnd_mono; [exact Hp|].
    rewrite Rmult_assoc, (Rmult_comm (fdiv _ _ _)), <- Rmult_assoc. apply Rmult_le_compat_r; [exact rb|]. unfold of_int. rewrite <- rnd_scale. apply rnd_mono; [exact Hp|]. change (bpow radix2 1) with 2. rewrite <- mult_IZR. apply IZR_le. lia.
Qed.
End P.
