(** The floating-point part of integer division: everything needed about
    rounding, stated with integers. *)
From Coq Require Import ZArith Reals Lia Lra Psatz Zquot.
From Flocq Require Import Core Relative.
From Verif Require Import Word Word_Proofs IntOps_Model IntDiv_Model.
Local Open Scope R_scope.

Lemma p2 n : (0 <= n)%Z -> bpow radix2 n = IZR (2 ^ n).
Proof. intros H. symmetry. apply (IZR_Zpower radix2). exact H. Qed.
Section P.
Context (p : Z) (Hp : (10 <= p)%Z).
Local Instance Hp0 : Prec_gt_0 p. Proof. unfold Prec_gt_0. lia. Qed.
Notation u := (bpow radix2 (- p)).
Lemma u_pos : 0 < u. Proof. apply bpow_gt_0. Qed.
Lemma u_small : u <= / 1024. Proof. change (/ 1024) with (bpow radix2 (-10)). apply bpow_le. lia. Qed.
Lemma u_P : u * IZR (2 ^ p) = 1.
Proof. rewrite <- p2 by lia. rewrite <- bpow_plus. replace (- p + p)%Z with 0%Z by lia. reflexivity. Qed.
Lemma rnd_eps x : exists e, Rabs e <= u /\ rnd p x = x * (1 + e).
Proof.
  destruct (relative_error_N_FLX_ex radix2 p Hp0 (fun x => negb (Z.even x)) x) as (e & He & E). exists e. split; [|exact E].
  replace u with (/ 2 * bpow radix2 (- p + 1)). exact He. rewrite bpow_plus. change (bpow radix2 1) with 2. lra.
Qed.
Lemma rnd_mono x y : x <= y -> rnd p x <= rnd p y.
Proof. intros. unfold rnd. apply round_le; [apply FLX_exp_valid; exact Hp0|apply valid_rnd_N|assumption]. Qed.
Lemma rnd_opp x : rnd p (- x) = - rnd p x.
Proof. apply round_NE_opp. Qed.
Lemma fmt_int n : (Z.abs n <= 2 ^ p)%Z -> generic_format radix2 (FLX_exp p) (IZR n).
Proof.
  intros H. destruct (Z_lt_le_dec (Z.abs n) (2 ^ p)).
  - apply generic_format_FLX. exists (Float radix2 n 0); [unfold F2R; cbn; ring|]. exact l.
  - assert (n = 2 ^ p \/ n = - 2 ^ p)%Z as [->| ->] by lia.
    + rewrite <- p2 by lia. apply generic_format_bpow. unfold FLX_exp. lia.
    + rewrite opp_IZR, <- p2 by lia. apply generic_format_opp. apply generic_format_bpow. unfold FLX_exp. lia.
Qed.
Lemma of_int_exact n : (Z.abs n <= 2 ^ p)%Z -> of_int p n = IZR n.
Proof. intros H. apply round_generic; [apply valid_rnd_N|apply fmt_int; exact H]. Qed.
Lemma rnd_bpow e : rnd p (bpow radix2 e) = bpow radix2 e.
Proof. apply round_generic; [apply valid_rnd_N|]. apply generic_format_bpow. unfold FLX_exp. lia. Qed.

(** ** one rounding: exact quotients of small integers *)
Lemma trunc_pos (A B : Z) : (0 <= A)%Z -> (0 < B)%Z -> (A + B <= 2 ^ p)%Z -> Ztrunc (rnd p (IZR A / IZR B)) = (A / B)%Z.
Proof.
  intros HA HB HS. set (x := IZR A / IZR B). set (n := (A / B)%Z). assert (RB : 0 < IZR B) by (apply (IZR_lt 0); lia). assert (RA : 0 <= IZR A) by (apply (IZR_le 0); lia).
  pose proof (Z.div_mod A B ltac:(lia)) as D. pose proof (Z.mod_pos_bound A B ltac:(lia)) as M. fold n in D. assert (Hn : (0 <= n)%Z) by (apply Z.div_pos; lia).
  assert (L : IZR n <= x). { unfold x. apply Rmult_le_reg_r with (IZR B); [assumption|]. unfold Rdiv. rewrite Rmult_assoc, Rinv_l, Rmult_1_r by lra. rewrite <- mult_IZR. apply IZR_le. nia. }
  assert (U : x * IZR B + 1 <= (IZR n + 1) * IZR B). { unfold x, Rdiv. rewrite Rmult_assoc, Rinv_l, Rmult_1_r by lra. rewrite <- (plus_IZR n 1), <- mult_IZR, <- (plus_IZR A 1). apply IZR_le. nia. }
  assert (x0 : 0 <= x) by (unfold x; apply Rmult_le_pos; [assumption|left; apply Rinv_0_lt_compat; assumption]).
  assert (LR : IZR n <= rnd p x). { rewrite <- (of_int_exact n); [apply rnd_mono; exact L|]. nia. }
  assert (UR : rnd p x < IZR n + 1).
  { destruct (rnd_eps x) as (e & He & ->). assert (x * e <= x * u) by (apply Rmult_le_compat_l; [assumption|]; apply Rabs_le_inv in He; apply He).
    pose proof u_pos. pose proof u_P as UP. assert (SB : (IZR n + 1) * IZR B <= IZR (2 ^ p)). { rewrite <- (plus_IZR n 1), <- mult_IZR. apply IZR_le. nia. }
    assert (x * u * IZR B < 1). { apply Rlt_le_trans with ((IZR n + 1) * IZR B * u); [|apply Rle_trans with (IZR (2 ^ p) * u); [apply Rmult_le_compat_r; lra|lra]]. replace (x * u * IZR B) with (x * IZR B * u) by ring. apply Rmult_lt_compat_r; lra. }
    apply Rmult_lt_reg_r with (IZR B); [assumption|]. replace (x * (1 + e) * IZR B) with (x * IZR B + x * e * IZR B) by ring. assert (x * e * IZR B <= x * u * IZR B) by (apply Rmult_le_compat_r; lra). lra. }
  rewrite Ztrunc_floor by (apply Rle_trans with (IZR n); [apply (IZR_le 0); exact Hn|exact LR]). apply Zfloor_imp. rewrite plus_IZR. split; [exact LR|exact UR].
Qed.
Lemma wide_trunc a b : b <> 0%Z -> (Z.abs a + Z.abs b <= 2 ^ p)%Z -> Ztrunc (fdiv p (of_int p a) (of_int p b)) = Z.quot a b.
Proof.
  intros Hb HS. unfold fdiv. rewrite !of_int_exact by lia.
  assert (RB : IZR b <> 0) by (apply (not_0_IZR b); exact Hb).
  destruct (Z_lt_le_dec a 0), (Z_lt_le_dec b 0).
  - replace (IZR a / IZR b) with (IZR (- a) / IZR (- b)) by (rewrite !opp_IZR; field; exact RB). rewrite trunc_pos by lia. rewrite <- Z.quot_div_nonneg by lia. rewrite Z.quot_opp_opp; lia.
  - replace (IZR a / IZR b) with (- (IZR (- a) / IZR b)) by (rewrite !opp_IZR; field; exact RB). rewrite rnd_opp, Ztrunc_opp, trunc_pos by lia. rewrite <- Z.quot_div_nonneg by lia. rewrite Z.quot_opp_l; lia.
  - replace (IZR a / IZR b) with (- (IZR a / IZR (- b))) by (rewrite !opp_IZR; field; exact RB). rewrite rnd_opp, Ztrunc_opp, trunc_pos by lia. rewrite <- Z.quot_div_nonneg by lia. rewrite Z.quot_opp_r; lia.
  - rewrite trunc_pos by lia. rewrite Z.quot_div_nonneg by lia. reflexivity.
Qed.

(** ** multiplication with the reciprocal: four roundings *)
Definition prod (a b : Z) : R := fmul p (of_int p a) (fdiv p 1 (of_int p b)).
Lemma err4 d1 d2 d3 d4 : Rabs d1 <= u -> Rabs d2 <= u -> Rabs d3 <= u -> Rabs d4 <= u -> Rabs ((1 + d1) * (1 + d3) * (1 + d4) / (1 + d2) - 1) <= 5 * u.
Proof.
  intros H1 H2 H3 H4. apply Rabs_le_inv in H1, H2, H3, H4. pose proof u_pos. pose proof u_small. set (v := u) in *. clearbody v.
  assert (0 < 1 + d2) by lra.
  assert (UB : (1 + d1) * (1 + d3) * (1 + d4) <= (1 + v) * (1 + v) * (1 + v)). { apply Rmult_le_compat; [apply Rmult_le_pos; lra|lra| |lra]. apply Rmult_le_compat; lra. }
  assert (LB : (1 - v) * (1 - v) * (1 - v) <= (1 + d1) * (1 + d3) * (1 + d4)). { apply Rmult_le_compat; [apply Rmult_le_pos; lra|lra| |lra]. apply Rmult_le_compat; lra. }
  set (N := (1 + d1) * (1 + d3) * (1 + d4)) in *. clearbody N.
  apply Rabs_le. split.
  - apply Rmult_le_reg_r with (1 + d2); [assumption|]. replace ((N / (1 + d2) - 1) * (1 + d2)) with (N - (1 + d2)) by (field; lra). nra.
  - apply Rmult_le_reg_r with (1 + d2); [assumption|]. replace ((N / (1 + d2) - 1) * (1 + d2)) with (N - (1 + d2)) by (field; lra). nra.
Qed.
Lemma prod_err a b : b <> 0%Z -> exists e, Rabs e <= 5 * u /\ prod a b = IZR a / IZR b * (1 + e).
Proof.
  intros Hb. unfold prod, fmul, fdiv, of_int. destruct (rnd_eps (IZR a)) as (d1 & H1 & ->). destruct (rnd_eps (IZR b)) as (d2 & H2 & ->).
  destruct (rnd_eps (1 / (IZR b * (1 + d2)))) as (d3 & H3 & ->). destruct (rnd_eps (IZR a * (1 + d1) * (1 / (IZR b * (1 + d2)) * (1 + d3)))) as (d4 & H4 & ->).
  exists ((1 + d1) * (1 + d3) * (1 + d4) / (1 + d2) - 1). split; [apply err4; assumption|]. apply Rabs_le_inv in H2. pose proof u_small. assert (IZR b <> 0) by (apply (not_0_IZR b); exact Hb). field. split; lra.
Qed.
Lemma sgn_abs (a : Z) : IZR a = IZR (Z.sgn a) * IZR (Z.abs a).
Proof. rewrite <- mult_IZR. f_equal. destruct a; cbn; lia. Qed.
(** the truncated product, as an integer quotient with a relative error of 5 * 2^-p *)
Lemma prod_trunc a b : b <> 0%Z -> exists Q, Ztrunc (prod a b) = (Z.sgn a * Z.sgn b * Q)%Z /\ (0 <= Q)%Z /\
  (2 ^ p * (Q * Z.abs b) <= (2 ^ p + 5) * Z.abs a)%Z /\ ((2 ^ p - 5) * Z.abs a < 2 ^ p * (Q * Z.abs b + Z.abs b))%Z /\ (a <> 0%Z -> Q = Zfloor (Rabs (prod a b))).
Proof.
  intros Hb. destruct (prod_err a b Hb) as (e & He & E). apply Rabs_le_inv in He. pose proof u_pos as up. pose proof u_small as us. pose proof u_P as uP.
  set (A := Z.abs a) in *. set (B := Z.abs b) in *. assert (HB : (0 < B)%Z) by lia. assert (RB : 0 < IZR B) by (apply (IZR_lt 0); lia). assert (RA : 0 <= IZR A) by (apply (IZR_le 0); lia).
  destruct (Z.eq_dec a 0) as [Ha|Ha].
  { exists 0%Z. replace A with 0%Z by lia. assert (P0 : prod a b = 0) by (rewrite E, Ha; unfold Rdiv; rewrite Rmult_0_l, Rmult_0_l; reflexivity). rewrite P0. rewrite Ztrunc_IZR. assert (0 < 2 ^ p)%Z by (apply pow2_gt0; lia). repeat split; nia. }
  assert (SB : (Z.sgn b * Z.sgn b = 1)%Z) by (destruct b; cbn; lia). assert (SA : (Z.sgn a * Z.sgn a = 1)%Z) by (destruct a; cbn; lia).
  set (sg := (Z.sgn a * Z.sgn b)%Z). assert (Ss : (sg * sg = 1)%Z) by (unfold sg; nia).
  set (Y := IZR A / IZR B * (1 + e)). assert (EY : prod a b = IZR sg * Y).
  { rewrite E. unfold Y, sg. rewrite (sgn_abs a). rewrite (sgn_abs b) at 1. fold A B. rewrite mult_IZR. assert (IZR (Z.sgn b) * IZR (Z.sgn b) = 1) by (rewrite <- mult_IZR, SB; reflexivity). assert (IZR (Z.sgn b) <> 0) by (intros Z0; rewrite Z0 in H; lra).
    replace (IZR (Z.sgn a) * IZR A / (IZR (Z.sgn b) * IZR B) * (1 + e)) with (IZR (Z.sgn a) * (IZR (Z.sgn b) * IZR (Z.sgn b)) / IZR (Z.sgn b) * (IZR A / IZR B * (1 + e))) by (rewrite H; field; split; lra). field. split; lra. }
  assert (Y0 : 0 <= Y). { unfold Y. apply Rmult_le_pos; [apply Rmult_le_pos; [assumption|left; apply Rinv_0_lt_compat; assumption]|lra]. }
  assert (YB : Y * IZR B = IZR A * (1 + e)) by (unfold Y; field; lra).
  exists (Zfloor Y). assert (sg = 1 \/ sg = -1)%Z as [S1|S1] by (unfold sg; destruct a, b; cbn; lia).
  1: assert (TR : Ztrunc (prod a b) = (sg * Zfloor Y)%Z /\ Rabs (prod a b) = Y) by (rewrite EY, S1, Rmult_1_l; split; [rewrite Ztrunc_floor by assumption; lia|apply Rabs_pos_eq; assumption]).
  2: assert (TR : Ztrunc (prod a b) = (sg * Zfloor Y)%Z /\ Rabs (prod a b) = Y) by (rewrite EY, S1; replace (-1 * Y) with (- Y) by ring; split; [rewrite Ztrunc_opp, Ztrunc_floor by assumption; lia|rewrite Rabs_Ropp; apply Rabs_pos_eq; assumption]).
  all: destruct TR as (TR & TA); split; [exact TR|]; split; [apply Zfloor_lub; exact Y0|]; split; [|split; [|intros _; rewrite TA; reflexivity]].
  1,3: apply le_IZR; rewrite !mult_IZR, plus_IZR; pose proof (Zfloor_lb Y) as F; assert (IZR (Zfloor Y) * IZR B <= IZR A * (1 + 5 * u)) by (apply Rle_trans with (Y * IZR B); [apply Rmult_le_compat_r; lra|rewrite YB; apply Rmult_le_compat_l; lra]);
    assert (RP : 0 < IZR (2 ^ p)) by (apply (IZR_lt 0), pow2_gt0; lia); apply Rle_trans with (IZR (2 ^ p) * (IZR A * (1 + 5 * u))); [apply Rmult_le_compat_l; lra|]; replace (IZR (2 ^ p) * (IZR A * (1 + 5 * u))) with (IZR A * IZR (2 ^ p) + 5 * IZR A * (u * IZR (2 ^ p))) by ring; rewrite uP; lra.
  all: apply lt_IZR; rewrite !mult_IZR, plus_IZR, minus_IZR, mult_IZR; pose proof (Zfloor_ub Y) as F; assert (IZR A * (1 - 5 * u) < IZR (Zfloor Y) * IZR B + IZR B) by (apply Rle_lt_trans with (Y * IZR B); [rewrite YB; apply Rmult_le_compat_l; lra|]; replace (IZR (Zfloor Y) * IZR B + IZR B) with ((IZR (Zfloor Y) + 1) * IZR B) by ring; apply Rmult_lt_compat_r; lra);
    assert (RP : 0 < IZR (2 ^ p)) by (apply (IZR_lt 0), pow2_gt0; lia); apply Rle_lt_trans with (IZR (2 ^ p) * (IZR A * (1 - 5 * u))); [replace (IZR (2 ^ p) * (IZR A * (1 - 5 * u))) with (IZR A * IZR (2 ^ p) - 5 * IZR A * (u * IZR (2 ^ p))) by ring; rewrite uP; lra|apply Rmult_lt_compat_l; lra].
Qed.
(** divisor 1 or -1: the product is the rounded dividend *)
Lemma prod_one a b n : Z.abs b = 1%Z -> (0 <= n)%Z -> (Z.abs a <= 2 ^ n)%Z -> Rabs (prod a b) <= IZR (2 ^ n).
Proof.
  intros Hb Hn Ha. assert (RB : of_int p b = IZR b) by (apply of_int_exact; rewrite Hb; assert (0 < 2 ^ p)%Z by (apply pow2_gt0; lia); lia).
  unfold prod, fdiv, fmul. rewrite RB. assert (fr : rnd p (1 / IZR b) = IZR b). { replace (1 / IZR b) with (IZR b); [exact RB|]. assert (b = 1 \/ b = -1)%Z as [->| ->] by lia; field; lra. }
  rewrite fr. assert (X : rnd p (of_int p a * IZR b) = of_int p a * IZR b).
  { assert (b = 1 \/ b = -1)%Z as [->| ->] by lia; [rewrite Rmult_1_r|replace (of_int p a * -1) with (- of_int p a) by ring; rewrite rnd_opp; f_equal]; unfold of_int, rnd; apply round_generic; try apply valid_rnd_N; apply generic_format_round; try apply valid_rnd_N; apply FLX_exp_valid, Hp0. }
  rewrite X, Rabs_mult. replace (Rabs (IZR b)) with 1 by (rewrite <- abs_IZR, Hb; reflexivity). rewrite Rmult_1_r. unfold of_int.
  rewrite <- p2 by lia. rewrite <- (rnd_bpow n). assert (IZR a <= bpow radix2 n) by (rewrite p2 by lia; apply IZR_le; lia). assert (- bpow radix2 n <= IZR a) by (rewrite p2 by lia; rewrite <- opp_IZR; apply IZR_le; lia).
  apply Rabs_le. split; [rewrite <- rnd_opp|]; apply rnd_mono; assumption.
Qed.
End P.
