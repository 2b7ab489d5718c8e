(** Integer part of the correctness of division by floating-point reciprocals. *)
From Coq Require Import ZArith Reals Lia Lra Bool Zquot.
From Flocq Require Import Core.
From Verif Require Import Word Word_Proofs IntOps_Model IntOps_Proofs IntOps_Mul IntDiv_Model IntDiv_Real IntDiv_Near.
Local Open Scope Z_scope.

Lemma conv_in m sg w x : lowest sg w <= Ztrunc x <= highest sg w -> conv m sg w x = Ztrunc x.
Proof. intros H. unfold conv. destruct (Z.leb_spec (lowest sg w) (Ztrunc x)), (Z.leb_spec (Ztrunc x) (highest sg w)); cbn; lia. Qed.
Definition wp (w p : Z) : Prop := (w = 64 /\ p = 53) \/ (w = 32 /\ p = 24).
Definition in_range (sg : bool) (w x : Z) : Prop := lowest sg w <= x <= highest sg w.
Lemma sgn_cases x : (Z.sgn x = 1 /\ 0 < x /\ Z.abs x = x) \/ (Z.sgn x = 0 /\ x = 0 /\ Z.abs x = 0) \/ (Z.sgn x = -1 /\ x < 0 /\ Z.abs x = - x).
Proof. destruct x; cbn; lia. Qed.
(** the first quotient estimate; [k] accounts for conversions that wrap around *)
Lemma q0_ok m sg w p a b : wp w p -> b <> 0 -> in_range sg w a -> in_range true w b -> (sg = false -> 0 < b) ->
  exists Q k, conv m sg w (prod p a b) = Z.sgn a * Z.sgn b * Q + k * 2 ^ w /\ 0 <= Q /\
    2 ^ p * (Q * Z.abs b) <= (2 ^ p + 5) * Z.abs a /\ (2 ^ p - 5) * Z.abs a < 2 ^ p * (Q * Z.abs b + Z.abs b) /\ (sg = false -> a - Q * b < 2 ^ (w - 1)).
Proof.
  intros Hwp Hb Ha Hb2 Hu. assert (Hp : 10 <= p) by (destruct Hwp as [[_ ->]|[_ ->]]; lia).
  destruct (prod_trunc p Hp a b Hb) as (Q & T & Q0 & U & L & F).
  assert (N : sg = false -> a - Q * b < 2 ^ (w - 1)).
  { intros ->. specialize (Hu eq_refl). unfold in_range, lowest, highest in *. assert (Hpw : p <= w - 1) by (destruct Hwp as [[-> ->]|[-> ->]]; lia).
    pose proof (prod_near p Hp (w - 1) a b Hpw) as NR.
    destruct (Z_lt_le_dec (2 ^ (w - 1) - 10 * 2 ^ (w - 1 - p)) b) as [Nr|Fr].
    - destruct NR as (N1 & N2); [split; [exact Nr|lia]|]. rewrite (Z.abs_eq a), (Z.abs_eq b) in * by lia.
      destruct (Z_lt_le_dec a b); [nia|]. assert (E : Q = Zfloor (Rabs (prod p a b))) by (apply F; lia). 
      assert (P1 : (1 <= prod p a b)%R) by (apply N1; lia). rewrite Rabs_pos_eq in E by lra. 
      assert (1 <= Q) by (rewrite E; apply Zfloor_lub; exact P1).
      destruct (Z_lt_le_dec a (2 * b)); [nia|]. assert (2 <= Q) by (rewrite E; apply Zfloor_lub; apply N2; lia). assert (2 ^ w = 2 * 2 ^ (w - 1)) by (apply IntOps_Proofs.pow_half; destruct Hwp as [[-> _]|[-> _]]; lia). assert (10 * 2 ^ (w - 1 - p) * 2 <= 2 ^ (w - 1)) by (destruct Hwp as [[-> ->]|[-> ->]]; vm_compute; discriminate). nia.
    - clear NR. rewrite (Z.abs_eq a), (Z.abs_eq b) in * by lia. set (X := Q * b) in *. destruct Hwp as [[-> ->]|[-> ->]]; clearbody X; clear - Fr L Ha;
      [change (64 - 1 - 53) with 10 in *; change (64 - 1) with 63 in *|change (32 - 1 - 24) with 7 in *; change (32 - 1) with 31 in *]; lia. }
  destruct (Z.eq_dec (Z.abs b) 1) as [B1|B1].
  - (* divisor 1 or -1 *)
    set (n := if sg then w - 1 else w). assert (Wh : 2 ^ w = 2 * 2 ^ (w - 1)) by (apply IntOps_Proofs.pow_half; destruct Hwp as [[-> _]|[-> _]]; lia). assert (W0 : 0 < 2 ^ (w - 1)) by (apply pow2_gt0; destruct Hwp as [[-> _]|[-> _]]; lia).
    assert (An : Z.abs a <= 2 ^ n) by (unfold n, in_range, lowest, highest in *; destruct sg; lia). assert (Hn : 0 <= n) by (unfold n; destruct Hwp as [[-> _]|[-> _]], sg; lia).
    pose proof (prod_one p Hp a b n B1 Hn An) as PO.
    assert (QN : Q <= 2 ^ n). { destruct (Z.eq_dec a 0) as [->|a0]; [rewrite Z.abs_0 in U; rewrite B1 in U; assert (0 < 2 ^ p) by (apply pow2_gt0; lia); assert (0 < 2 ^ n) by (apply pow2_gt0; exact Hn); nia|]. rewrite (F a0). apply le_IZR. eapply Rle_trans; [apply Zfloor_lb|exact PO]. }
    set (s := Z.sgn a * Z.sgn b) in *. assert (Hs : s = 1 \/ s = -1 \/ (s = 0 /\ a = 0)) by (unfold s; destruct (sgn_cases a) as [(-> & ?)|[(-> & ?)|(-> & ?)]], (sgn_cases b) as [(-> & ?)|[(-> & ?)|(-> & ?)]]; lia).
    destruct (Z_le_gt_dec (Ztrunc (prod p a b)) (highest sg w)) as [In|Out].
    + exists Q, 0. rewrite conv_in; [repeat split; try assumption; lia|]. rewrite T in *. split; [|exact In]. unfold lowest, n in *. destruct sg; [destruct Hs as [->|[->|[-> _]]]; lia|]. assert (0 <= s) by (unfold s; unfold in_range, lowest in Ha; destruct (sgn_cases a) as [(-> & ?)|[(-> & ?)|(-> & ?)]], (sgn_cases b) as [(-> & ?)|[(-> & ?)|(-> & ?)]]; lia). nia.
    + assert (S1 : s = 1) by (rewrite T in Out; unfold highest in Out; destruct Hs as [->|[->|[-> _]]]; destruct sg; lia). rewrite T, S1, Z.mul_1_l in Out. assert (EQ : Q = 2 ^ n) by (unfold highest, n in *; destruct sg; lia).
      assert (C : conv m sg w (prod p a b) = Q - 1 \/ exists k, conv m sg w (prod p a b) = Q + k * 2 ^ w).
      { unfold conv. rewrite T, S1, Z.mul_1_l. destruct (Z.leb_spec (lowest sg w) Q), (Z.leb_spec Q (highest sg w)); try (unfold lowest in *; destruct sg; lia). cbn [andb]. destruct m.
        - left. unfold lowest, highest, n in *. destruct sg; lia.
        - right. unfold fit, n in *. destruct sg.
          + exists (-1). rewrite swrap_cases by (destruct Hwp as [[-> _]|[-> _]]; lia). destruct (Z.ltb_spec Q (- 2 ^ (w - 1))), (Z.ltb_spec Q (2 ^ (w - 1))); lia.
          + exists (-1). rewrite EQ. unfold wrap. rewrite Z_mod_same_full. lia.
        - right. exists (-1). unfold lowest, n in *. destruct sg; lia. }
      destruct C as [C|(k & C)].
      * exists (Q - 1), 0. rewrite C, S1. split; [lia|]. rewrite B1 in *. assert (1 <= 2 ^ n) by (pose proof (pow2_gt0 n Hn); lia). split; [lia|]. assert (0 < 2 ^ p) by (apply pow2_gt0; lia). split; [nia|]. split.
        -- rewrite !Z.mul_1_r. replace (Q - 1 + 1) with (2 ^ n) by lia. assert (a <> 0) by (intros ->; unfold s in S1; rewrite Z.sgn_0 in S1; discriminate). nia.
        -- intros ->. unfold in_range, lowest, highest, n in *. assert (b = 1) by (specialize (Hu eq_refl); lia). subst b. lia.
      * exists Q, k. rewrite C, S1. repeat split; try assumption; lia.
  - (* the quotient fits *)
    exists Q, 0. rewrite conv_in; [repeat split; try assumption; lia|]. rewrite T. assert (QB : 2 * Q <= Q * Z.abs b) by nia. set (X := Q * Z.abs b) in *. unfold in_range in *.
    assert (QR : Q <= highest sg w). { clear T F N. clearbody X. unfold lowest, highest in *. destruct Hwp as [[-> ->]|[-> ->]], sg; [change (64 - 1) with 63 in *|change (64 - 1) with 63 in *|change (32 - 1) with 31 in *|change (32 - 1) with 31 in *]; lia. }
    assert (S0 : sg = false -> 0 <= Z.sgn a * Z.sgn b) by (intros ->; specialize (Hu eq_refl); unfold lowest in Ha; destruct (sgn_cases a) as [(-> & ?)|[(-> & ?)|(-> & ?)]], (sgn_cases b) as [(-> & ?)|[(-> & ?)|(-> & ?)]]; lia).
    set (s := Z.sgn a * Z.sgn b) in *. assert (Hs : s = 1 \/ s = -1 \/ s = 0) by (unfold s; destruct (sgn_cases a) as [(-> & ?)|[(-> & ?)|(-> & ?)]], (sgn_cases b) as [(-> & ?)|[(-> & ?)|(-> & ?)]]; lia).
    assert (W0 : 0 < 2 ^ (w - 1)) by (apply pow2_gt0; destruct Hwp as [[-> _]|[-> _]]; lia). unfold lowest, highest in *. destruct sg; [|specialize (S0 eq_refl)]; destruct Hs as [->|[->| ->]]; lia.
Qed.
(** the two steps together *)
Lemma core w p A B X X1 rho t : wp w p -> 0 <= A <= 2 ^ w -> 1 <= B -> 0 <= X1 -> rho = A - X -> t = rho - Z.sgn rho * X1 ->
  2 ^ p * X <= (2 ^ p + 5) * A -> (2 ^ p - 5) * A < 2 ^ p * (X + B) -> 2 ^ p * X1 <= (2 ^ p + 5) * Z.abs rho -> (2 ^ p - 5) * Z.abs rho < 2 ^ p * (X1 + B) -> - B <= t < 2 * B /\ Z.abs t <= Z.abs rho.
Proof.
  intros Hwp HA HB HX1 Er Et H1 H2 H3 H4. destruct (sgn_cases rho) as [(S & ? & E)|[(S & ? & E)|(S & ? & E)]]; rewrite S in Et; rewrite E in *; clear S E; destruct Hwp as [[-> ->]|[-> ->]]; lia.
Qed.
Lemma fit_mod sg w x : 0 < w -> (fit sg w x) mod 2 ^ w = x mod 2 ^ w.
Proof. intros Hw. destruct sg; cbn [fit]; [apply swrap_mod; exact Hw|]. unfold wrap. apply Z.mod_mod. apply Z.pow_nonzero; lia. Qed.
Lemma fit_cong sg w x y : x mod 2 ^ w = y mod 2 ^ w -> fit sg w x = fit sg w y.
Proof. intros H. destruct sg; cbn [fit]; unfold swrap, wrap; rewrite H; reflexivity. Qed.
Lemma fit_in sg w x : 0 < w -> in_range sg w x -> fit sg w x = x.
Proof. intros Hw H. unfold in_range, lowest, highest in H. destruct sg; cbn [fit]; [apply swrap_small; unfold in_s; lia|apply wrap_small; lia]. Qed.
(** the final correction *)
Lemma correction (sg : bool) (w a b r3 t : Z) : 2 <= w -> b <> 0 -> in_s w b -> in_s w r3 -> - Z.abs b <= t < 2 * Z.abs b -> - 2 ^ (w - 1) <= t <= 2 ^ (w - 1) -> (if sg then (a < 0 -> t = - r3) /\ (0 <= a -> t = r3) else 0 < b /\ t = r3) ->
  let r4 := if sg then if_negative a (neg_ true w r3) r3 else r3 in
  let abs_b := if sg then wrap w (swrap w (Z.abs b)) else b in
  let q4 := swrap w (vec_from_mask false w (abs_b <=? wrap w r4)) in
  let q4_negate_mask := if sg then Z.lxor r3 (swrap w b) else r3 in
  let q4 := if_negative q4_negate_mask (neg_ true w q4) q4 in
  q4 = (if (t <? 0) || (Z.abs b <=? t) then - (Z.sgn r3 * Z.sgn b) else 0).
Proof.
  intros Hw Hb Ib Ir Ht Ht2 HS r4 abs_b. assert (Wh : 2 ^ w = 2 * 2 ^ (w - 1)) by (apply IntOps_Proofs.pow_half; lia). unfold in_s in *.
  assert (W0 : 2 <= 2 ^ (w - 1)) by (change 2 with (2 ^ 1) at 1; apply Z.pow_le_mono_r; lia).
  assert (Er4 : wrap w r4 = wrap w t).
  { unfold r4. destruct sg; [|destruct HS as (_ & ->); reflexivity]. destruct HS as (H1 & H2). unfold if_negative. destruct (Z.ltb_spec a 0).
    - rewrite H1 by assumption. unfold neg_, sub_, fit. rewrite wrap_swrap by lia. f_equal; lia.
    - rewrite H2 by lia. reflexivity. }
  assert (Eab : abs_b = Z.abs b). { unfold abs_b. destruct sg; [|lia]. rewrite wrap_swrap by lia. apply wrap_small. lia. }
  rewrite Er4, Eab. set (mask := (Z.abs b <=? wrap w t)). assert (Em : mask = (t <? 0) || (Z.abs b <=? t)).
  { unfold mask. destruct (Z.ltb_spec t 0); cbn [orb].
    - apply Z.leb_le. replace t with (t + 2 ^ w + -1 * 2 ^ w) by lia. rewrite wrap_add_mult by lia. rewrite wrap_small by lia. lia.
    - rewrite wrap_small by lia. reflexivity. }
  rewrite Em. clear mask Em Er4 Eab r4 abs_b.
  assert (NEG : (if sg then Z.lxor r3 (swrap w b) else r3) <? 0 = xorb (r3 <? 0) (b <? 0)).
  { destruct sg.
    - rewrite swrap_small by (unfold in_s; lia). pose proof (Z.lxor_nonneg r3 b). destruct (Z.ltb_spec (Z.lxor r3 b) 0), (Z.ltb_spec r3 0), (Z.ltb_spec b 0); cbn; try reflexivity; exfalso; lia.
    - destruct HS. replace (b <? 0) with false by (symmetry; apply Z.ltb_ge; lia). rewrite xorb_false_r. reflexivity. }
  unfold if_negative. rewrite NEG. destruct ((t <? 0) || (Z.abs b <=? t)) eqn:M.
  - assert (r3 <> 0). { intros ->. assert (t = 0) by (destruct sg; [destruct (Z_lt_le_dec a 0); [rewrite (proj1 HS)|rewrite (proj2 HS)]|]; lia). subst t. cbn in M. apply Z.leb_le in M. lia. }
    assert (Em : swrap w (vec_from_mask false w true) = -1). { unfold vec_from_mask. replace (2 ^ w - 1) with (-1 + 1 * 2 ^ w) by lia. apply swrap_unique; [lia|unfold in_s; lia|]. apply Z_mod_plus_full. }
    rewrite Em. unfold neg_, sub_, fit. rewrite swrap_small by (try (unfold in_s); lia). destruct (Z.ltb_spec r3 0), (Z.ltb_spec b 0); cbn [xorb]; [rewrite (Z.sgn_neg r3), (Z.sgn_neg b)|rewrite (Z.sgn_neg r3), (Z.sgn_pos b)|rewrite (Z.sgn_pos r3), (Z.sgn_neg b)|rewrite (Z.sgn_pos r3), (Z.sgn_pos b)]; lia.
  - unfold vec_from_mask. assert (E0 : swrap w 0 = 0) by (apply swrap_small; unfold in_s; lia). rewrite E0. unfold neg_, sub_, fit. change (0 - 0) with 0. rewrite E0. destruct (xorb _ _); reflexivity.
Qed.
(** the corrected quotient *)
Lemma corrected a b q r3 t : b <> 0 -> a = q * b + r3 -> - Z.abs b <= t < 2 * Z.abs b -> (a < 0 -> t = - r3) -> (0 <= a -> t = r3) ->
  q - (if (t <? 0) || (Z.abs b <=? t) then - (Z.sgn r3 * Z.sgn b) else 0) = Z.quot a b.
Proof.
  intros Hb E Ht H1 H2. set (c := if (t <? 0) || (Z.abs b <=? t) then Z.sgn r3 * Z.sgn b else 0).
  replace (if (t <? 0) || (Z.abs b <=? t) then - (Z.sgn r3 * Z.sgn b) else 0) with (- c) by (unfold c; destruct ((t <? 0) || (Z.abs b <=? t)); lia).
  apply (Zquot_unique_full a b (q - - c) (r3 - c * b)); [|lia]. unfold Remainder.
  assert (CB : c * b = if (t <? 0) || (Z.abs b <=? t) then Z.sgn r3 * Z.abs b else 0) by (unfold c; destruct ((t <? 0) || (Z.abs b <=? t)); [rewrite <- Z.mul_assoc; f_equal; destruct b; cbn; lia|lia]).
  rewrite CB. destruct (Z_lt_le_dec a 0) as [A|A]; [specialize (H1 A); right|specialize (H2 A); left]; (split; [lia|]);
  destruct (Z.ltb_spec t 0), (Z.leb_spec (Z.abs b) t); cbn [orb]; destruct (sgn_cases r3) as [(SS & ?)|[(SS & ?)|(SS & ?)]]; rewrite ?SS; lia.
Qed.
Lemma int_div_same_ok0 m sg w p a b : wp w p -> b <> 0 -> in_range sg w a -> in_range true w b -> (sg = false -> 0 < b) ->
  int_div_same m p sg w a b = fit sg w (Z.quot a b).
Proof.
  intros Hwp Hb Ha Hb2 Hu. assert (Hw : 2 <= w) by (destruct Hwp as [[-> _]|[-> _]]; lia). assert (Hp : 10 <= p) by (destruct Hwp as [[_ ->]|[_ ->]]; lia). assert (P0 : 0 < 2 ^ p) by (apply pow2_gt0; lia).
  assert (Wh : 2 ^ w = 2 * 2 ^ (w - 1)) by (apply IntOps_Proofs.pow_half; lia). assert (W0 : 0 < 2 ^ (w - 1)) by (apply pow2_gt0; lia).
  assert (Ib : in_s w b) by (unfold in_range, lowest, highest in Hb2; unfold in_s; lia).
  unfold int_div_same.
  assert (EN : (if sg then (a, b) else (wrap w (if_negative (swrap w b) (if b <=? a then 1 else 0) (swrap w a)), wrap w (if_negative (swrap w b) 1 (swrap w b)))) = (a, b)).
  { destruct sg; [reflexivity|]. specialize (Hu eq_refl). rewrite (swrap_small w b) by (lia || exact Ib). unfold if_negative. replace (b <? 0) with false by (symmetry; apply Z.ltb_ge; lia). unfold in_range, lowest, highest in Ha. unfold in_s in Ib. rewrite wrap_swrap by lia. rewrite !wrap_small by lia. reflexivity. }
  rewrite EN. clear EN. cbn [fst snd].
  change (fmul p (of_int p a) (fdiv p 1 (of_int p b))) with (prod p a b). destruct (q0_ok m sg w p a b Hwp Hb Ha Hb2 Hu) as (Q & k & EQ & Q0 & U & L & N). set (q0 := conv m sg w (prod p a b)) in *. clearbody q0.
  set (X := Q * Z.abs b) in *. assert (X0 : 0 <= X) by (unfold X; nia). assert (SB : Z.sgn b * b = Z.abs b) by (destruct b; cbn; lia).
  assert (sX : Z.sgn a * Z.sgn b * Q * b = Z.sgn a * X) by (unfold X; nia).
  set (rho := Z.abs a - X). assert (HA : 0 <= Z.abs a <= 2 ^ w) by (unfold in_range, lowest, highest in Ha; destruct sg; lia). assert (HB1 : 1 <= Z.abs b) by lia.
  assert (Rb : - 2 ^ (w - 1) <= rho <= 2 ^ (w - 1) /\ (rho = 2 ^ (w - 1) -> a < 0) /\ - 2 ^ (w - 1) < rho).
  { unfold rho. unfold in_range, lowest, highest in *. destruct sg.
    - clear N sX EQ. clearbody X. destruct Hwp as [[-> ->]|[-> ->]]; [change (64 - 1) with 63 in *|change (32 - 1) with 31 in *]; lia.
    - specialize (Hu eq_refl). specialize (N eq_refl). assert (X = Q * b) by (unfold X; f_equal; lia). rewrite <- H in N. clear EQ sX H. clearbody X. destruct Hwp as [[-> ->]|[-> ->]]; [change (64 - 1) with 63 in *|change (32 - 1) with 31 in *]; lia. }
  assert (Er0 : swrap w (fit sg w (a - q0 * b)) = a - Z.sgn a * X).
  { apply swrap_unique; [lia| |].
    - unfold in_s. unfold rho in Rb. clearbody X. destruct (sgn_cases a) as [(-> & ? & E)|[(-> & ? & E)|(-> & ? & E)]]; rewrite E in *; lia.
    - rewrite fit_mod by lia. rewrite EQ. replace (a - (Z.sgn a * Z.sgn b * Q + k * 2 ^ w) * b) with (a - Z.sgn a * Z.sgn b * Q * b + - k * b * 2 ^ w) by ring. rewrite Z_mod_plus_full, sX. reflexivity. }
  rewrite Er0. set (r0 := a - Z.sgn a * X) in *. assert (Ir0 : in_s w r0) by (rewrite <- Er0; apply swrap_range; lia).
  change (fmul p (of_int p r0) (fdiv p 1 (of_int p b))) with (prod p r0 b). destruct (q0_ok m true w p r0 b Hwp Hb) as (Q1 & k1 & EQ1 & Q10 & U1 & L1 & _); [unfold in_range, lowest, highest; unfold in_s in Ir0; lia|assumption|discriminate|]. set (q1 := conv m true w (prod p r0 b)) in *. clearbody q1.
  set (X1 := Q1 * Z.abs b) in *. assert (X10 : 0 <= X1) by (unfold X1; nia). assert (sX1 : Z.sgn r0 * Z.sgn b * Q1 * b = Z.sgn r0 * X1) by (unfold X1; nia).
  set (t := rho - Z.sgn rho * X1). assert (Er : a <> 0 -> r0 = Z.sgn a * rho) by (intros; unfold r0, rho; rewrite Z.mul_sub_distr_l; f_equal; destruct a; cbn; lia).
  assert (A0 : a = 0 -> X = 0 /\ rho = 0 /\ r0 = 0) by (intros ->; rewrite Z.abs_0 in *; unfold r0, rho; cbn [Z.sgn]; assert (X = 0) by nia; lia).
  assert (AR : Z.abs r0 = Z.abs rho). { destruct (Z.eq_dec a 0) as [Z0|Z0]; [destruct (A0 Z0) as (_ & -> & ->); reflexivity|]. rewrite (Er Z0). destruct (sgn_cases a) as [(-> & ?)|[(-> & ?)|(-> & ?)]]; lia. }
  rewrite AR in U1, L1.
  destruct (core w p (Z.abs a) (Z.abs b) X X1 rho t Hwp HA HB1 X10 eq_refl eq_refl U L U1 L1) as (CT & CA).
  set (r1 := r0 - Z.sgn r0 * X1).
  assert (T1 : (a < 0 -> t = - r1) /\ (0 <= a -> t = r1)).
  { split; intros HA'.
    - assert (r0 = - rho) by (rewrite Er by lia; rewrite Z.sgn_neg by lia; lia). unfold t, r1. rewrite H, Z.sgn_opp. lia.
    - assert (r0 = rho) by (destruct (Z.eq_dec a 0) as [Z0|Z0]; [destruct (A0 Z0) as (_ & -> & ->); reflexivity|]; rewrite Er by lia; rewrite Z.sgn_pos by lia; lia). unfold t, r1. rewrite H. lia. }
  assert (Ir1 : in_s w r1).
  { assert (HR : Z.abs r1 = Z.abs t). { clear - T1. clearbody r1 t. lia. }
    assert (NR : r1 <> 2 ^ (w - 1)).
    { intros E1. assert (XB : X1 < 2 ^ w). { rewrite Wh. clearbody X1 rho. clear - U1 Rb Hwp. destruct Hwp as [[-> ->]|[-> ->]]; [change (64 - 1) with 63 in *|change (32 - 1) with 31 in *]; lia. }
      unfold in_s in Ir0. clear - E1 XB Ir0 Wh W0 X10 HR CA AR. unfold r1 in E1, HR. clearbody r0 t X1 rho. destruct (sgn_cases r0) as [(S & ? & _)|[(S & ? & _)|(S & ? & _)]]; rewrite S in *; lia. }
    unfold in_s in *. clear - HR NR CA AR Ir0 W0. clearbody r1 t r0 rho. lia. }
  assert (Er1 : swrap w (r0 - q1 * swrap w b) = r1).
  { rewrite (swrap_small w b) by (lia || assumption). apply swrap_unique; [lia|assumption|]. rewrite EQ1. replace (r0 - (Z.sgn r0 * Z.sgn b * Q1 + k1 * 2 ^ w) * b) with (r0 - Z.sgn r0 * Z.sgn b * Q1 * b + - k1 * b * 2 ^ w) by ring. rewrite Z_mod_plus_full, sX1. reflexivity. }
  cbv zeta. rewrite Er1. cbv zeta.
  assert (HT2 : - 2 ^ (w - 1) <= t <= 2 ^ (w - 1)) by lia.
  pose proof (correction sg w a b r1 t Hw Hb Ib Ir1 CT HT2) as CO. cbv zeta in CO. rewrite CO; clear CO.
  2: { destruct sg; [exact T1|]. split; [apply Hu; reflexivity|]. apply T1. unfold in_range, lowest in Ha. lia. }
  unfold add_, sub_. apply fit_cong.
  rewrite <- (corrected a b (Z.sgn a * Z.sgn b * Q + Z.sgn r0 * Z.sgn b * Q1) r1 t Hb); [| |exact CT|exact (proj1 T1)|exact (proj2 T1)].
  2: { unfold r1, r0. fold r0. rewrite Z.mul_add_distr_r, sX, sX1. unfold r0. ring. }
  set (c := if (t <? 0) || (Z.abs b <=? t) then - (Z.sgn r1 * Z.sgn b) else 0). clearbody c.
  rewrite Zminus_mod, !fit_mod by lia. rewrite <- Zminus_mod. rewrite Zminus_mod, Zplus_mod, (fit_mod sg w q1) by lia. rewrite <- Zplus_mod, <- Zminus_mod.
  rewrite EQ, EQ1. set (s1 := Z.sgn a * Z.sgn b * Q). set (s2 := Z.sgn r0 * Z.sgn b * Q1). replace (s1 + k * 2 ^ w + (s2 + k1 * 2 ^ w) - c) with (s1 + s2 - c + (k + k1) * 2 ^ w) by ring. apply Z_mod_plus_full.
Qed.
Lemma int_div_same_ok m sg w p a b : wp w p -> b <> 0 -> in_range sg w a -> in_range sg w b -> int_div_same m p sg w a b = fit sg w (Z.quot a b).
Proof.
  intros Hwp Hb Ha Hbr. destruct sg; [apply int_div_same_ok0; try assumption; discriminate|].
  assert (Hw : 2 <= w) by (destruct Hwp as [[-> _]|[-> _]]; lia). assert (Wh : 2 ^ w = 2 * 2 ^ (w - 1)) by (apply IntOps_Proofs.pow_half; lia). assert (W1 : 2 <= 2 ^ (w - 1)) by (change 2 with (2 ^ 1) at 1; apply Z.pow_le_mono_r; lia).
  unfold in_range, lowest, highest in Ha, Hbr. destruct (Z_lt_le_dec b (2 ^ (w - 1))).
  { apply int_div_same_ok0; try assumption; unfold in_range, lowest, highest; intros; lia. }
  set (a' := if b <=? a then 1 else 0).
  transitivity (int_div_same m p false w a' 1).
  - unfold int_div_same. assert (Sb : swrap w b = b - 2 ^ w) by (replace b with (b - 2 ^ w + 1 * 2 ^ w) at 1 by lia; apply swrap_unique; [lia|unfold in_s; lia|apply Z_mod_plus_full]).
    assert (S1 : swrap w 1 = 1) by (apply swrap_small; [lia|unfold in_s; lia]). assert (Sa : swrap w a' = a') by (apply swrap_small; [lia|unfold a', in_s; destruct (b <=? a); lia]).
    assert (EN : (wrap w (if_negative (swrap w b) (if b <=? a then 1 else 0) (swrap w a)), wrap w (if_negative (swrap w b) 1 (swrap w b))) = (wrap w (if_negative (swrap w 1) (if 1 <=? a' then 1 else 0) (swrap w a')), wrap w (if_negative (swrap w 1) 1 (swrap w 1)))).
    { rewrite Sb, S1, Sa. unfold if_negative. replace (b - 2 ^ w <? 0) with true by (symmetry; apply Z.ltb_lt; lia). reflexivity. }
    injection EN as EN1 EN2. rewrite EN1, EN2. reflexivity.
  - rewrite int_div_same_ok0; try assumption; try lia; try (unfold in_range, lowest, highest, a'; destruct (b <=? a); lia). f_equal. rewrite Z.quot_1_r. unfold a'. rewrite Z.quot_div_nonneg by lia. destruct (Z.leb_spec b a).
    + apply (Z.div_unique_pos a b 1 (a - b)); lia.
    + symmetry. apply Z.div_small. lia.
Qed.
(** ** wide path *)
Lemma quot_abs a b : b <> 0 -> Z.abs (Z.quot a b) <= Z.abs a.
Proof. intros Hb. rewrite <- Z.quot_abs by assumption. rewrite Z.quot_div_nonneg by lia. apply Z.div_le_upper_bound; nia. Qed.
Lemma quot_nonneg a b : 0 <= a -> 0 < b -> 0 <= Z.quot a b.
Proof. intros. rewrite Z.quot_div_nonneg by lia. apply Z.div_pos; lia. Qed.
Definition overflow (sg : bool) (w a b : Z) : Prop := sg = true /\ a = lowest sg w /\ b = -1.
Lemma quot_range sg w a b : 1 < w -> b <> 0 -> in_range sg w a -> in_range sg w b -> ~ overflow sg w a b -> in_range sg w (Z.quot a b).
Proof.
  intros Hw Hb Ha Hbr NO. unfold in_range, overflow, lowest, highest in *. destruct sg.
  - pose proof (quot_abs a b Hb) as Q. destruct (Z.eq_dec (Z.abs b) 1) as [B|B].
    + assert (b = 1 \/ b = -1) as [->| ->] by lia; [rewrite Z.quot_1_r; lia|]. change (-1) with (- (1)). rewrite Z.quot_opp_r by lia. rewrite Z.quot_1_r. assert (a <> - 2 ^ (w - 1)) by (intros ->; apply NO; auto). lia.
    + assert (2 * Z.abs (Z.quot a b) <= Z.abs a). { rewrite <- Z.quot_abs by assumption. rewrite Z.quot_div_nonneg by lia. pose proof (Z.mul_div_le (Z.abs a) (Z.abs b) ltac:(lia)). pose proof (Z.div_pos (Z.abs a) (Z.abs b) ltac:(lia) ltac:(lia)). nia. }
      assert (0 < 2 ^ (w - 1)) by (apply pow2_gt0; lia). lia.
  - pose proof (quot_abs a b Hb). pose proof (quot_nonneg a b). lia.
Qed.
Lemma int_div_wide_ok m p sg w a b : 10 <= p -> b <> 0 -> Z.abs a + Z.abs b <= 2 ^ p -> in_range sg w (Z.quot a b) -> int_div_wide m p sg w a b = Z.quot a b.
Proof. intros Hp Hb HS HR. unfold int_div_wide. pose proof (wide_trunc p Hp a b Hb HS) as T. rewrite conv_in by (rewrite T; exact HR). exact T. Qed.
Lemma demote_in sg n v : in_range sg n v -> demote sg n v = v.
Proof. unfold in_range, demote. lia. Qed.
Ltac rng := unfold in_range, lowest, highest in *; repeat match goal with |- context [if ?b then _ else _] => destruct b | H : context [if ?b then _ else _] |- _ => destruct b end; lia.
Lemma range_grow sg n m v : 1 < n -> n <= m -> in_range sg n v -> in_range sg m v.
Proof. intros H1 H2 H. unfold in_range, lowest, highest in *. assert (2 ^ n <= 2 ^ m) by (apply Z.pow_le_mono_r; lia). assert (2 ^ (n - 1) <= 2 ^ (m - 1)) by (apply Z.pow_le_mono_r; lia). destruct sg; lia. Qed.
Lemma range_signed sg n m v : 1 < n -> n < m -> in_range sg n v -> in_range true m v.
Proof. intros H1 H2 H. unfold in_range, lowest, highest in *. assert (2 ^ n <= 2 ^ (m - 1)) by (apply Z.pow_le_mono_r; lia). assert (2 ^ (n - 1) <= 2 ^ (m - 1)) by (apply Z.pow_le_mono_r; lia). assert (0 < 2 ^ (n - 1)) by (apply pow2_gt0; lia). destruct sg; lia. Qed.
Lemma wide_sg_range t sg n m v : 1 < n -> n < m -> in_range sg n v -> in_range (wide_sg t sg) m v.
Proof. intros. unfold wide_sg. destruct (sse t); [apply range_signed with sg n|apply range_grow with n]; try assumption; lia. Qed.
Lemma int_div16_ok t orig sg a b : (orig = 1 \/ orig = 2) -> b <> 0 -> in_range sg (8 * orig) a -> in_range sg (8 * orig) b -> in_range sg (if orig =? 1 then 16 else 8 * orig) (Z.quot a b) -> (orig = 1 -> Z.abs (Z.quot a b) <= 255) -> int_div16 t orig sg a b = Z.quot a b.
Proof.
  intros Ho Hb Ha Hbr HQ HQ1. unfold int_div16. assert (AB : Z.abs a + Z.abs b <= 2 ^ 24) by (destruct Ho as [->| ->]; [change (8 * 1) with 8 in *|change (8 * 2) with 16 in *]; rng).
  assert (Q16 : in_range sg 16 (Z.quot a b)) by (destruct Ho as [->| ->]; exact HQ).
  rewrite int_div_wide_ok; [|lia|assumption|exact AB|apply wide_sg_range with 16; [lia|lia|exact Q16]].
  destruct (sse t && (orig <? 2)) eqn:E; [|apply demote_in; exact Q16]. apply andb_true_iff in E. destruct E as (_ & E). apply Z.ltb_lt in E.
  rewrite demote_in by (specialize (HQ1 ltac:(lia)); unfold in_range, lowest, highest; lia). apply fit_in; [lia|exact Q16].
Qed.
Lemma quot8_range sg a b : b <> 0 -> in_range sg 8 a -> in_range sg 8 b -> in_range sg 16 (Z.quot a b) /\ Z.abs (Z.quot a b) <= 255.
Proof. intros Hb Ha Hbr. pose proof (quot_abs a b Hb). pose proof (quot_nonneg a b). unfold in_range, lowest, highest in *. destruct sg; split; lia. Qed.
Lemma int_div8_ok t direct sg a b : b <> 0 -> in_range sg 8 a -> in_range sg 8 b -> ~ overflow sg 8 a b -> int_div8 t direct sg a b = Z.quot a b.
Proof.
  intros Hb Ha Hbr NO. pose proof (quot_range sg 8 a b ltac:(lia) Hb Ha Hbr NO) as QR. destruct (quot8_range sg a b Hb Ha Hbr) as (Q16 & Q255). unfold int_div8.
  assert (AB : Z.abs a + Z.abs b <= 2 ^ 11) by rng. destruct (has_f16 t).
  { rewrite int_div_wide_ok; [apply demote_in; exact QR|lia|assumption|exact AB|apply wide_sg_range with 8; [lia|lia|exact QR]]. }
  destruct direct.
  { rewrite int_div_wide_ok; [apply demote_in; exact QR|lia|assumption| |apply wide_sg_range with 8; [lia|lia|exact QR]]. assert (2 ^ 11 <= 2 ^ 24) by (apply Z.pow_le_mono_r; lia). lia. }
  rewrite int_div16_ok; [|left; reflexivity|assumption|exact Ha|exact Hbr|exact Q16|intros _; exact Q255].
  rewrite fit_in; [apply demote_in; exact QR|lia|]. apply wide_sg_range with 8; [lia|lia|exact QR].
Qed.
Definition width (w : Z) : Prop := w = 8 \/ w = 16 \/ w = 32 \/ w = 64.
Lemma int_div_ok t direct sg w a b : width w -> b <> 0 -> in_range sg w a -> in_range sg w b -> ~ overflow sg w a b -> int_div t direct sg w a b = Z.quot a b.
Proof.
  intros Hw Hb Ha Hbr NO. unfold int_div. destruct Hw as [->|[->|[->| ->]]]; cbn [Z.eqb Pos.eqb].
  - apply int_div8_ok; assumption.
  - pose proof (quot_range sg 16 a b ltac:(lia) Hb Ha Hbr NO). apply int_div16_ok; try assumption; [right; reflexivity|lia].
  - pose proof (quot_range sg 32 a b ltac:(lia) Hb Ha Hbr NO). destruct (has_f64 t).
    + apply int_div_wide_ok; [lia|assumption|rng|assumption].
    + rewrite int_div_same_ok; [apply fit_in; [lia|assumption]|right; auto|assumption|assumption|assumption].
  - pose proof (quot_range sg 64 a b ltac:(lia) Hb Ha Hbr NO). rewrite int_div_same_ok; [apply fit_in; [lia|assumption]|left; auto|assumption|assumption|assumption].
Qed.
Lemma rem_range sg w a b : 1 < w -> b <> 0 -> in_range sg w a -> in_range sg w b -> in_range sg w (a - Z.quot a b * b).
Proof.
  intros Hw Hb Ha Hbr. pose proof (Z.quot_rem' a b) as E. replace (a - Z.quot a b * b) with (Z.rem a b) by lia. pose proof (Z.rem_bound_abs a b Hb). pose proof (Z.rem_sign_mul a b Hb).
  unfold in_range, lowest, highest in *. destruct sg; [|destruct (Z.eq_dec (Z.rem a b) 0); [lia|]; pose proof (Z.rem_nonneg a b Hb); lia]. lia.
Qed.
Lemma int_mod_ok t direct mw sg w a b : width w -> b <> 0 -> in_range sg w a -> in_range sg w b -> ~ overflow sg w a b -> int_mod t direct mw sg w a b = Z.rem a b.
Proof.
  intros Hw Hb Ha Hbr NO. assert (1 < w) by (destruct Hw as [->|[->|[->| ->]]]; lia). pose proof (rem_range sg w a b ltac:(lia) Hb Ha Hbr) as RR. assert (E : a - Z.quot a b * b = Z.rem a b) by (pose proof (Z.quot_rem' a b); lia). unfold int_mod. destruct (Z.eqb_spec w 8) as [->|N]; cbn [andb].
  - destruct mw.
    + destruct (quot8_range sg a b Hb Ha Hbr) as (Q16 & Q255). rewrite int_div16_ok; [|left; reflexivity|assumption|exact Ha|exact Hbr|exact Q16|intros _; exact Q255]. rewrite fit_in; [rewrite demote_in; [exact E|exact RR]|lia|apply range_grow with 8; [lia|lia|exact RR]].
    + rewrite int_div_ok by assumption. rewrite fit_in; [exact E|lia|exact RR].
  - rewrite int_div_ok by assumption. rewrite fit_in; [exact E|lia|exact RR].
Qed.
