From Coq Require Import ZArith List Lia Bool Znumtheory.
From Verif Require Import Word Word_Proofs Arith_Model.
Import ListNotations.
Local Open Scope Z_scope.

(* ---------------- generic invariant-division argument ---------------- *)
(** w = word size, 2^l < d <= 2^(l+1), m = floor(2^w (2^(l+1)-d)/d) + 1. *)
Lemma gm_mul_range w l d :
  0 <= w -> 0 <= l -> 2 ^ l < d <= 2 ^ (l + 1) -> d < 2 ^ w ->
  0 <= 2 ^ w * (2 ^ (l + 1) - d) / d < 2 ^ w - 1.
Proof.
  intros Hw Hl Hd Hdw.
  pose proof (pow2_gt0 l Hl) as P1. pose proof (pow2_gt0 w Hw) as P2.
  assert (P3 : 2 ^ (l + 1) = 2 * 2 ^ l) by (rewrite Z.pow_add_r by lia; lia).
  split. { apply Z.div_pos; [nia|lia]. }
  apply Z.div_lt_upper_bound; [lia|].
  assert (2 ^ (l + 1) - d <= d - 1) by lia. nia.
Qed.

Lemma gm_divide w l d n :
  0 <= w -> 0 <= l -> 2 ^ l < d <= 2 ^ (l + 1) -> d < 2 ^ w -> 0 <= n < 2 ^ w ->
  let m := 2 ^ w * (2 ^ (l + 1) - d) / d + 1 in
  let t := m * n / 2 ^ w in
  0 <= t <= n /\ (t + (n - t) / 2) / 2 ^ l = n / d.
Proof.
  intros Hw Hl Hd Hdw Hn m t.
  pose proof (pow2_gt0 l Hl) as P1. pose proof (pow2_gt0 w Hw) as P2.
  assert (P3 : 2 ^ (l + 1) = 2 * 2 ^ l) by (rewrite Z.pow_add_r by lia; lia).
  destruct (gm_mul_range w l d) as [G1 G2]; auto.
  assert (Hm : 1 <= m < 2 ^ w) by (unfold m; lia).
  assert (Ht : 0 <= t <= n).
  { split; [apply Z.div_pos; nia|].
    apply Z.div_le_upper_bound; [lia|]. nia. }
  split; [exact Ht|].
  assert (E1 : t + (n - t) / 2 = (t + n) / 2).
  { replace (t + n) with ((n - t) + t * 2) by lia. rewrite Z.div_add by lia. lia. }
  rewrite E1, Z.div_div, <- P3 by lia.
  assert (E2 : t + n = (m + 2 ^ w) * n / 2 ^ w).
  { unfold t. replace ((m + 2 ^ w) * n) with (m * n + n * 2 ^ w) by ring.
    rewrite Z.div_add by lia. reflexivity. }
  rewrite E2, Z.div_div by lia.
  symmetry. apply Z.div_unique_pos with ((m + 2 ^ w) * n - 2 ^ w * 2 ^ (l + 1) * (n / d)); [|ring].
  (* remainder bounds *)
  pose proof (Z.div_mod (2 ^ w * (2 ^ (l + 1) - d)) d ltac:(lia)) as DM.
  pose proof (Z.mod_pos_bound (2 ^ w * (2 ^ (l + 1) - d)) d ltac:(lia)) as MB.
  set (r := (2 ^ w * (2 ^ (l + 1) - d)) mod d) in *.
  set (q := 2 ^ w * (2 ^ (l + 1) - d) / d) in *.
  assert (HM : (m + 2 ^ w) * d = 2 ^ w * 2 ^ (l + 1) + (d - r)) by (unfold m; nia).
  pose proof (Z.div_mod n d ltac:(lia)) as DN.
  pose proof (Z.mod_pos_bound n d ltac:(lia)) as NB.
  set (k := n / d) in *. set (s := n mod d) in *.
  set (A := 2 ^ w) in *. set (B := 2 ^ (l + 1)) in *. set (M := m + A) in *.
  assert (HMn : M * n = A * B * k + (d - r) * k + M * s) by (rewrite DN; nia).
  assert (K0 : 0 <= k) by (apply Z.div_pos; lia).
  assert (MP : 0 <= M) by (unfold M; lia).
  assert (HK : 0 <= (d - r) * k) by (apply Z.mul_nonneg_nonneg; lia).
  assert (HS : 0 <= M * s) by (apply Z.mul_nonneg_nonneg; lia).
  split; [lia|]. rewrite HMn.
  cut ((d - r) * k + M * s < A * B); [lia|].
  apply (Z.mul_lt_mono_pos_r d); [lia|].
  replace (((d - r) * k + M * s) * d) with ((d - r) * (k * d) + s * (M * d)) by ring.
  rewrite HM.
  assert (T2 : (d - r) * (k * d) + s * (A * B + (d - r)) = (d - r) * n + s * (A * B)).
  { rewrite DN. ring. }
  rewrite T2.
  assert (T3 : (d - r) * n < A * B).
  { apply Z.le_lt_trans with (B * n); [apply Z.mul_le_mono_nonneg_r; lia|].
    rewrite (Z.mul_comm A). apply Z.mul_lt_mono_pos_l; lia. }
  assert (T4 : s * (A * B) <= (d - 1) * (A * B)).
  { apply Z.mul_le_mono_nonneg_r; [apply Z.mul_nonneg_nonneg; lia|lia]. }
  lia.
Qed.

(** len for d >= 2 *)
Lemma len_spec d : 2 <= d -> let l := bsr (d - 1) in 0 <= l /\ 2 ^ l < d <= 2 ^ (l + 1).
Proof.
  intros H l. pose proof (bsr_spec (d - 1) ltac:(lia)). unfold l. split.
  - apply bsr_nonneg. - lia.
Qed.

Lemma Divisor_ctor_spec d : 2 <= d < 2 ^ 32 ->
  let l := bsr (d - 1) in
  Divisor_ctor d = {| d_divisor := d; d_mul := 2 ^ 32 * (2 ^ (l + 1) - d) / d + 1;
                      d_shift1 := 1; d_shift2 := l |}.
Proof.
  intros H l. unfold Divisor_ctor. destruct (Z.leb_spec d 1); [lia|].
  assert (Hl := len_spec d ltac:(lia)). fold l in Hl. cbv zeta in Hl.
  assert (Hl32 : l < 32) by (apply (bsr_lt (d - 1) 32); lia).
  rewrite (wrap_small 32 (d - 1)) by lia. fold l.
  rewrite (wrap_small 32 (31 - l)) by lia.
  replace (31 - (31 - l)) with l by lia.
  rewrite (wrap_small 32 l) by lia.
  assert (Hsh : Z.shiftl 2 l = 2 ^ (l + 1)).
  { rewrite Z.shiftl_mul_pow2 by lia. rewrite Z.pow_add_r by lia. lia. }
  assert (P1 : 2 ^ (l + 1) <= 2 ^ 32) by (apply Z.pow_le_mono_r; lia).
  assert (P3 : 2 ^ (l + 1) = 2 * 2 ^ l) by (rewrite Z.pow_add_r by lia; lia).
  rewrite Hsh. rewrite (wrap_small 64 (2 ^ (l + 1))) by lia.
  rewrite (wrap_small 64 (2 ^ (l + 1) - d)) by lia.
  rewrite Z.shiftl_mul_pow2 by lia.
  rewrite (wrap_small 64) by lia.
  rewrite (Z.mul_comm _ (2 ^ 32)).
  pose proof (gm_mul_range 32 l d ltac:(lia) ltac:(lia) ltac:(lia) ltac:(lia)) as G.
  rewrite (land_wrap _ 32) by (lia || reflexivity).
  set (q := 2 ^ 32 * (2 ^ (l + 1) - d) / d) in *.
  rewrite (wrap_small 32 q), wrap_small by lia. reflexivity.
Qed.

Lemma Divisor_Divide_ok d n : 1 <= d < 2 ^ 32 -> 0 <= n < 2 ^ 32 ->
  Divisor_Divide (Divisor_ctor d) n = n / d.
Proof.
  intros Hd Hn. destruct (Z.eq_dec d 1) as [->|].
  - unfold Divisor_Divide. cbn [Divisor_ctor Z.leb Z.compare d_mul d_shift1 d_shift2].
    change (Divisor_ctor 1) with {| d_divisor := 1; d_mul := 1; d_shift1 := 0; d_shift2 := 0 |}.
    cbn [d_mul d_shift1 d_shift2].
    rewrite (wrap_small 64) by lia. rewrite (shiftr_div _ 32) by lia.
    rewrite Z.mul_1_l. rewrite (Z.div_small n) by lia. cbn [Z.land].
    rewrite !Z.shiftr_0_r. rewrite Z.sub_0_r, (wrap_small 32 n), Z.add_0_l by lia.
    rewrite wrap_small by lia. rewrite Z.div_1_r. reflexivity.
  - pose proof (len_spec d ltac:(lia)) as Hl. cbv zeta in Hl.
    rewrite Divisor_ctor_spec by lia. set (l := bsr (d - 1)) in *.
    unfold Divisor_Divide. cbn [d_mul d_shift1 d_shift2].
    pose proof (gm_mul_range 32 l d ltac:(lia) ltac:(lia) ltac:(lia) ltac:(lia)) as G.
    pose proof (gm_divide 32 l d n ltac:(lia) ltac:(lia) ltac:(lia) ltac:(lia) Hn) as D.
    cbv zeta in D. set (m := 2 ^ 32 * (2 ^ (l + 1) - d) / d + 1) in *.
    rewrite (wrap_small 64) by (change (2^64) with (2^32 * 2^32); nia).
    rewrite (shiftr_div _ 32) by lia. set (t := m * n / 2 ^ 32) in *.
    rewrite (land_wrap _ 32) by (lia || reflexivity).
    rewrite (wrap_small 32 t) by lia. rewrite (wrap_small 32 (n - t)) by lia.
    rewrite (shiftr_div _ 1) by lia. change (2 ^ 1) with 2.
    assert (0 <= (n - t) / 2 <= n - t).
    { split; [apply Z.div_pos; lia|]. apply Z.div_le_upper_bound; lia. }
    rewrite wrap_small by lia. rewrite shiftr_div by lia. apply D.
Qed.

Lemma Divisor_Remainder_ok d n : 1 <= d < 2 ^ 32 -> 0 <= n < 2 ^ 32 ->
  Divisor_Remainder (Divisor_ctor d) n = n mod d.
Proof.
  intros Hd Hn. unfold Divisor_Remainder. rewrite Divisor_Divide_ok by auto.
  assert (E : d_divisor (Divisor_ctor d) = d).
  { unfold Divisor_ctor. destruct (d <=? 1); reflexivity. }
  rewrite E. pose proof (Z.div_mod n d ltac:(lia)). pose proof (Z.mod_pos_bound n d ltac:(lia)).
  assert (0 <= n / d) by (apply Z.div_pos; lia).
  rewrite (wrap_small 32 (n / d * d)) by nia. rewrite wrap_small by nia. nia.
Qed.

Lemma Divisor_GetDivisor_ok d : d_divisor (Divisor_ctor d) = d.
Proof. unfold Divisor_ctor. destruct (d <=? 1); reflexivity. Qed.

Lemma Divisor64_ctor_spec d : 2 <= d < 2 ^ 64 ->
  let l := bsr (d - 1) in
  Divisor64_ctor d = Some {| e_divisor := d; e_mul := 2 ^ 64 * (2 ^ (l + 1) - d) / d + 1;
                      e_shift1 := 1; e_shift2 := l |}.
Proof.
  intros H l. unfold Divisor64_ctor. destruct (Z.leb_spec d 1); [lia|].
  assert (Hl := len_spec d ltac:(lia)). fold l in Hl. cbv zeta in Hl.
  assert (Hl64 : l < 64) by (apply (bsr_lt (d - 1) 64); lia).
  rewrite (wrap_small 64 (d - 1)) by lia. fold l.
  rewrite (wrap_small 64 (63 - l)) by lia.
  replace (63 - (63 - l)) with l by lia.
  rewrite (wrap_small 64 l) by lia.
  assert (Hsh : Z.shiftl 2 l = 2 ^ (l + 1)).
  { rewrite Z.shiftl_mul_pow2 by lia. rewrite Z.pow_add_r by lia. lia. }
  assert (P1 : 2 ^ (l + 1) <= 2 ^ 64) by (apply Z.pow_le_mono_r; lia).
  assert (P3 : 2 ^ (l + 1) = 2 * 2 ^ l) by (rewrite Z.pow_add_r by lia; lia).
  rewrite Hsh. rewrite wrap_sub_l.
  rewrite (wrap_small 64 (2 ^ (l + 1) - d)) by lia.
  unfold Div128. destruct (Z.ltb_spec (2 ^ (l + 1) - d) d); [|lia].
  rewrite Z.shiftl_mul_pow2 by lia.
  rewrite (Z.mul_comm _ (2 ^ 64)).
  pose proof (gm_mul_range 64 l d ltac:(lia) ltac:(lia) ltac:(lia) ltac:(lia)) as G.
  set (q := 2 ^ 64 * (2 ^ (l + 1) - d) / d) in *.
  rewrite (wrap_small 64 q), wrap_small by lia. reflexivity.
Qed.

Lemma Divisor64_Divide_ok d n : 1 <= d < 2 ^ 64 -> 0 <= n < 2 ^ 64 ->
  exists D, Divisor64_ctor d = Some D /\ e_divisor D = d /\
  Divisor64_Divide D n = n / d.
Proof.
  intros Hd Hn. destruct (Z.eq_dec d 1) as [->|].
  - eexists; split; [reflexivity|]. split; [reflexivity|].
    unfold Divisor64_Divide, MulHigh. cbn [e_mul e_shift1 e_shift2].
    rewrite (shiftr_div _ 64) by lia.
    rewrite Z.mul_1_l. rewrite (Z.div_small n) by lia. rewrite (wrap_small 64 0) by lia.
    rewrite !Z.shiftr_0_r. rewrite Z.sub_0_r, (wrap_small 64 n), Z.add_0_l by lia.
    rewrite wrap_small by lia. rewrite Z.div_1_r. reflexivity.
  - pose proof (len_spec d ltac:(lia)) as Hl. cbv zeta in Hl.
    rewrite Divisor64_ctor_spec by lia. set (l := bsr (d - 1)) in *.
    eexists; split; [reflexivity|]. split; [reflexivity|].
    unfold Divisor64_Divide, MulHigh. cbn [e_mul e_shift1 e_shift2].
    pose proof (gm_mul_range 64 l d ltac:(lia) ltac:(lia) ltac:(lia) ltac:(lia)) as G.
    pose proof (gm_divide 64 l d n ltac:(lia) ltac:(lia) ltac:(lia) ltac:(lia) Hn) as D.
    cbv zeta in D. set (m := 2 ^ 64 * (2 ^ (l + 1) - d) / d + 1) in *.
    rewrite (shiftr_div _ 64) by lia. set (t := m * n / 2 ^ 64) in *.
    rewrite (wrap_small 64 t) by lia. rewrite (wrap_small 64 (n - t)) by lia.
    rewrite (shiftr_div _ 1) by lia. change (2 ^ 1) with 2.
    assert (0 <= (n - t) / 2 <= n - t).
    { split; [apply Z.div_pos; lia|]. apply Z.div_le_upper_bound; lia. }
    rewrite wrap_small by lia. rewrite shiftr_div by lia. apply D.
Qed.

Lemma Divisor64_ok d n : 1 <= d < 2 ^ 64 -> 0 <= n < 2 ^ 64 ->
  exists D, Divisor64_ctor d = Some D /\ e_divisor D = d /\
  Divisor64_Divide D n = n / d /\ Divisor64_Remainder D n = n mod d.
Proof.
  intros Hd Hn. destruct (Divisor64_Divide_ok d n Hd Hn) as (D & H1 & H2 & H3).
  exists D. repeat split; auto. unfold Divisor64_Remainder. rewrite H3, H2.
  pose proof (Z.div_mod n d ltac:(lia)). pose proof (Z.mod_pos_bound n d ltac:(lia)).
  assert (0 <= n / d) by (apply Z.div_pos; lia).
  rewrite (wrap_small 64 (n / d * d)) by nia. rewrite wrap_small by nia. nia.
Qed.

(* ---------------- Mul128 ---------------- *)
Lemma split64 x : 0 <= x < 2 ^ 64 ->
  exists h l, x = h * 2 ^ 32 + l /\ 0 <= h < 2 ^ 32 /\ 0 <= l < 2 ^ 32 /\
              Z.shiftr x 32 = h /\ Z.land x 0xFFFFFFFF = l.
Proof.
  intros H. exists (x / 2 ^ 32), (x mod 2 ^ 32).
  pose proof (Z.div_mod x (2 ^ 32) ltac:(lia)).
  pose proof (Z.mod_pos_bound x (2 ^ 32) ltac:(lia)).
  rewrite shiftr_div by lia. rewrite (land_wrap _ 32) by (lia || reflexivity).
  assert (0 <= x / 2 ^ 32 < 2 ^ 32).
  { split; [apply Z.div_pos; lia|]. apply Z.div_lt_upper_bound; lia. }
  unfold wrap. repeat split; lia.
Qed.

Lemma lor_disjoint_add h l n : 0 <= n -> 0 <= l < 2 ^ n -> Z.lor (h * 2 ^ n) l = h * 2 ^ n + l.
Proof.
  intros Hn Hl. rewrite <- Z.shiftl_mul_pow2 by auto.
  assert (L : Z.land (Z.shiftl h n) l = 0).
  { apply Z.bits_inj'. intros k Hk. rewrite Z.land_spec, Z.bits_0.
    destruct (Z_lt_dec k n).
    - rewrite Z.shiftl_spec_low by lia. reflexivity.
    - rewrite (testbit_small l n k) by lia. apply andb_false_r. }
  rewrite Z.add_nocarry_lxor by exact L.
  apply Z.bits_inj'. intros k Hk. rewrite Z.lxor_spec, Z.lor_spec.
  destruct (Z_lt_dec k n).
  - rewrite Z.shiftl_spec_low by lia. destruct (Z.testbit l k); reflexivity.
  - rewrite (testbit_small l n k) by lia. destruct (Z.testbit _ _); reflexivity.
Qed.

Lemma Mul128_u_ok a b : 0 <= a < 2 ^ 64 -> 0 <= b < 2 ^ 64 ->
  let '(up, lo) := Mul128_u a b in
  0 <= up < 2 ^ 64 /\ 0 <= lo < 2 ^ 64 /\ up * 2 ^ 64 + lo = a * b.
Proof.
  intros Ha Hb. unfold Mul128_u.
  destruct (split64 a Ha) as (ah & al & Ea & Hah & Hal & Sa & La).
  destruct (split64 b Hb) as (bh & bl & Eb & Hbh & Hbl & Sb & Lb).
  rewrite Sa, La, Sb, Lb.
  assert (B : forall x y, 0 <= x < 2 ^ 32 -> 0 <= y < 2 ^ 32 -> 0 <= x * y <= (2^32-1)*(2^32-1)) by (intros; nia).
  pose proof (B al bl Hal Hbl) as B1. pose proof (B ah bl Hah Hbl) as B2.
  pose proof (B al bh Hal Hbh) as B3. pose proof (B ah bh Hah Hbh) as B4.
  rewrite !(wrap_small 64 (_ * _)) by lia.
  destruct (split64 (al * bl)) as (p1 & p0 & E1 & R1 & R2 & -> & ->); [lia|].
  destruct (split64 (ah * bl)) as (q1 & q0 & E2 & R3 & R4 & -> & ->); [lia|].
  assert (T : 0 <= p1 + q0 + al * bh < 2 ^ 64) by lia.
  rewrite (wrap_small 64 (p1 + q0)) by lia. rewrite (wrap_small 64 (p1 + q0 + _)) by lia.
  destruct (split64 _ T) as (t1 & t0 & E3 & R5 & R6 & -> & _).
  rewrite (wrap_small 64 (q1 + t1)) by lia.
  rewrite Z.shiftl_mul_pow2 by lia.
  assert (Et : wrap 64 ((p1 + q0 + al * bh) * 2 ^ 32) = t0 * 2 ^ 32).
  { rewrite E3. replace ((t1 * 2 ^ 32 + t0) * 2 ^ 32) with (t0 * 2 ^ 32 + t1 * 2 ^ 64) by lia.
    rewrite wrap_add_mult by lia. apply wrap_small. lia. }
  rewrite Et. rewrite lor_disjoint_add by lia.
  assert (P : (q1 + t1 + ah * bh) * 2 ^ 64 + (t0 * 2 ^ 32 + p0) = a * b).
  { rewrite Ea, Eb.
    replace ((ah * 2 ^ 32 + al) * (bh * 2 ^ 32 + bl))
      with (ah * bh * 2 ^ 64 + (ah * bl + al * bh) * 2 ^ 32 + al * bl) by ring.
    rewrite E2, E1.  
    assert (al * bh = t1 * 2 ^ 32 + t0 - p1 - q0) as -> by lia. ring. }
  assert (U : 0 <= q1 + t1 + ah * bh < 2 ^ 64).
  { assert (a * b < 2 ^ 64 * 2 ^ 64) by nia. nia. }
  rewrite wrap_small by lia. repeat split; lia.
Qed.

Lemma wrap64_neg a : in_s 64 a -> wrap 64 a = if a <? 0 then a + 2 ^ 64 else a.
Proof.
  unfold in_s. cbn [Z.sub]. intros H. destruct (Z.ltb_spec a 0).
  - unfold wrap. rewrite <- (Z.mod_add a 1) by lia. apply Z.mod_small. lia.
  - apply wrap_small; lia.
Qed.

Lemma shr63 a : in_s 64 a -> Z.shiftr a 63 = if a <? 0 then -1 else 0.
Proof.
  unfold in_s. change (64 - 1) with 63. intros H. rewrite shiftr_div by lia.
  destruct (Z.ltb_spec a 0).
  - symmetry. apply Z.div_unique with (a + 2 ^ 63); lia.
  - apply Z.div_small; lia.
Qed.

Lemma land_sign a b : in_s 64 a -> in_s 64 b ->
  Z.land (wrap 64 (Z.shiftr a 63)) (wrap 64 b) = if a <? 0 then wrap 64 b else 0.
Proof.
  intros Ha Hb. rewrite shr63 by auto. destruct (a <? 0).
  - change (wrap 64 (-1)) with (2 ^ 64 - 1). rewrite Z.land_comm.
    rewrite land_ones' by lia. apply wrap_wrap. lia.
  - reflexivity.
Qed.

Lemma Mul128_s_ok a b : in_s 64 a -> in_s 64 b ->
  let '(up, lo) := Mul128_s a b in
  in_s 64 up /\ in_s 64 lo /\ up * 2 ^ 64 + wrap 64 lo = a * b.
Proof.
  intros Ha Hb. unfold Mul128_s.
  pose proof (Mul128_u_ok (wrap 64 a) (wrap 64 b) (wrap_range 64 a ltac:(lia)) (wrap_range 64 b ltac:(lia))) as U.
  destruct (Mul128_u (wrap 64 a) (wrap 64 b)) as [uu ul]. destruct U as (U1 & U2 & U3).
  split; [apply swrap_range; lia|]. split; [apply swrap_range; lia|].
  assert (El : wrap 64 (swrap 64 ul) = ul).
  { unfold wrap. rewrite swrap_mod by lia. apply Z.mod_small; lia. }
  rewrite El. rewrite !land_sign by auto.
  set (X := (a * b - ul) / 2 ^ 64).
  assert (EX : X * 2 ^ 64 = a * b - ul /\ X mod 2 ^ 64 = (uu - (if a <? 0 then wrap 64 b else 0) - (if b <? 0 then wrap 64 a else 0)) mod 2 ^ 64).
  { rewrite !wrap64_neg in * by auto. 
    assert (exists c, a * b - ul = (uu - (if a <? 0 then (if b <? 0 then b + 2 ^ 64 else b) else 0) - (if b <? 0 then (if a <? 0 then a + 2 ^ 64 else a) else 0) + c * 2 ^ 64) * 2 ^ 64) as [c Hc].
    { destruct (Z.ltb_spec a 0), (Z.ltb_spec b 0).
      - exists 1. nia. - exists 0. nia. - exists 0; nia. - exists 0; nia. }
    unfold X. rewrite Hc. rewrite Z.div_mul by lia. split; [reflexivity|].
    rewrite Z.mod_add by lia. reflexivity. }
  destruct EX as [EX1 EX2].
  rewrite swrap_wrap by lia. rewrite <- swrap_wrap by lia. rewrite wrap_sub_l. rewrite swrap_wrap by lia.
  rewrite (swrap_unique 64 _ X); [lia|lia| |symmetry; exact EX2].
  unfold in_s in *. change (64 - 1) with 63 in *.
  assert (- 2 ^ 126 <= a * b <= 2 ^ 126) by nia. lia.
Qed.

(* ---------------- bit scans ---------------- *)
Lemma low32_zero_bits x j : 0 <= x -> wrap 32 x = 0 -> 0 <= j < 32 -> Z.testbit x j = false.
Proof.
  intros Hx Hz Hj. assert (E : Z.testbit (wrap 32 x) j = false) by (rewrite Hz; apply Z.testbit_0_l).
  rewrite testbit_wrap in E by lia. destruct (Z.ltb_spec j 32); [exact E|lia].
Qed.

Lemma ctz64_fallback_ok x : 0 < x < 2 ^ 64 ->
  exists r, Num0BitsBelowLS1Bit_Nonzero64_fallback x = Some r /\ 0 <= r < 64 /\
    Z.testbit x r = true /\ forall j, 0 <= j < r -> Z.testbit x j = false.
Proof.
  intros Hx. unfold Num0BitsBelowLS1Bit_Nonzero64_fallback.
  destruct (Z.eqb_spec x 0); [lia|].
  rewrite (land_wrap _ 32) by (lia || reflexivity). rewrite wrap_wrap by lia.
  destruct (Z.eqb_spec (wrap 32 x) 0) as [Hz|Hz].
  - assert (Hs : 0 <= Z.shiftr x 32 < 2 ^ 32).
    { rewrite shiftr_div by lia. split; [apply Z.div_pos; lia|apply Z.div_lt_upper_bound; lia]. }
    rewrite wrap_small by lia.
    assert (Hn : Z.shiftr x 32 <> 0).
    { intros E. rewrite shiftr_div in E by lia. unfold wrap in Hz.
      pose proof (Z.div_mod x (2 ^ 32) ltac:(lia)). lia. }
    destruct (bsf_spec (Z.shiftr x 32)) as (B1 & B2 & B3); [lia|].
    pose proof (bsf_lt (Z.shiftr x 32) 32 ltac:(lia) ltac:(lia)).
    eexists; split; [reflexivity|]. split; [lia|]. split.
    + rewrite Z.shiftr_spec in B1 by lia. rewrite Z.add_comm. exact B1.
    + intros j Hj. destruct (Z_lt_dec j 32).
      * apply low32_zero_bits; lia.
      * specialize (B2 (j - 32) ltac:(lia)). rewrite Z.shiftr_spec in B2 by lia.
        replace (j - 32 + 32) with j in B2 by lia. exact B2.
  - pose proof (wrap_range 32 x ltac:(lia)) as R.
    destruct (bsf_spec (wrap 32 x)) as (B1 & B2 & B3); [lia|].
    pose proof (bsf_lt (wrap 32 x) 32 ltac:(lia) ltac:(lia)).
    eexists; split; [reflexivity|]. split; [lia|]. split.
    + rewrite testbit_wrap in B1 by lia. destruct (Z.ltb_spec (bsf (wrap 32 x)) 32); [exact B1|discriminate].
    + intros j Hj. specialize (B2 j Hj). rewrite testbit_wrap in B2 by lia.
      destruct (Z.ltb_spec j 32); [exact B2|lia].
Qed.

Lemma clz64_fallback_ok x : 0 < x < 2 ^ 64 ->
  exists r, Num0BitsAboveMS1Bit_Nonzero64_fallback x = Some r /\ 0 <= r < 64 /\
    Z.testbit x (63 - r) = true /\ forall j, 63 - r < j -> Z.testbit x j = false.
Proof.
  intros Hx. unfold Num0BitsAboveMS1Bit_Nonzero64_fallback.
  destruct (Z.eqb_spec x 0); [lia|].
  assert (L : forall k, 63 - k = Z.log2 x -> 0 <= k < 64 /\ Z.testbit x (63 - k) = true /\ forall j, 63 - k < j -> Z.testbit x j = false).
  { intros k Hk. pose proof (Z.log2_nonneg x). pose proof (Z.log2_lt_pow2 x 64 ltac:(lia)).
    rewrite Hk. split; [lia|]. split; [apply Z.bit_log2; lia|].
    intros j Hj. apply Z.bits_above_log2; lia. }
  assert (Hs : 0 <= Z.shiftr x 32 < 2 ^ 32).
  { rewrite shiftr_div by lia. split; [apply Z.div_pos; lia|apply Z.div_lt_upper_bound; lia]. }
  rewrite (wrap_small 32 (Z.shiftr x 32)) by lia.
  destruct (Z.eqb_spec (Z.shiftr x 32) 0) as [Hz|Hz].
  - rewrite (land_wrap _ 32) by (lia || reflexivity). rewrite wrap_wrap by lia.
    assert (Hx32 : x < 2 ^ 32).
    { rewrite shiftr_div in Hz by lia. pose proof (Z.div_mod x (2 ^ 32) ltac:(lia)).
      pose proof (Z.mod_pos_bound x (2 ^ 32) ltac:(lia)). lia. }
    rewrite (wrap_small 32 x) by lia. pose proof (Z.log2_nonneg x).
    pose proof (Z.log2_lt_pow2 x 32 ltac:(lia)). unfold bsr.
    rewrite wrap_small by lia. eexists; split; [reflexivity|]. apply L. lia.
  - assert (Hlog : Z.log2 (Z.shiftr x 32) = Z.log2 x - 32).
    { rewrite Z.log2_shiftr by lia. rewrite Z.max_r; [reflexivity|].
      destruct (Z_le_dec 32 (Z.log2 x)); [lia|].
      exfalso. apply Hz. rewrite shiftr_div by lia. apply Z.div_small.
      split; [lia|]. apply Z.log2_lt_pow2; lia. }
    unfold bsr. pose proof (Z.log2_nonneg (Z.shiftr x 32)).
    pose proof (Z.log2_lt_pow2 x 64 ltac:(lia)).
    rewrite wrap_small by lia. eexists; split; [reflexivity|]. apply L. lia.
Qed.

(* ---------------- PopCount ---------------- *)
(** number of one bits among the low n *)
Fixpoint popc (n : nat) (x : Z) : Z :=
  match n with O => 0 | S k => Z.b2z (Z.testbit x (Z.of_nat k)) + popc k x end.

(** fields: little-endian pack with w-bit fields *)
Fixpoint pack (w : Z) (l : list Z) : Z :=
  match l with [] => 0 | f :: l' => f + 2 ^ w * pack w l' end.

Lemma land_field w a b c d : 0 <= w -> 0 <= a < 2 ^ w -> 0 <= c < 2 ^ w ->
  Z.land (a + 2 ^ w * b) (c + 2 ^ w * d) = Z.land a c + 2 ^ w * Z.land b d.
Proof.
  intros Hw Ha Hc.
  assert (Hac : 0 <= Z.land a c < 2 ^ w).
  { split; [apply Z.land_nonneg; lia|].
    assert (E : Z.land a c = (Z.land a c) mod 2 ^ w).
    { apply Z.bits_inj'. intros k Hk. destruct (Z_lt_dec k w).
      - rewrite Z.mod_pow2_bits_low by lia. reflexivity.
      - rewrite Z.mod_pow2_bits_high by lia. rewrite Z.land_spec, (testbit_small a w k) by lia. reflexivity. }
    rewrite E. apply Z.mod_pos_bound. lia. }
  assert (bits : forall x y k, 0 <= x < 2 ^ w -> 0 <= k -> Z.testbit (x + 2 ^ w * y) k = if k <? w then Z.testbit x k else Z.testbit y (k - w)).
  { intros x y k Hx Hk. rewrite Z.add_comm, Z.mul_comm. rewrite <- lor_disjoint_add by lia.
    rewrite Z.lor_spec. destruct (Z.ltb_spec k w).
    - rewrite Z.mul_pow2_bits_low by lia. reflexivity.
    - rewrite Z.mul_pow2_bits by lia. rewrite (testbit_small x w k) by lia. apply orb_false_r. }
  apply Z.bits_inj'. intros k Hk. rewrite Z.land_spec, !bits by auto.
  destruct (k <? w); rewrite Z.land_spec; reflexivity.
Qed.

(** field-wise shift+mask: mask constant c < 2^(w-s) in each field *)
Lemma pack_shift_mask w s c l : 0 <= s < w -> 0 <= c < 2 ^ (w - s) ->
  Forall (fun f => 0 <= f < 2 ^ w) l ->
  Z.land (Z.shiftr (pack w l) s) (pack w (map (fun _ => c) l))
  = pack w (map (fun f => Z.land (Z.shiftr f s) c) l).
Proof.
  intros Hs Hc. induction l as [|f l IH]; intros HF.
  - cbn. rewrite Z.shiftr_0_l. reflexivity.
  - inversion HF as [|? ? Hf HF']; subst. cbn [pack map]. specialize (IH HF').
    set (y := pack w l) in *. rewrite shiftr_div in * by lia.
    assert (Pw : 2 ^ w = 2 ^ s * 2 ^ (w - s)) by (rewrite <- Z.pow_add_r by lia; f_equal; lia).
    pose proof (pow2_gt0 s ltac:(lia)) as Ps. pose proof (pow2_gt0 (w - s) ltac:(lia)) as Pws.
    (* (f + 2^w y)/2^s = (f/2^s + 2^(w-s) (y mod 2^s)) + 2^w (y/2^s) *)
    assert (E : (f + 2 ^ w * y) / 2 ^ s = (f / 2 ^ s + 2 ^ (w - s) * (y mod 2 ^ s)) + 2 ^ w * (y / 2 ^ s)).
    { rewrite Pw at 1. replace (f + 2 ^ s * 2 ^ (w - s) * y) with (f + (2 ^ (w - s) * y) * 2 ^ s) by ring.
      rewrite Z.div_add by lia. rewrite (Z.div_mod y (2 ^ s)) at 1 by lia. rewrite Pw. ring. }
    assert (F1 : 0 <= f / 2 ^ s < 2 ^ (w - s)).
    { split; [apply Z.div_pos; lia|]. apply Z.div_lt_upper_bound; [lia|]. rewrite <- Pw. lia. }
    pose proof (Z.mod_pos_bound y (2 ^ s) ltac:(lia)) as Y.
    rewrite E, land_field; [|lia|nia|nia].
    rewrite IH. f_equal.
    + replace c with (c + 2 ^ (w - s) * 0) at 1 by ring. rewrite land_field by lia.
      rewrite Z.land_0_r, shiftr_div by lia. ring.
Qed.

Lemma pack_range w l : 0 <= w -> Forall (fun f => 0 <= f < 2 ^ w) l ->
  0 <= pack w l < 2 ^ (w * Z.of_nat (length l)).
Proof.
  intros Hw. induction l as [|f l IH]; intros HF.
  - cbn [pack length]. rewrite Z.mul_0_r. cbn. lia.
  - inversion HF as [|? ? Hf HF']; subst. specialize (IH HF'). cbn [pack length].
    rewrite Nat2Z.inj_succ, Z.mul_succ_r, Z.pow_add_r by lia. nia.
Qed.

Lemma pack_add w l (f g : Z -> Z) : pack w (map f l) + pack w (map g l) = pack w (map (fun x => f x + g x) l).
Proof. induction l; cbn [pack map]; [reflexivity|]. rewrite <- IHl. ring. Qed.
Lemma pack_sub w l (f g : Z -> Z) : pack w (map f l) - pack w (map g l) = pack w (map (fun x => f x - g x) l).
Proof. induction l; cbn [pack map]; [reflexivity|]. rewrite <- IHl. ring. Qed.
Lemma pack_ext w l (f g : Z -> Z) (P : Z -> Prop) : Forall P l -> (forall x, P x -> f x = g x) ->
  pack w (map f l) = pack w (map g l).
Proof. intros HF H. induction HF; cbn; [reflexivity|]. rewrite H, IHHF; auto. Qed.

(** splitting a number into n fields *)
Fixpoint fields (w : Z) (n : nat) (x : Z) : list Z :=
  match n with O => [] | S k => x mod 2 ^ w :: fields w k (x / 2 ^ w) end.
Lemma fields_length w n x : length (fields w n x) = n.
Proof. revert x; induction n; intros; cbn; auto. Qed.
Lemma fields_range w n x : 0 <= w -> Forall (fun f => 0 <= f < 2 ^ w) (fields w n x).
Proof.
  intros Hw. revert x. induction n; intros; cbn; constructor; auto.
  apply Z.mod_pos_bound, pow2_gt0, Hw.
Qed.
Lemma pack_fields w n x : 0 <= w -> 0 <= x < 2 ^ (w * Z.of_nat n) -> pack w (fields w n x) = x.
Proof.
  intros Hw. pose proof (pow2_gt0 w Hw). revert x. induction n as [|n IH]; intros x Hx.
  - rewrite Z.mul_0_r in Hx. cbn in *. lia.
  - cbn [fields pack]. rewrite Nat2Z.inj_succ, Z.mul_succ_r, Z.pow_add_r in Hx by lia.
    rewrite IH.
    + pose proof (Z.div_mod x (2 ^ w) ltac:(lia)). lia.
    + split; [apply Z.div_pos; lia|]. apply Z.div_lt_upper_bound; [lia|]. rewrite Z.mul_comm. lia.
Qed.

Lemma popc_small n x m : 0 <= x < 2 ^ m -> 0 <= m <= Z.of_nat n -> popc n x = popc (Z.to_nat m) x.
Proof.
  intros Hx Hm. induction n as [|n IH].
  - replace m with 0 by lia. reflexivity.
  - destruct (Z.eq_dec m (Z.of_nat (S n))) as [->|]. { rewrite Nat2Z.id. reflexivity. }
    cbn [popc]. rewrite (testbit_small x m) by lia. cbn [Z.b2z]. rewrite IH by lia. lia.
Qed.

Lemma popc_split w n x : popc (n + w) x = popc w x + popc n (x / 2 ^ Z.of_nat w).
Proof.
  induction n as [|n IH]; [cbn; lia|].
  cbn [popc Nat.add]. rewrite IH. rewrite Z.div_pow2_bits by lia.
  rewrite Nat2Z.inj_add. lia.
Qed.

Lemma popc_mod w x : popc w (x mod 2 ^ Z.of_nat w) = popc w x.
Proof.
  assert (H : forall n, (n <= w)%nat -> popc n (x mod 2 ^ Z.of_nat w) = popc n x).
  { induction n; intros; cbn; [reflexivity|]. rewrite IHn by lia.
    rewrite Z.mod_pow2_bits_low by lia. reflexivity. }
  apply H. lia.
Qed.

Fixpoint sumZ (l : list Z) : Z := match l with [] => 0 | x :: l' => x + sumZ l' end.

Lemma popc_fields w n x : popc (n * w) x = sumZ (map (popc w) (fields (Z.of_nat w) n x)).
Proof.
  revert x. induction n as [|n IH]; intros x; [reflexivity|].
  cbn [fields map sumZ]. replace (S n * w)%nat with (n * w + w)%nat by lia.
  rewrite popc_split, popc_mod, <- IH. reflexivity.
Qed.

(** all values below a bound, as a computed check *)
Definition below (n : nat) (P : Z -> bool) : bool := forallb (fun i => P (Z.of_nat i)) (seq 0 n).
Lemma below_spec n P x : below n P = true -> 0 <= x < Z.of_nat n -> P x = true.
Proof.
  intros H Hx. unfold below in H. rewrite forallb_forall in H.
  specialize (H (Z.to_nat x)). rewrite Z2Nat.id in H by lia. apply H.
  apply in_seq. lia.
Qed.

Lemma pack_const w n c d : length (fields w n d) = n -> pack w (map (fun _ => c) (fields w n d)) = pack w (repeat c n).
Proof.
  intros _. revert d. induction n; intros; cbn; [reflexivity|]. rewrite IHn. reflexivity.
Qed.
Lemma map_const_repeat {A} (l : list A) (c : Z) : map (fun _ => c) l = repeat c (length l).
Proof. induction l; cbn; congruence. Qed.


(** The SWAR steps on one byte (masks 0x55, 0x33, 0x0F repeat per byte). *)
Definition b1 f := f - Z.land (Z.shiftr f 1) 0x55.
Definition b2 f := Z.land (Z.shiftr (b1 f) 2) 0x33 + Z.land (b1 f) 0x33.
Definition b3 f := Z.land (f + f / 16) 0x0F.

Definition is_byte (f : Z) : Prop := 0 <= f < 2 ^ 8.
Definition nib4 (f : Z) : Prop := 0 <= f <= 68 /\ f mod 16 <= 4.

Lemma byte_steps : forall f, is_byte f ->
  is_byte (b1 f) /\ nib4 (b2 f) /\ b3 (b2 f) = popc 8 f /\ 0 <= popc 8 f <= 8.
Proof.
  intros f Hf.
  assert (C : below 256 (fun f => 
     ((0 <=? b1 f) && (b1 f <? 256)) && ((0 <=? b2 f) && (b2 f <=? 68)) && (b2 f mod 16 <=? 4) &&
     (b3 (b2 f) =? popc 8 f) && ((0 <=? popc 8 f) && (popc 8 f <=? 8))) = true) by (vm_compute; reflexivity).
  unfold is_byte, nib4 in *. change (2 ^ 8) with 256 in *.
  pose proof (below_spec _ _ f C Hf) as H. cbv beta in H.
  repeat match goal with H : andb _ _ = true |- _ => apply andb_prop in H; destruct H end.
  rewrite ?Z.leb_le, ?Z.ltb_lt, ?Z.eqb_eq in *. 
  repeat split; lia.
Qed.

Lemma pack_mod w l : 0 <= w -> Forall (fun f => 0 <= f < 2 ^ w) l -> 
  forall v, 0 <= v <= w -> (pack w l) mod 2 ^ v = (hd 0 l) mod 2 ^ v.
Proof.
  intros Hw HF v Hv. destruct l as [|f l]; [reflexivity|]. cbn [pack hd].
  replace w with ((w - v) + v) by lia. rewrite Z.pow_add_r by lia.
  replace (f + 2 ^ (w - v) * 2 ^ v * pack (w - v + v) l) with (f + (2 ^ (w - v) * pack (w - v + v) l) * 2 ^ v) by ring.
  apply Z.mod_add. pose proof (pow2_gt0 v); lia.
Qed.

Lemma step3 l : Forall nib4 l ->
  Z.land (Z.shiftr (pack 8 l) 4 + pack 8 l) (pack 8 (map (fun _ => 15) l)) = pack 8 (map b3 l).
Proof.
  intros HF. rewrite shiftr_div by lia. induction HF as [|f l Hf HF IH]; [reflexivity|].
  cbn [pack map]. set (y := pack 8 l) in *.
  assert (Hy : y mod 16 <= 4 /\ 0 <= y mod 16).
  { unfold y. change 16 with (2 ^ 4). rewrite pack_mod; try lia.
    - destruct HF as [|g l' Hg]; cbn [hd]; [cbn; lia|]. destruct Hg. change (2 ^ 4) with 16.
      pose proof (Z.mod_pos_bound g 16). lia.
    - eapply Forall_impl; [|exact HF]. intros a [Ha _]. lia. }
  destruct Hf as [Hf1 Hf2].
  replace ((f + 2 ^ 8 * y) / 2 ^ 4 + (f + 2 ^ 8 * y))
    with ((f + f / 16 + 16 * (y mod 16)) + 2 ^ 8 * (y / 16 + y)).
  2:{ change (2 ^ 8) with 256. change (2 ^ 4) with 16.
      pose proof (Z.div_mod y 16 ltac:(lia)) as DM.
      replace (f + 256 * y) with (f + (16 * y) * 16) by ring. rewrite Z.div_add by lia. lia. }
  assert (0 <= f / 16 < 5). { split; [apply Z.div_pos; lia|]. apply Z.div_lt_upper_bound; lia. }
  rewrite land_field; [|lia|lia|lia]. change (2 ^ 4) with 16 in IH. rewrite IH. f_equal. unfold b3.
  rewrite !(land_wrap _ 4) by (lia || reflexivity). unfold wrap.
  replace (f + f / 16 + 16 * (y mod 16)) with (f + f / 16 + (y mod 16) * 2 ^ 4) by lia.
  apply Z.mod_add. lia.
Qed.

Lemma swar_bytes n x : 
  let l := fields 8 n x in
  let W := 8 * Z.of_nat n in
  0 <= x < 2 ^ W ->
  let x1 := wrap W (x - Z.land (Z.shiftr x 1) (pack 8 (repeat 0x55 n))) in
  let x2 := wrap W (Z.land (Z.shiftr x1 2) (pack 8 (repeat 0x33 n)) + Z.land x1 (pack 8 (repeat 0x33 n))) in
  Z.land (wrap W (Z.shiftr x2 4 + x2)) (pack 8 (repeat 0x0F n)) = pack 8 (map (popc 8) l).
Proof.
  intros l W Hx x1 x2.
  assert (Hl : length l = n) by apply fields_length.
  assert (HB : Forall is_byte l) by (apply fields_range; lia).
  assert (Ex : x = pack 8 l) by (symmetry; apply pack_fields; auto; lia).
  assert (C : forall c, pack 8 (repeat c n) = pack 8 (map (fun _ => c) l)) by (intros; rewrite map_const_repeat, Hl; reflexivity).
  assert (B : forall (g : Z -> Z), (forall f, is_byte f -> is_byte (g f)) -> Forall is_byte (map g l)).
  { intros g Hg. apply Forall_map. eapply Forall_impl; [|exact HB]. auto. }
  assert (W1 : forall g, (forall f, is_byte f -> is_byte (g f)) -> wrap W (pack 8 (map g l)) = pack 8 (map g l)).
  { intros g Hg. apply wrap_small. unfold W. rewrite <- Hl, <- (map_length g l). apply pack_range; [lia|].
    apply B, Hg. }
  assert (E1 : x1 = pack 8 (map b1 l)).
  { unfold x1. rewrite (C 0x55). rewrite Ex at 1 2. rewrite pack_shift_mask; [|lia|cbn; lia|exact HB].
    rewrite <- (map_id l) at 1. rewrite pack_sub. apply (W1 b1). intros; apply byte_steps; auto. }
  assert (E2 : x2 = pack 8 (map b2 l)).
  { unfold x2. rewrite (C 0x33). rewrite E1.
    pose proof (pack_shift_mask 8 2 0x33 (map b1 l) ltac:(lia) ltac:(cbn; lia) (B b1 ltac:(intros; apply byte_steps; auto))) as P2.
    pose proof (pack_shift_mask 8 0 0x33 (map b1 l) ltac:(lia) ltac:(cbn; lia) (B b1 ltac:(intros; apply byte_steps; auto))) as P0.
    rewrite !map_map in P2, P0. rewrite Z.shiftr_0_r in P0. rewrite P2, P0, pack_add.
    erewrite pack_ext; [apply (W1 b2)|exact HB|].
    - intros f Hf. destruct (byte_steps f Hf) as (_ & [? _] & _). unfold is_byte. lia.
    - intros f Hf. unfold b2. rewrite Z.shiftr_0_r. reflexivity. }
  assert (HN : Forall nib4 (map b2 l)).
  { apply Forall_map. eapply Forall_impl; [|exact HB]. intros f Hf. apply byte_steps; auto. }
  assert (M : forall z, Z.land (wrap W z) (pack 8 (repeat 15 n)) = Z.land z (pack 8 (repeat 15 n))).
  { intros z. apply Z.bits_inj'. intros k Hk. rewrite !Z.land_spec, testbit_wrap by lia.
    destruct (Z.ltb_spec k W); [reflexivity|].
    rewrite (testbit_small (pack 8 (repeat 15 n)) W k); [rewrite !andb_false_r; reflexivity| |lia].
    rewrite (C 15). unfold W. rewrite <- Hl, <- (map_length (fun _ => 15) l). apply pack_range; [lia|].
    apply B. intros; unfold is_byte; lia. }
  rewrite M, E2. rewrite (C 15).
  pose proof (step3 (map b2 l) HN) as S3. rewrite !map_map in S3. rewrite S3.
  apply (pack_ext 8 l _ _ is_byte HB). intros f Hf. apply byte_steps; auto.
Qed.

Lemma PopCount64_ok x : 0 <= x < 2 ^ 64 -> PopCount64 x = popc 64 x.
Proof.
  intros Hx. unfold PopCount64.
  pose proof (swar_bytes 8 x Hx) as S. cbv zeta in S.
  change (8 * Z.of_nat 8) with 64 in S.
  change (pack 8 (repeat 0x55 8)) with 0x5555555555555555 in S.
  change (pack 8 (repeat 0x33 8)) with 0x3333333333333333 in S.
  change (pack 8 (repeat 0x0F 8)) with 0x0F0F0F0F0F0F0F0F in S.
  cbv zeta. rewrite S. change 64%nat with (8 * 8)%nat. rewrite popc_fields.
  change (Z.of_nat 8) with 8.
  pose proof (fields_length 8 8 x) as HL. pose proof (fields_range 8 8 x ltac:(lia)) as HB.
  assert (HC : Forall (fun c => 0 <= c <= 8) (map (popc 8) (fields 8 8 x))).
  { apply Forall_map. eapply Forall_impl; [|exact HB]. intros f Hf. apply byte_steps; auto. }
  rewrite <- (map_length (popc 8)) in HL.
  destruct (map (popc 8) (fields 8 8 x)) as [|a0 [|a1 [|a2 [|a3 [|a4 [|a5 [|a6 [|a7 [|]]]]]]]]]; try discriminate.
  repeat match goal with H : Forall _ (_ :: _) |- _ => inversion H; clear H; subst end.
  cbn [pack sumZ]. change (2 ^ 8) with 256.
  rewrite !shiftr_div by lia. change (2 ^ 8) with 256. change (2 ^ 16) with 65536. change (2 ^ 32) with 4294967296.
  set (y0 := a0 + _). set (c64 := 2 ^ 64).
  assert (D1 : y0 / 256 = a1 + 256 * (a2 + 256 * (a3 + 256 * (a4 + 256 * (a5 + 256 * (a6 + 256 * (a7 + 256 * 0))))))).
  { symmetry. apply Z.div_unique with a0; [lia|]. unfold y0. ring. }
  rewrite D1. rewrite (wrap_small 64 (y0 + _)) by (unfold y0; lia).
  set (y1 := y0 + _).
  assert (D2 : y1 / 65536 = (a2 + a3) + 256 * ((a3 + a4) + 256 * ((a4 + a5) + 256 * ((a5 + a6) + 256 * ((a6 + a7) + 256 * a7))))).
  { symmetry. apply Z.div_unique with ((a0 + a1) + 256 * (a1 + a2)); [lia|]. unfold y1, y0. ring. }
  rewrite D2. rewrite (wrap_small 64 (y1 + _)) by (unfold y1, y0; lia).
  set (y2 := y1 + _).
  assert (D3 : exists r, 0 <= r < 4294967296 /\ y2 = 4294967296 * ((a4 + a5 + a6 + a7) + 256 * ((a5 + a6 + a7) + 256 * ((a6 + a7) + 256 * a7))) + r).
  { exists ((a0 + a1 + a2 + a3) + 256 * ((a1 + a2 + a3 + a4) + 256 * ((a2 + a3 + a4 + a5) + 256 * (a3 + a4 + a5 + a6)))).
    split; [lia|]. unfold y2, y1, y0. ring. }
  destruct D3 as (r & Hr & Er).
  assert (D4 : y2 / 4294967296 = (a4 + a5 + a6 + a7) + 256 * ((a5 + a6 + a7) + 256 * ((a6 + a7) + 256 * a7))).
  { symmetry. apply Z.div_unique with r; [lia|exact Er]. }
  rewrite D4. rewrite (wrap_small 64 (y2 + _)) by (unfold y2, y1, y0; lia).
  rewrite (land_wrap _ 7) by (lia || reflexivity). unfold wrap. change (2 ^ 7) with 128.
  symmetry. eapply Z.mod_unique with (q := _).
  2:{ unfold y2, y1, y0. 
      instantiate (1 := 2 * ((a1 + a2 + a3 + a4) + (a5+a6+a7) + 256 * ((a2 + a3 + a4 + a5) + (a6+a7) + 256 * ((a3 + a4 + a5 + a6) + a7 + 256 * ((a4+a5+a6+a7) + 256 * ((a5 + a6 + a7) + 256 * ((a6 + a7) + 256 * a7))))))).
      ring. }
  left. lia.
Qed.

Lemma PopCount32_ok x : 0 <= x < 2 ^ 32 -> PopCount32 x = popc 32 x.
Proof.
  intros Hx. unfold PopCount32.
  pose proof (swar_bytes 4 x Hx) as S. cbv zeta in S.
  change (8 * Z.of_nat 4) with 32 in S.
  change (pack 8 (repeat 0x55 4)) with 0x55555555 in S.
  change (pack 8 (repeat 0x33 4)) with 0x33333333 in S.
  change (pack 8 (repeat 0x0F 4)) with 0x0F0F0F0F in S.
  cbv zeta. rewrite S. change 32%nat with (4 * 8)%nat. rewrite popc_fields.
  change (Z.of_nat 8) with 8.
  pose proof (fields_length 8 4 x) as HL. pose proof (fields_range 8 4 x ltac:(lia)) as HB.
  assert (HC : Forall (fun c => 0 <= c <= 8) (map (popc 8) (fields 8 4 x))).
  { apply Forall_map. eapply Forall_impl; [|exact HB]. intros f Hf. apply byte_steps; auto. }
  rewrite <- (map_length (popc 8)) in HL.
  destruct (map (popc 8) (fields 8 4 x)) as [|a0 [|a1 [|a2 [|a3 [|]]]]]; try discriminate.
  repeat match goal with H : Forall _ (_ :: _) |- _ => inversion H; clear H; subst end.
  cbn [pack sumZ]. change (2 ^ 8) with 256.
  rewrite !shiftr_div by lia. change (2 ^ 8) with 256. change (2 ^ 16) with 65536.
  set (y0 := a0 + _).
  assert (D1 : y0 / 256 = a1 + 256 * (a2 + 256 * (a3 + 256 * 0))).
  { symmetry. apply Z.div_unique with a0; [lia|]. unfold y0. ring. }
  rewrite D1. rewrite (wrap_small 32 (y0 + _)) by (unfold y0; lia).
  set (y1 := y0 + _).
  assert (D2 : y1 / 65536 = (a2 + a3) + 256 * a3).
  { symmetry. apply Z.div_unique with ((a0 + a1) + 256 * (a1 + a2)); [lia|]. unfold y1, y0. ring. }
  rewrite D2. rewrite (wrap_small 32 (y1 + _)) by (unfold y1, y0; lia).
  rewrite (land_wrap _ 6) by (lia || reflexivity). unfold wrap. change (2 ^ 6) with 64.
  symmetry. eapply Z.mod_unique with (q := _).
  2:{ unfold y1, y0. 
      instantiate (1 := 4 * ((a1 + a2) + a3 + 256 * ((a2 + a3) + 256 * a3))).
      ring. }
  left. lia.
Qed.

(* ---------------- rounding and logs ---------------- *)
Lemma DivCeil_ok a b : 0 <= a -> 0 < b -> a + b < 2 ^ 64 ->
  exists q, DivCeil a b = Some q /\ a <= q * b /\ forall q', a <= q' * b -> q <= q'.
Proof.
  intros Ha Hb Ho. unfold DivCeil. destruct (Z.eqb_spec b 0); [lia|].
  rewrite !wrap_small by (rewrite ?wrap_small; lia).
  eexists; split; [reflexivity|].
  pose proof (Z.div_mod (a + b - 1) b ltac:(lia)). pose proof (Z.mod_pos_bound (a + b - 1) b ltac:(lia)).
  set (q := (a + b - 1) / b) in *. split; [nia|]. intros q' Hq. nia.
Qed.

(** a + b = 2^64 is still fine: the sum wraps to 0 and 0 - 1 wraps back. *)
Lemma DivCeil_ok_edge a b : 0 <= a -> 0 < b -> a + b - 1 < 2 ^ 64 ->
  exists q, DivCeil a b = Some q /\ a <= q * b /\ forall q', a <= q' * b -> q <= q'.
Proof.
  intros Ha Hb Ho. unfold DivCeil. destruct (Z.eqb_spec b 0); [lia|].
  rewrite wrap_sub_l. rewrite wrap_small by lia.
  eexists; split; [reflexivity|].
  pose proof (Z.div_mod (a + b - 1) b ltac:(lia)). pose proof (Z.mod_pos_bound (a + b - 1) b ltac:(lia)).
  set (q := (a + b - 1) / b) in *. split; [nia|]. intros q' Hq. nia.
Qed.

Lemma RoundUpTo_ok what align : 0 <= what -> 0 < align -> what + align - 1 < 2 ^ 64 ->
  exists r, RoundUpTo what align = Some r /\ (align | r) /\ what <= r < what + align.
Proof.
  intros Hw Ha Ho. unfold RoundUpTo.
  destruct (DivCeil_ok_edge what align Hw Ha Ho) as (q & -> & H1 & H2).
  assert (Hq : q * align < what + align).
  { destruct (Z_lt_dec (q * align) (what + align)); auto.
    specialize (H2 (q - 1)). nia. }
  rewrite wrap_small by lia. eexists; split; [reflexivity|]. split; [exists q; reflexivity|lia].
Qed.

Lemma RoundDownTo_ok what align : 0 <= what < 2 ^ 64 -> 0 < align ->
  exists r, RoundDownTo what align = Some r /\ (align | r) /\ r <= what < r + align.
Proof.
  intros Hw Ha. unfold RoundDownTo. destruct (Z.eqb_spec align 0); [lia|].
  pose proof (Z.div_mod what align ltac:(lia)). pose proof (Z.mod_pos_bound what align ltac:(lia)).
  assert (0 <= what / align) by (apply Z.div_pos; lia).
  rewrite wrap_small by nia. eexists; split; [reflexivity|]. split; [exists (what / align); lia|lia].
Qed.

Lemma FloorLog2_ok k x fuel : 0 < x < 2 ^ k -> 0 <= k <= 64 -> (Z.to_nat k <= fuel)%nat ->
  exists r, FloorLog2_fuel fuel x = Some r /\ 0 <= r < k /\ 2 ^ r <= x < 2 ^ (r + 1).
Proof.
  revert k x. induction fuel as [|fuel IH]; intros k x Hx Hk Hf.
  - assert (k = 0) by lia. subst. cbn in Hx. lia.
  - cbn [FloorLog2_fuel]. destruct (Z.eqb_spec x 1) as [->|].
    + exists 0. split; [reflexivity|]. split; [|cbn; lia].
      destruct (Z.eq_dec k 0) as [->|]; [cbn in Hx; lia|lia].
    + rewrite shiftr_div by lia. change (2 ^ 1) with 2.
      assert (Hk0 : 0 < k). { destruct (Z.eq_dec k 0) as [->|]; [cbn in Hx; lia|lia]. }
      assert (E : 2 ^ k = 2 * 2 ^ (k - 1)) by (rewrite <- Z.pow_succ_r by lia; f_equal; lia).
      pose proof (Z.div_mod x 2 ltac:(lia)) as DM. pose proof (Z.mod_pos_bound x 2 ltac:(lia)) as MB.
      destruct (IH (k - 1) (x / 2)) as (r & -> & Hr & Hp); [lia|lia|lia|].
      rewrite wrap_small by lia. exists (r + 1). split; [reflexivity|]. split; [lia|].
      rewrite !Z.pow_add_r in * by lia. change (2 ^ 1) with 2 in *. lia.
Qed.

Lemma FloorLog2_zero fuel : FloorLog2_fuel fuel 0 = None.
Proof. induction fuel as [|f IH]; [reflexivity|]. cbn [FloorLog2_fuel Z.eqb]. rewrite Z.shiftr_0_l, IH. reflexivity. Qed.

Lemma CeilLog2_ok w x : 0 < x < 2 ^ w -> 0 < w <= 64 ->
  exists r, CeilLog2_fuel w 64 x = Some r /\ 0 <= r <= w /\ x <= 2 ^ r /\ (x = 1 /\ r = 0 \/ 2 ^ (r - 1) < x).
Proof.
  intros Hx Hw. unfold CeilLog2_fuel. destruct (Z.eqb_spec x 1) as [->|].
  - exists 0. split; [reflexivity|]. split; [lia|]. split; [cbn; lia|]. left; auto.
  - rewrite wrap_small by lia.
    destruct (FloorLog2_ok w (x - 1) 64%nat) as (r & -> & Hr & Hp); [lia|lia|lia|].
    rewrite wrap_small by lia. exists (r + 1). split; [reflexivity|]. split; [lia|].
    split; [lia|]. right. replace (r + 1 - 1) with r by lia. lia.
Qed.

Lemma ShiftCount_fuel_ok k fuel : 0 <= k -> (Z.to_nat k < fuel)%nat -> ShiftCount_fuel fuel (2 ^ k) = Some k.
Proof.
  revert k. induction fuel as [|fuel IH]; intros k Hk Hf; [lia|].
  cbn [ShiftCount_fuel]. destruct (Z.eq_dec k 0) as [->|].
  - reflexivity.
  - assert (E : 2 ^ k = 2 ^ (k - 1) * 2) by (rewrite Z.mul_comm, <- Z.pow_succ_r by lia; f_equal; lia).
    pose proof (pow2_gt0 (k - 1) ltac:(lia)).
    destruct (Z.leb_spec (2 ^ k) 1); [lia|].
    rewrite E, Z.div_mul by lia. rewrite IH by lia. f_equal. lia.
Qed.
Lemma ShiftCount_ok k : 0 <= k < 64 -> ShiftCount (2 ^ k) = Some k.
Proof. intros. apply ShiftCount_fuel_ok; lia. Qed.

(* ---------------- shifts, abs, wraparound ---------------- *)
Lemma ScalarShr_portable_ok w val s : 0 < w -> in_s w val -> 0 <= s < w ->
  ScalarShr_portable w val s = Some (val / 2 ^ s).
Proof.
  intros Hw Hv Hs. unfold ScalarShr_portable.
  destruct (Z.leb_spec 0 s), (Z.ltb_spec s w); try lia. cbn [andb]. f_equal.
  pose proof (pow2_gt0 s ltac:(lia)) as Ps.
  assert (E2 : 2 ^ w = 2 * 2 ^ (w - 1)) by (rewrite <- Z.pow_succ_r by lia; f_equal; lia).
  unfold in_s in Hv.
  assert (Hq : in_s w (val / 2 ^ s)).
  { unfold in_s. split.
    - apply Z.div_le_lower_bound; nia.
    - apply Z.div_lt_upper_bound; nia. }
  apply swrap_unique; [lia|exact Hq|].
  destruct (Z.ltb_spec val 0).
  - assert (E3 : wrap w (Z.lnot (wrap w val)) = - val - 1).
    { assert (wrap w val = val + 2 ^ w) as ->.
      { unfold wrap. rewrite <- (Z.mod_add val 1) by lia. rewrite Z.mod_small by lia. lia. }
      unfold Z.lnot. rewrite <- Z.sub_1_r.
      unfold wrap. rewrite <- (Z.mod_add _ 1) by lia. rewrite Z.mod_small by lia. lia. }
    rewrite E3. replace (- val - 1) with (Z.lnot val) by (unfold Z.lnot; lia).
    rewrite <- Z.lnot_shiftr by lia. rewrite Z.lnot_involutive.
    rewrite shiftr_div by lia. unfold wrap. apply Z.mod_mod. lia.
  - rewrite (wrap_small w val) by lia. rewrite shiftr_div by lia. unfold wrap. apply Z.mod_mod. lia.
Qed.

Lemma ScalarShr_native_ok w val s : 0 <= s < w -> ScalarShr_native w val s = Some (val / 2 ^ s).
Proof.
  intros Hs. unfold ScalarShr_native. destruct (Z.leb_spec 0 s), (Z.ltb_spec s w); try lia.
  cbn [andb]. rewrite shiftr_div by lia. reflexivity.
Qed.

Lemma wrap_pow_mod w x : 0 <= w <= 64 -> wrap w (wrap 64 x) = wrap w x.
Proof.
  intros H. unfold wrap. pose proof (pow2_gt0 w ltac:(lia)).
  assert (E : 2 ^ 64 = 2 ^ w * 2 ^ (64 - w)) by (rewrite <- Z.pow_add_r by lia; f_equal; lia).
  pose proof (pow2_gt0 (64 - w) ltac:(lia)).
  rewrite E. rewrite Z.rem_mul_r by lia. rewrite Z.mul_comm, Z.mod_add by lia. apply Z.mod_mod. lia.
Qed.

Lemma AddWithWraparound_u_ok w t n : 0 < w <= 64 -> AddWithWraparound_u w t n = (t + n) mod 2 ^ w.
Proof.
  intros Hw. unfold AddWithWraparound_u. rewrite land_ones' by lia.
  change ((wrap 64 (wrap 64 t + wrap 64 n)) mod 2 ^ w) with (wrap w (wrap 64 (wrap 64 t + wrap 64 n))).
  rewrite wrap_wrap by lia. rewrite wrap_add_l, wrap_add_r. rewrite wrap_pow_mod by lia. reflexivity.
Qed.

Lemma AddWithWraparound_s_ok w t n : 0 < w <= 64 ->
  in_s w (AddWithWraparound_s w t n) /\ (AddWithWraparound_s w t n) mod 2 ^ w = (t + n) mod 2 ^ w.
Proof.
  intros Hw. assert (E : AddWithWraparound_s w t n = swrap w (AddWithWraparound_u w t n)) by reflexivity.
  rewrite E. split; [apply swrap_range; lia|]. rewrite swrap_mod by lia.
  rewrite AddWithWraparound_u_ok by lia. apply Z.mod_mod. pose proof (pow2_gt0 w); lia.
Qed.

Lemma ScalarAbs_s_ok w x : 0 < w -> in_s w x ->
  ScalarAbs_s w x = if x =? - 2 ^ (w - 1) then x else Z.abs x.
Proof.
  intros Hw Hx. unfold ScalarAbs_s, in_s in *.
  assert (E2 : 2 ^ w = 2 * 2 ^ (w - 1)) by (rewrite <- Z.pow_succ_r by lia; f_equal; lia).
  pose proof (pow2_gt0 (w - 1) ltac:(lia)).
  destruct (Z.ltb_spec x 0).
  - rewrite wrap_sub_r. rewrite swrap_wrap by lia.
    destruct (Z.eqb_spec x (- 2 ^ (w - 1))) as [->|].
    + apply swrap_unique; [lia|unfold in_s; lia|].
      rewrite <- (Z.mod_add (- 2 ^ (w - 1)) 1) by lia. f_equal. lia.
    + rewrite swrap_small; [lia|lia|unfold in_s; lia].
  - destruct (Z.eqb_spec x (- 2 ^ (w - 1))); lia.
Qed.

From Verif Require Import Arith_Spec.

Lemma popc_count w x : popc w x = count_ones w x.
Proof.
  unfold count_ones. induction w as [|w IH]; [reflexivity|].
  rewrite seq_S, filter_app, app_length, Nat2Z.inj_add, <- IH. cbn [popc Nat.add filter].
  destruct (Z.testbit x (Z.of_nat w)); cbn [Z.b2z length]; lia.
Qed.

Lemma PopCount64_correct x : in_u 64 x -> PopCount64 x = count_ones 64 x.
Proof. intros H. rewrite <- popc_count. apply PopCount64_ok, H. Qed.
Lemma PopCount32_correct x : in_u 32 x -> PopCount32 x = count_ones 32 x.
Proof. intros H. rewrite <- popc_count. apply PopCount32_ok, H. Qed.

Lemma ctz64_fallback_correct x : in_u 64 x -> x <> 0 ->
  exists r, Num0BitsBelowLS1Bit_Nonzero64_fallback x = Some r /\ is_lowest_one x r /\ 0 <= r < 64.
Proof.
  intros H Hn. unfold in_u in H. destruct (ctz64_fallback_ok x) as (r & H1 & H2 & H3 & H4); [lia|].
  exists r. unfold is_lowest_one. auto.
Qed.

Lemma clz64_fallback_correct x : in_u 64 x -> x <> 0 ->
  exists r, Num0BitsAboveMS1Bit_Nonzero64_fallback x = Some r /\ is_highest_one x (63 - r) /\ 0 <= r < 64.
Proof.
  intros H Hn. unfold in_u in H. destruct (clz64_fallback_ok x) as (r & H1 & H2 & H3 & H4); [lia|].
  exists r. unfold is_highest_one. auto.
Qed.

Lemma RoundUpTo_refuted_l : exists what align r, in_u 64 what /\ in_u 64 align /\ align <> 0 /\
  RoundUpTo what align = Some r /\ r < what.
Proof. exists (2 ^ 64 - 1), 16, 0. unfold in_u. repeat split; vm_compute; congruence. Qed.

Lemma Divisor_all d n : in_u 32 d -> d <> 0 -> in_u 32 n ->
  Divisor_Divide (Divisor_ctor d) n = n / d /\
  Divisor_Remainder (Divisor_ctor d) n = n mod d /\
  d_divisor (Divisor_ctor d) = d.
Proof.
  unfold in_u. intros Hd H0 Hn. split; [apply Divisor_Divide_ok; lia|].
  split; [apply Divisor_Remainder_ok; lia|apply Divisor_GetDivisor_ok].
Qed.

Lemma Divisor64_all d n : in_u 64 d -> d <> 0 -> in_u 64 n ->
  (exists D, Divisor64_ctor d = Some D /\ Divisor64_Divide D n = n / d /\
             Divisor64_Remainder D n = n mod d /\ e_divisor D = d) /\
  Divisor64_plain_Divide d n = Some (n / d) /\ Divisor64_plain_Remainder d n = Some (n mod d).
Proof.
  unfold in_u. intros Hd H0 Hn. split.
  - destruct (Divisor64_ok d n) as (D & H1 & H2 & H3 & H4); [lia|lia|]. exists D. auto.
  - unfold Divisor64_plain_Divide, Divisor64_plain_Remainder. destruct (Z.eqb_spec d 0); [lia|]. auto.
Qed.

Lemma Mul128_u_all a b : in_u 64 a -> in_u 64 b ->
  snd (Mul128_u a b) = (a * b) mod 2 ^ 64 /\ fst (Mul128_u a b) = (a * b) / 2 ^ 64.
Proof.
  intros Ha Hb. pose proof (Mul128_u_ok a b Ha Hb) as H. destruct (Mul128_u a b) as [u l].
  destruct H as (Hu & Hl & E). cbn [fst snd]. split.
  - apply Z.mod_unique with u; lia.
  - apply Z.div_unique with l; lia.
Qed.

Lemma Mul128_s_all a b : in_s 64 a -> in_s 64 b ->
  in_s 64 (snd (Mul128_s a b)) /\ (snd (Mul128_s a b)) mod 2 ^ 64 = (a * b) mod 2 ^ 64 /\
  fst (Mul128_s a b) = (a * b) / 2 ^ 64.
Proof.
  intros Ha Hb. pose proof (Mul128_s_ok a b Ha Hb) as H. destruct (Mul128_s a b) as [u l].
  destruct H as (Hu & Hl & E). cbn [fst snd]. split; [exact Hl|].
  pose proof (wrap_range 64 l ltac:(lia)). split.
  - apply Z.mod_unique with (u + l / 2 ^ 64 - l / 2 ^ 64).
    + left. apply Z.mod_pos_bound. lia.
    + unfold wrap in *. lia.
  - apply Z.div_unique with (wrap 64 l); lia.
Qed.

Lemma FloorLog2_all x : in_u 64 x -> x <> 0 ->
  exists r, FloorLog2_fuel 64 x = Some r /\ 0 <= r /\ 2 ^ r <= x < 2 ^ (r + 1).
Proof.
  unfold in_u. intros. destruct (FloorLog2_ok 64 x 64%nat) as (r & H1 & H2 & H3); [lia|lia|lia|].
  exists r. split; auto. split; auto; lia.
Qed.

Lemma CeilLog2_all x : in_u 64 x -> x <> 0 ->
  exists r, CeilLog2_fuel 64 64 x = Some r /\ 0 <= r /\ x <= 2 ^ r /\ forall r', 0 <= r' -> x <= 2 ^ r' -> r <= r'.
Proof.
  unfold in_u. intros. destruct (CeilLog2_ok 64 x) as (r & H1 & H2 & H3 & H4); [lia|lia|].
  exists r. split; auto. split; [lia|]. split; auto. intros r' Hr' Hx.
  destruct H4 as [[-> ->]|H4]; [lia|].
  destruct (Z_le_dec r r'); auto. assert (2 ^ r' <= 2 ^ (r - 1)) by (apply Z.pow_le_mono_r; lia). lia.
Qed.
