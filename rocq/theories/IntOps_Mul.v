From Coq Require Import ZArith List Bool Lia.
From Verif Require Import Word Word_Proofs Ops_Model IntOps_Model IntOps_Proofs.
Import ListNotations.
Local Open Scope Z_scope.

Lemma wrap_mod_sub n m x : 0 <= n <= m -> wrap n (wrap m x) = wrap n x.
Proof.
  intros H. unfold wrap. replace (2 ^ m) with (2 ^ n * 2 ^ (m - n)) by (rewrite <- Z.pow_add_r by lia; f_equal; lia).
  rewrite Z.rem_mul_r by (pose proof (pow2_gt0 n ltac:(lia)); pose proof (pow2_gt0 (m - n) ltac:(lia)); lia). rewrite Z.mul_comm, Z.mod_add by (pose proof (pow2_gt0 n ltac:(lia)); lia). apply Z.mod_mod. pose proof (pow2_gt0 n ltac:(lia)). lia.
Qed.
Lemma wrap_swrap n m x : 0 <= n <= m -> 0 < m -> wrap n (swrap m x) = wrap n x.
Proof. intros H Hm. rewrite <- (wrap_mod_sub n m (swrap m x)) by lia. unfold wrap at 2. rewrite swrap_mod by lia. change (x mod 2 ^ m) with (wrap m x). apply wrap_mod_sub. lia. Qed.
Lemma fit_wrap sg w x : 0 < w -> fit sg w (wrap w x) = fit sg w x.
Proof. intros. destruct sg; cbn [fit]; [apply swrap_wrap; lia|apply wrap_wrap; lia]. Qed.
Lemma mul8_ok sg a b : mul8 sg a b = fit sg 8 (a * b).
Proof.
  unfold mul8. cbv zeta. rewrite fit_wrap by lia. rewrite <- (fit_wrap sg 8 (wrap 16 _)) by lia. rewrite <- (fit_wrap sg 8 (a * b)) by lia. f_equal. rewrite wrap_mod_sub by lia. destruct sg; cbn [fit]; [apply wrap_swrap; lia|apply wrap_mod_sub; lia].
Qed.
Lemma split32 x : 0 <= x < 2 ^ 64 -> exists l h, x = l + 2 ^ 32 * h /\ 0 <= l < 2 ^ 32 /\ 0 <= h < 2 ^ 32 /\ wrap 32 x = l /\ Z.shiftr x 32 = h.
Proof.
  intros Hx. exists (x mod 2 ^ 32), (x / 2 ^ 32). unfold wrap. rewrite shiftr_div by lia. pose proof (Z.div_mod x (2 ^ 32) ltac:(lia)). pose proof (Z.mod_pos_bound x (2 ^ 32) ltac:(lia)). repeat split; try lia.
Qed.
Lemma mul64u_ok x y : 0 <= x < 2 ^ 64 -> 0 <= y < 2 ^ 64 -> mul64u x y = wrap 64 (x * y).
Proof.
  intros Hx Hy. destruct (split32 x Hx) as (xl & xh & Ex & Lx & Hhx & Wx & Sx). destruct (split32 y Hy) as (yl & yh & Ey & Ly & Hhy & Wy & Sy).
  unfold mul64u, mul_even32. cbv zeta. rewrite Wx, Wy, Sx, Sy. rewrite (wrap_small 32 xh), (wrap_small 32 yh) by lia.
  assert (P : forall a b, 0 <= a < 2 ^ 32 -> 0 <= b < 2 ^ 32 -> 0 <= a * b < 2 ^ 64) by (intros; change (2 ^ 64) with (2 ^ 32 * 2 ^ 32); nia).
  pose proof (P xl yl Lx Ly) as Pll. pose proof (P xl yh Lx Hhy) as Plh. pose proof (P xh yl Hhx Ly) as Phl.
  (* the shifted sum keeps only the low 32 bits of lohi + hilo *)
  assert (S : wrap 64 (Z.shiftl (add32x2 (xl * yh) (xh * yl)) 32) = 2 ^ 32 * wrap 32 (xl * yh + xh * yl)).
  { unfold add32x2. rewrite wrap_add_l, wrap_add_r. rewrite Z.shiftl_mul_pow2 by lia. set (t := xl * yh + xh * yl). set (u := wrap 32 (Z.shiftr (xl * yh) 32 + Z.shiftr (xh * yl) 32)).
    unfold wrap at 1. change (2 ^ 64) with (2 ^ 32 * 2 ^ 32). rewrite Z.mul_mod_distr_r by lia. rewrite Z.mul_comm. f_equal. rewrite (Z.mul_comm (2 ^ 32) u). rewrite Z.mod_add by lia. pose proof (wrap_range 32 t ltac:(lia)). apply Z.mod_small. lia. }
  rewrite S. set (t := xl * yh + xh * yl) in *. pose proof (wrap_range 32 t ltac:(lia)) as Rt.
  unfold add32x2. replace (wrap 32 (2 ^ 32 * wrap 32 t)) with 0 by (unfold wrap at 1; rewrite Z.mul_comm, Z.mod_mul by lia; reflexivity). rewrite Z.add_0_r.
  replace (Z.shiftr (2 ^ 32 * wrap 32 t) 32) with (wrap 32 t) by (rewrite shiftr_div by lia; rewrite Z.mul_comm, Z.div_mul by lia; reflexivity). rewrite wrap_add_r, wrap_wrap by lia.
  rewrite shiftr_div by lia. unfold wrap. apply Z.mod_unique_pos with (q := (xh * yh + ((xl * yl) / 2 ^ 32 + t) / 2 ^ 32)).
  - pose proof (Z.mod_pos_bound (xl * yl) (2 ^ 32) ltac:(lia)). pose proof (Z.mod_pos_bound (xl * yl / 2 ^ 32 + t) (2 ^ 32) ltac:(lia)). change (2 ^ 64) with (2 ^ 32 * 2 ^ 32). nia.
  - pose proof (Z.div_mod (xl * yl) (2 ^ 32) ltac:(lia)) as D1. pose proof (Z.div_mod (xl * yl / 2 ^ 32 + t) (2 ^ 32) ltac:(lia)) as D2. rewrite Ex, Ey. change (2 ^ 64) with (2 ^ 32 * 2 ^ 32). unfold t in *. nia.
Qed.
Lemma mul64_ok sg x y : in_r sg 64 x -> in_r sg 64 y -> mul64 sg x y = fit sg 64 (x * y) /\ mul64_single sg x y = fit sg 64 (x * y).
Proof.
  intros Hx Hy. assert (E2 : mul64_single sg x y = fit sg 64 (x * y)).
  { unfold mul64_single. rewrite fit_wrap by lia. rewrite <- (fit_wrap sg 64 (_ * _)) by lia. rewrite wrap_mul_l, wrap_mul_r. apply fit_wrap. lia. }
  split; [|exact E2]. unfold mul64. destruct sg.
  - rewrite mul64u_ok by (apply wrap_range; lia). rewrite <- E2. reflexivity.
  - unfold in_r, lowest, highest in *. apply mul64u_ok; lia.
Qed.
Lemma demote_u2i_ok w n v : 0 < n <= w -> 0 <= v < 2 ^ w -> demote_u2i w n v = Z.min v (highest true n) /\ demote_u2i_emu n v = Z.min v (highest true n).
Proof.
  intros Hn Hv. pose proof (pow_half w ltac:(lia)) as PW. pose proof (pow_half n ltac:(lia)) as PN. pose proof (pow_ge1 (n - 1) ltac:(lia)). assert (2 ^ (n - 1) <= 2 ^ (w - 1)) by (apply Z.pow_le_mono_r; lia).
  split.
  - unfold demote_u2i, demote_i2i, highest, lowest. cbv zeta. rewrite (wrap_small n (2 ^ (n - 1) - 1)) by lia. rewrite (swrap_cases w v) by lia.
    destruct (Z.ltb_spec v (- 2 ^ (w - 1))); [lia|]. destruct (Z.ltb_spec v (2 ^ (w - 1))).
    + rewrite wrap_small by lia. rewrite swrap_small by (try lia; unfold in_s; lia). lia.
    + set (z := Z.min (Z.max _ _) _). assert (HZ : - 2 ^ (n - 1) <= z < 0) by (unfold z; lia). replace (wrap n z) with (z + 2 ^ n) by (apply (Z.mod_unique_pos _ _ (-1)); lia). rewrite swrap_small by (try lia; unfold in_s; lia). lia.
  - unfold demote_u2i_emu, highest. rewrite swrap_small by (try lia; unfold in_s; lia). reflexivity.
Qed.

(** ** products *)
Lemma swmpa_ok a0 a1 b0 b1 : 0 <= a0 < 256 -> 0 <= a1 < 256 -> -128 <= b0 < 128 -> -128 <= b1 < 128 ->
  sat_widen_mul_pairwise_add a0 a1 b0 b1 = clamp (-32768) 32767 (a0 * b0 + a1 * b1).
Proof.
  intros. unfold sat_widen_mul_pairwise_add. assert (-32768 <= a0 * b0 < 32768) by nia. assert (-32768 <= a1 * b1 < 32768) by nia.
  rewrite (swrap_small 16 a0), (swrap_small 16 a1) by (try lia; unfold in_s; change (2 ^ (16 - 1)) with 32768; lia). rewrite !swrap_small by (try lia; unfold in_s; change (2 ^ (16 - 1)) with 32768; lia).
  rewrite sat_add_ok by (try lia; unfold in_r, lowest, highest; change (2 ^ (16 - 1)) with 32768; lia). reflexivity.
Qed.
Lemma i16_prod a b : -32768 <= a < 32768 -> -32768 <= b < 32768 -> -1073709056 <= a * b <= 1073741824.
Proof. nia. Qed.
Lemma wmpa_ok a0 a1 b0 b1 : -32768 <= a0 < 32768 -> -32768 <= a1 < 32768 -> -32768 <= b0 < 32768 -> -32768 <= b1 < 32768 ->
  -2147418112 <= a0 * b0 + a1 * b1 <= 2147483648 /\ widen_mul_pairwise_add32 a0 a1 b0 b1 = if a0 * b0 + a1 * b1 =? 2147483648 then -2147483648 else a0 * b0 + a1 * b1.
Proof.
  intros A0 A1 B0 B1. pose proof (i16_prod a0 b0 A0 B0). pose proof (i16_prod a1 b1 A1 B1). split; [lia|]. unfold widen_mul_pairwise_add32, add_, fit.
  rewrite (swrap_small 32 (a0 * b0)), (swrap_small 32 (a1 * b1)) by (try lia; unfold in_s; change (2 ^ (32 - 1)) with 2147483648; lia). rewrite swrap_cases by (change (2 ^ 32) with 4294967296; lia). change (2 ^ (32 - 1)) with 2147483648. change (2 ^ 32) with 4294967296.
  destruct (Z.ltb_spec (a0 * b0 + a1 * b1) (- (2147483648))); [lia|]. destruct (Z.ltb_spec (a0 * b0 + a1 * b1) 2147483648), (Z.eqb_spec (a0 * b0 + a1 * b1) 2147483648); lia.
Qed.
Definition i32 (x : Z) : Prop := -2147483648 <= x < 2147483648.
Lemma swmpacc_ok a0 a1 b0 b1 sum : -32768 <= a0 < 32768 -> -32768 <= a1 < 32768 -> -32768 <= b0 < 32768 -> -32768 <= b1 < 32768 -> i32 sum ->
  sat_widen_mul_pairwise_accumulate a0 a1 b0 b1 sum = clamp (-2147483648) 2147483647 (a0 * b0 + a1 * b1 + sum).
Proof.
  intros A0 A1 B0 B1 S. unfold i32 in S. destruct (wmpa_ok a0 a1 b0 b1 A0 A1 B0 B1) as (R & E). unfold sat_widen_mul_pairwise_accumulate. cbv zeta. rewrite E. clear E. set (p := a0 * b0 + a1 * b1) in *. clearbody p.
  unfold broadcast_sign, shr_. rewrite shr_sign by (try lia; unfold in_r, lowest, highest; change (2 ^ (32 - 1)) with 2147483648; lia).
  unfold sub_, add_, vec_from_mask, lowest, fit. change (- 2 ^ (32 - 1)) with (-2147483648).
  destruct (Z.eqb_spec p 2147483648) as [->|].
  - change (-2147483648 =? -2147483648) with true. cbv beta iota. change (swrap 32 (-2147483648 + -1)) with 2147483647. rewrite Z.land_m1_r.
    rewrite swrap_small by (try lia; unfold in_s; change (2 ^ (32 - 1)) with 2147483648; destruct (Z.ltb_spec sum 0); lia).
    rewrite sat_add_ok by (try lia; unfold in_r, lowest, highest; change (2 ^ (32 - 1)) with 2147483648; destruct (Z.ltb_spec sum 0); lia).
    unfold clamp, lowest, highest. change (2 ^ (32 - 1)) with 2147483648. destruct (Z.ltb_spec sum 0); lia.
  - destruct (Z.eqb_spec p (-2147483648)); [lia|]. rewrite Z.land_0_r, Z.sub_0_r, Z.add_0_r. rewrite !swrap_small by (try lia; unfold in_s; change (2 ^ (32 - 1)) with 2147483648; lia).
    rewrite sat_add_ok by (try lia; unfold in_r, lowest, highest; change (2 ^ (32 - 1)) with 2147483648; lia). unfold clamp, lowest, highest. change (2 ^ (32 - 1)) with 2147483648. lia.
Qed.
Lemma fit_add sg w a b : 0 < w -> fit sg w (a + fit sg w b) = fit sg w (a + b).
Proof.
  intros Hw. destruct sg; cbn [fit]; [|apply wrap_add_r]. rewrite <- (swrap_wrap w (a + swrap w b)), <- (swrap_wrap w (a + b)) by lia. f_equal. rewrite <- (wrap_add_r w a b), <- (wrap_add_r w a (swrap w b)). f_equal. f_equal. apply wrap_swrap; lia.
Qed.
Definition quad_sum (a b : Z * Z * Z * Z) : Z := let '(a0, a1, a2, a3) := a in let '(b0, b1, b2, b3) := b in a0 * b0 + a1 * b1 + a2 * b2 + a3 * b3.
Definition all4 (P : Z -> Prop) (a : Z * Z * Z * Z) : Prop := let '(a0, a1, a2, a3) := a in P a0 /\ P a1 /\ P a2 /\ P a3.
Ltac pw := change (2 ^ (16 - 1)) with 32768 in *; change (2 ^ (32 - 1)) with 2147483648 in *; change (2 ^ (64 - 1)) with 9223372036854775808 in *; change (2 ^ 8) with 256 in *; change (2 ^ 16) with 65536 in *; change (2 ^ 32) with 4294967296 in *; change (2 ^ 64) with 18446744073709551616 in *.
Lemma wmpa_small a0 a1 b0 b1 : -256 <= a0 < 256 -> -256 <= a1 < 256 -> -256 <= b0 < 256 -> -256 <= b1 < 256 -> widen_mul_pairwise_add32 a0 a1 b0 b1 = a0 * b0 + a1 * b1 /\ -131072 <= a0 * b0 + a1 * b1 <= 131072.
Proof.
  intros. assert (-131072 <= a0 * b0 + a1 * b1 <= 131072) by nia. split; [|assumption]. destruct (wmpa_ok a0 a1 b0 b1) as (_ & ->); try lia. destruct (Z.eqb_spec (a0 * b0 + a1 * b1) 2147483648); lia.
Qed.
Lemma quad_i8_ok a b sum : all4 (fun x => -128 <= x < 128) a -> all4 (fun x => -128 <= x < 128) b -> i32 sum -> sum_quad_i8 a b sum = swrap 32 (sum + quad_sum a b).
Proof.
  destruct a as (((a0 & a1) & a2) & a3), b as (((b0 & b1) & b2) & b3). cbn [all4]. intros (A0 & A1 & A2 & A3) (B0 & B1 & B2 & B3) S. unfold sum_quad_i8, quad_sum, add_.
  destruct (wmpa_small a0 a2 b0 b2) as (-> & R1); try lia. destruct (wmpa_small a1 a3 b1 b3) as (-> & R2); try lia. rewrite fit_add by lia. cbn [fit]. f_equal. lia.
Qed.
Lemma lo8_pair a b : 0 <= a < 256 -> 0 <= b < 256 -> lo8 (swrap 16 (pair8 a b)) = a /\ swrap 16 (shr_ 8 (pair8 a b)) = b.
Proof.
  intros Ha Hb. unfold lo8, pair8, shr_. split.
  - rewrite (land_wrap _ 8) by (try lia; reflexivity). rewrite wrap_swrap by lia. unfold wrap. change (2 ^ 8) with 256. rewrite (Z.mul_comm 256 b), Z.mod_add by lia. apply Z.mod_small. lia.
  - rewrite shiftr_div by lia. change (2 ^ 8) with 256. rewrite (Z.mul_comm 256 b), Z.div_add, Z.div_small by lia. apply swrap_small; [lia|]. unfold in_s. pw. lia.
Qed.
Lemma quad_u8_ok a b sum : all4 (fun x => 0 <= x < 256) a -> all4 (fun x => 0 <= x < 256) b -> 0 <= sum < 2 ^ 32 -> sum_quad_u8 a b sum = wrap 32 (sum + quad_sum a b).
Proof.
  destruct a as (((a0 & a1) & a2) & a3), b as (((b0 & b1) & b2) & b3). cbn [all4]. intros (A0 & A1 & A2 & A3) (B0 & B1 & B2 & B3) S. unfold sum_quad_u8, quad_sum, add_. cbv zeta.
  destruct (lo8_pair a0 a1 A0 A1) as (-> & ->). destruct (lo8_pair a2 a3 A2 A3) as (-> & ->). destruct (lo8_pair b0 b1 B0 B1) as (-> & ->). destruct (lo8_pair b2 b3 B2 B3) as (-> & ->).
  destruct (wmpa_small a0 a2 b0 b2) as (-> & R1); try lia. destruct (wmpa_small a1 a3 b1 b3) as (-> & R2); try lia. rewrite fit_add by lia. cbn [fit]. rewrite (wrap_small 32 (a0 * b0 + _)), (wrap_small 32 (a1 * b1 + _)) by (pw; nia). f_equal. lia.
Qed.
Lemma i8_pair a b : -128 <= a < 128 -> -128 <= b < 128 -> let B := swrap 16 (pair8 (wrap 8 a) (wrap 8 b)) in shr_ 8 (shl_ true 16 8 B) = a /\ shr_ 8 B = b.
Proof.
  intros Ha Hb. cbv zeta. unfold shl_, shr_, pair8. cbn [fit].
  assert (EB : swrap 16 (wrap 8 a + 256 * wrap 8 b) = wrap 8 a + 256 * b).
  { pose proof (wrap_range 8 a ltac:(lia)). apply swrap_unique; [lia|unfold in_s; pw; lia|]. pw. unfold wrap. pw.
    destruct (Z_lt_ge_dec b 0); [|rewrite (Z.mod_small b) by lia; reflexivity]. replace (b mod 256) with (b + 256) by (apply (Z.mod_unique_pos _ _ (-1)); lia). replace (a mod 256 + 256 * (b + 256)) with (a mod 256 + 256 * b + 1 * 65536) by lia. apply Z.mod_add. lia. }
  rewrite EB. pose proof (wrap_range 8 a ltac:(lia)) as RA. split.
  - assert (E : swrap 16 (Z.shiftl (wrap 8 a + 256 * b) 8) = 256 * a).
    { rewrite Z.shiftl_mul_pow2 by lia. apply swrap_unique; [lia|unfold in_s; pw; lia|]. pw. unfold wrap in *. pw.
      destruct (Z_lt_ge_dec a 0); [|rewrite (Z.mod_small a) by lia]. 
      - replace (a mod 256) with (a + 256) by (apply (Z.mod_unique_pos _ _ (-1)); lia). replace ((a + 256 + 256 * b) * 256) with (256 * a + (1 + b) * 65536) by lia. apply Z.mod_add. lia.
      - replace ((a + 256 * b) * 256) with (256 * a + b * 65536) by lia. apply Z.mod_add. lia. }
    rewrite E, shiftr_div by lia. pw. rewrite Z.mul_comm, Z.div_mul by lia. reflexivity.
  - rewrite shiftr_div by lia. pw. rewrite (Z.mul_comm 256 b), Z.div_add, Z.div_small by lia. reflexivity.
Qed.
Lemma quad_u8i8_ok a b sum : all4 (fun x => 0 <= x < 256) a -> all4 (fun x => -128 <= x < 128) b -> i32 sum -> sum_quad_u8i8 a b sum = swrap 32 (sum + quad_sum a b).
Proof.
  destruct a as (((a0 & a1) & a2) & a3), b as (((b0 & b1) & b2) & b3). cbn [all4]. intros (A0 & A1 & A2 & A3) (B0 & B1 & B2 & B3) S. unfold sum_quad_u8i8, quad_sum, add_. cbv zeta.
  destruct (lo8_pair a0 a1 A0 A1) as (-> & ->). destruct (lo8_pair a2 a3 A2 A3) as (-> & ->). destruct (i8_pair b0 b1 B0 B1) as (-> & ->). destruct (i8_pair b2 b3 B2 B3) as (-> & ->).
  destruct (wmpa_small a0 a2 b0 b2) as (-> & R1); try lia. destruct (wmpa_small a1 a3 b1 b3) as (-> & R2); try lia. rewrite fit_add by lia. cbn [fit]. f_equal. lia.
Qed.
Lemma bits64_ok p q : i32 p -> i32 q -> bits64 p q = wrap 32 p + 2 ^ 32 * q.
Proof.
  intros Hp Hq. unfold i32, bits64 in *. pose proof (wrap_range 32 p ltac:(lia)). apply swrap_unique; [lia|unfold in_s; pw; lia|]. pw. unfold wrap. pw.
  destruct (Z_lt_ge_dec q 0); [|rewrite (Z.mod_small q) by lia; reflexivity]. replace (q mod 4294967296) with (q + 4294967296) by (apply (Z.mod_unique_pos _ _ (-1)); lia).
  replace (p mod 4294967296 + 4294967296 * (q + 4294967296)) with (p mod 4294967296 + 4294967296 * q + 1 * 18446744073709551616) by lia. apply Z.mod_add. lia.
Qed.
Lemma bits64_lo p q : i32 p -> i32 q -> shr_ 32 (shl_ true 64 32 (bits64 p q)) = p /\ shl_ true 64 32 (bits64 p q) = 2 ^ 32 * p /\ shr_ 32 (bits64 p q) = q.
Proof.
  intros Hp Hq. rewrite bits64_ok by assumption. unfold i32, shl_, shr_ in *. cbn [fit]. pose proof (wrap_range 32 p ltac:(lia)) as R.
  assert (E : swrap 64 (Z.shiftl (wrap 32 p + 2 ^ 32 * q) 32) = 2 ^ 32 * p).
  { rewrite Z.shiftl_mul_pow2 by lia. apply swrap_unique; [lia|unfold in_s; pw; lia|]. pw. unfold wrap in *. pw. destruct (Z_lt_ge_dec p 0).
    - replace (p mod 4294967296) with (p + 4294967296) by (apply (Z.mod_unique_pos _ _ (-1)); lia). replace ((p + 4294967296 + 4294967296 * q) * 4294967296) with (4294967296 * p + (1 + q) * 18446744073709551616) by lia. apply Z.mod_add. lia.
    - rewrite (Z.mod_small p) by lia. replace ((p + 4294967296 * q) * 4294967296) with (4294967296 * p + q * 18446744073709551616) by lia. apply Z.mod_add. lia. }
  rewrite E. split; [|split; [reflexivity|]].
  - rewrite shiftr_div by lia. rewrite Z.mul_comm, Z.div_mul by lia. reflexivity.
  - rewrite shiftr_div by lia. rewrite (Z.mul_comm (2 ^ 32) q), Z.div_add, Z.div_small by lia. reflexivity.
Qed.
Definition i16 (x : Z) : Prop := -32768 <= x < 32768.
Definition i64 (x : Z) : Prop := - 2 ^ 63 <= x < 2 ^ 63.
(** clearing the upper half of the sign-extended value undoes the overflow *)
Lemma unoverflow m p : -2147418112 <= p <= 2147483648 -> m = (if p =? 2147483648 then -4294967296 else 0) ->
  andnot_ m (if p =? 2147483648 then -2147483648 else p) = p.
Proof.
  intros Hp ->. destruct (Z.eqb_spec p 2147483648) as [->|]; [reflexivity|]. unfold andnot_. change (Z.lnot 0) with (-1). apply Z.land_m1_l.
Qed.
Lemma quad_i16_ok a b sum : all4 i16 a -> all4 i16 b -> i64 sum -> sum_quad_i16 a b sum = swrap 64 (sum + quad_sum a b).
Proof.
  destruct a as (((a0 & a1) & a2) & a3), b as (((b0 & b1) & b2) & b3). unfold i16. cbn [all4]. intros (A0 & A1 & A2 & A3) (B0 & B1 & B2 & B3) S. unfold sum_quad_i16, quad_sum, add_. cbv zeta.
  destruct (wmpa_ok a0 a1 b0 b1) as (R1 & ->); try assumption. destruct (wmpa_ok a2 a3 b2 b3) as (R2 & ->); try assumption. set (p := a0 * b0 + a1 * b1) in *. set (q := a2 * b2 + a3 * b3) in *. 
  replace (p + a2 * b2 + a3 * b3) with (p + q) by (unfold q; lia). clearbody p q.
  set (P := if p =? 2147483648 then -2147483648 else p). set (Q := if q =? 2147483648 then -2147483648 else q).
  assert (IP : i32 P) by (unfold P, i32; destruct (Z.eqb_spec p 2147483648); lia). assert (IQ : i32 Q) by (unfold Q, i32; destruct (Z.eqb_spec q 2147483648); lia).
  assert (VP : vec_from_mask true 32 (P =? lowest true 32) = if p =? 2147483648 then -1 else 0). { unfold vec_from_mask, lowest, P. pw. destruct (Z.eqb_spec p 2147483648); [reflexivity|]. destruct (Z.eqb_spec p (- (2147483648))); [lia|reflexivity]. }
  assert (VQ : vec_from_mask true 32 (Q =? lowest true 32) = if q =? 2147483648 then -1 else 0). { unfold vec_from_mask, lowest, Q. pw. destruct (Z.eqb_spec q 2147483648); [reflexivity|]. destruct (Z.eqb_spec q (- (2147483648))); [lia|reflexivity]. }
  rewrite VP, VQ. destruct (bits64_lo P Q IP IQ) as (-> & _ & ->).
  set (ov := bits64 _ _). assert (M0 : shl_ true 64 32 ov = if p =? 2147483648 then -4294967296 else 0).
  { unfold ov. destruct (bits64_lo (if p =? 2147483648 then -1 else 0) (if q =? 2147483648 then -1 else 0)) as (_ & -> & _); [unfold i32; destruct (p =? 2147483648); lia|unfold i32; destruct (q =? 2147483648); lia|]. destruct (p =? 2147483648); reflexivity. }
  assert (M1 : Z.land ov (Z.lnot 0xFFFFFFFF) = if q =? 2147483648 then -4294967296 else 0). { unfold ov. destruct (p =? 2147483648), (q =? 2147483648); vm_compute; reflexivity. }
  rewrite M0, M1. unfold P, Q. rewrite !unoverflow by (try reflexivity; lia). rewrite fit_add by lia. cbn [fit]. f_equal.
Qed.
Lemma quad_u16_ok a b sum : all4 (fun x => 0 <= x < 65536) a -> all4 (fun x => 0 <= x < 65536) b -> 0 <= sum < 2 ^ 64 -> sum_quad_u16 a b sum = wrap 64 (sum + quad_sum a b).
Proof.
  destruct a as (((a0 & a1) & a2) & a3), b as (((b0 & b1) & b2) & b3). cbn [all4]. intros (A0 & A1 & A2 & A3) (B0 & B1 & B2 & B3) S. unfold sum_quad_u16, quad_sum, add_. cbv zeta.
  rewrite !(wrap_small 32) by (pw; nia). cbn [fit]. rewrite (wrap_small 64 (a0 * b0 + _)), (wrap_small 64 (a2 * b2 + _)) by (pw; nia). rewrite wrap_add_r. f_equal. lia.
Qed.
