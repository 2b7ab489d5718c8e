(** Exactness of widening conversions, and double -> half/bfloat16. *)
From Coq Require Import ZArith Bool List Lia.
From Verif Require Import Word Word_Proofs Float_Spec Float_Model Float_Proofs Float_Conv.
Local Open Scope Z_scope.

(** Dyadic numbers with few significant bits are magnitudes. *)
Lemma repr_dyadic f j p : fmt_ok f -> 0 < j -> Z.log2 j <= mbits f -> s0 f <= p ->
  let s := Z.max (Z.log2 j + p - mbits f) (s0 f) in
  s <= p /\ 0 <= (s - s0 f) * 2 ^ mbits f + j * 2 ^ (p - s) /\
  mag_value f ((s - s0 f) * 2 ^ mbits f + j * 2 ^ (p - s)) = j * 2 ^ p.
Proof.
  intros O Hj Hl Hp s. pose proof (Z.log2_nonneg j).
  assert (Hs : s <= p) by lia. split; [exact Hs|].
  pose proof (pm_pos f O) as P. destruct O as (O1 & O2 & O3).
  assert (0 < 2 ^ (p - s)) by (apply pow2_gt0; lia).
  split; [nia|].
  pose proof (Z.log2_spec j Hj) as L.
  rewrite V_grid.
  - replace (s - s0 f + s0 f) with s by lia. rewrite <- Z.mul_assoc, <- Z.pow_add_r by lia. f_equal. f_equal. lia.
  - repeat split; assumption.
  - lia.
  - split; [nia|]. apply Z.lt_le_incl.
    apply Z.lt_le_trans with (2 ^ Z.succ (Z.log2 j) * 2 ^ (p - s)); [nia|].
    rewrite <- Z.pow_add_r by lia. change (2 * 2 ^ mbits f) with (2 ^ 1 * 2 ^ mbits f).
    rewrite <- Z.pow_add_r by lia. apply Z.pow_le_mono_r; lia.
  - intros. apply Z.le_trans with (2 ^ Z.log2 j * 2 ^ (p - s)); [|nia].
    rewrite <- Z.pow_add_r by lia. apply Z.pow_le_mono_r; lia.
Qed.

Lemma round_repr f j p : fmt_ok f -> 0 <= j -> (0 < j -> Z.log2 j <= mbits f) -> s0 f <= p ->
  j * 2 ^ p <= mag_value f (inf_mag f) ->
  mag_value f (ieee_round f (j * 2 ^ p)) = j * 2 ^ p.
Proof.
  intros O Hj Hl Hp Hv. destruct (Z.eq_dec j 0) as [->|N].
  - rewrite Z.mul_0_l. assert (Z0 : ieee_round f 0 = 0).
    { rewrite <- (V_0 f O) at 1. apply ieee_round_exact; [exact O|]. pose proof (inf_pos f O). pose proof (pm_pos f O). lia. }
    rewrite Z0. apply V_0; exact O.
  - destruct (repr_dyadic f j p O ltac:(lia) ltac:(lia) Hp) as (R1 & R2 & R3).
    set (q := _ * 2 ^ mbits f + _) in *. assert (Q : ieee_round f (j * 2 ^ p) = q); [|rewrite Q; exact R3].
    rewrite <- R3. apply ieee_round_exact; [exact O|]. split; [exact R2|].
    destruct (Z.le_gt_cases q (inf_mag f)); [assumption|exfalso].
    pose proof (V_mono_lt f O (inf_mag f) q). pose proof (inf_pos f O). pose proof (pm_pos f O). lia.
Qed.

Lemma nearest_le f v r z : fmt_ok f -> nearest_even f v r -> 0 <= z <= inf_mag f -> v <= mag_value f z ->
  mag_value f r <= mag_value f z.
Proof.
  intros O (R & N) Hz Hv. destruct (Z.eq_dec z r) as [->|Ne]; [lia|].
  specialize (N z Hz Ne). lia.
Qed.
Lemma nearest_ge f v r z : fmt_ok f -> nearest_even f v r -> 0 <= z <= inf_mag f -> mag_value f z <= v ->
  mag_value f z <= mag_value f r.
Proof.
  intros O (R & N) Hz Hv. destruct (Z.eq_dec z r) as [->|Ne]; [lia|].
  specialize (N z Hz Ne). lia.
Qed.

(** --- widening --- *)
Lemma value_eq f g b r : negative g r = negative f b ->
  mag_value g (magnitude g r) = mag_value f (magnitude f b) -> value g r = value f b.
Proof. intros H1 H2. unfold value. rewrite H1, H2. reflexivity. Qed.

Lemma f32_from_bf16_exact b : is_pattern bfloat16 b ->
  exact_conversion bfloat16 binary32 b (f32_from_bf16 b).
Proof.
  intros Hb. destruct (pat_split bfloat16 b okb16 Hb) as (s & Hs & E & Hn & Hm).
  change (ebits bfloat16 + mbits bfloat16) with 15 in *.
  set (x := magnitude bfloat16 b) in *.
  assert (Er : f32_from_bf16 b = s * 2 ^ 31 + x * 2 ^ 16).
  { unfold f32_from_bf16. rewrite Z.shiftl_mul_pow2 by lia. rewrite wrap_small by lia. lia. }
  rewrite Er.
  destruct (pat_make binary32 s (x * 2 ^ 16) ok32 Hs ltac:(change (ebits binary32 + mbits binary32) with 31; lia)) as (M1 & M2 & M3).
  change (ebits binary32 + mbits binary32) with 31 in *.
  unfold exact_conversion, is_nan, is_inf. rewrite M2, M3, Hn. fold x.
  change (inf_mag binary32) with (32640 * 2 ^ 16). change (inf_mag bfloat16) with 32640.
  split; [exact M1|]. split; [reflexivity|]. split; [lia|]. split; [lia|]. intros Hx. split; [lia|].
  apply value_eq; [rewrite M2, Hn; reflexivity|]. rewrite M3. fold x.
  destruct (sig_exp_of bfloat16 x okb16 ltac:(lia)) as (t & k & E2 & Ht & Hk & Hk2 & EV). rewrite EV.
  change (mbits bfloat16) with 7 in *.
  replace (x * 2 ^ 16) with (t * 2 ^ mbits binary32 + k * 2 ^ 16) by (change (mbits binary32) with 23; lia).
  rewrite V_grid; [|apply ok32|lia|change (mbits binary32) with 23; lia|change (mbits binary32) with 23; lia].
  change (s0 bfloat16) with 941. change (s0 binary32) with 925.
  rewrite <- Z.mul_assoc, <- Z.pow_add_r by lia. f_equal. f_equal. lia.
Qed.

Lemma V32_le_inf j p : 0 <= j < 2 ^ 24 -> 0 <= p <= 1178 -> j * 2 ^ p <= mag_value binary32 (inf_mag binary32).
Proof.
  intros Hj Hp. apply Z.le_trans with (2 ^ 24 * 2 ^ 1178).
  - apply Z.mul_le_mono_nonneg; [lia|lia|apply Z.lt_le_incl, pow2_gt0; lia|apply Z.pow_le_mono_r; lia].
  - vm_compute. discriminate.
Qed.

Lemma log2_small j n : 0 < j < 2 ^ n -> 0 < n -> Z.log2 j <= n - 1.
Proof. intros H Hn. pose proof (Z.log2_lt_pow2 j n ltac:(lia)). lia. Qed.

Lemma f32_mul_pow2 a c j p q : mag_value binary32 a = j * 2 ^ p -> mag_value binary32 c = 2 ^ q ->
  0 <= j < 2 ^ 24 -> 0 <= p -> 0 <= q -> 925 <= p + q - 1074 <= 1178 ->
  mag_value binary32 (f32_mul_mag a c) = j * 2 ^ (p + q - 1074) /\ 0 <= f32_mul_mag a c <= inf_mag binary32.
Proof.
  intros Ha Hc Hj Hp Hq Hpq. unfold f32_mul_mag. rewrite Ha, Hc.
  assert (Ev : j * 2 ^ p * 2 ^ q / 2 ^ 1074 = j * 2 ^ (p + q - 1074)).
  { rewrite <- Z.mul_assoc, <- Z.pow_add_r by lia.
    replace (p + q) with (p + q - 1074 + 1074) at 1 by lia. rewrite (Z.pow_add_r 2 (p + q - 1074)) by lia.
    rewrite Z.mul_assoc, Z.div_mul; [reflexivity|apply Z.pow_nonzero; lia]. }
  rewrite Ev.
  assert (0 < 2 ^ (p + q - 1074)) by (apply pow2_gt0; lia).
  split; [|apply ieee_round_range; [apply ok32|nia]].
  apply round_repr; [apply ok32|lia| |change (s0 binary32) with 925; lia|apply V32_le_inf; lia].
  intros. change (mbits binary32) with 23. apply (log2_small j 24); lia.
Qed.

Lemma f32_mul_comm a b : f32_mul_mag a b = f32_mul_mag b a.
Proof. unfold f32_mul_mag. rewrite Z.mul_comm. reflexivity. Qed.

Lemma f32_sub16 j : 0 <= j < 2 ^ 10 ->
  let r := f32_mul_mag 0x38800000 (f32_mul_mag (f32_of_uint j) 0x3A800000) in
  mag_value binary32 r = j * 2 ^ 1050 /\ 0 <= r <= inf_mag binary32.
Proof.
  intros Hj. cbv zeta.
  assert (A : mag_value binary32 (f32_of_uint j) = j * 2 ^ 1074).
  { unfold f32_of_uint. apply round_repr; [apply ok32|lia| |change (s0 binary32) with 925; lia|apply V32_le_inf; lia].
    intros. change (mbits binary32) with 23. apply (log2_small j 24); lia. }
  destruct (f32_mul_pow2 (f32_of_uint j) 0x3A800000 j 1074 1064 A ltac:(vm_compute; reflexivity) ltac:(lia) ltac:(lia) ltac:(lia) ltac:(lia)) as (B & _).
  change (1074 + 1064 - 1074) with 1064 in B.
  destruct (f32_mul_pow2 (f32_mul_mag (f32_of_uint j) 0x3A800000) 0x38800000 j 1064 1060 B ltac:(vm_compute; reflexivity) ltac:(lia) ltac:(lia) ltac:(lia) ltac:(lia)) as (C & R).
  change (1064 + 1060 - 1074) with 1050 in C.
  rewrite (f32_mul_comm 0x38800000). split; [exact C|exact R].
Qed.

Lemma V16_sub j : 0 <= j <= 2 ^ 10 -> mag_value binary16 j = j * 2 ^ 1050.
Proof.
  intros Hj. pose proof (V_grid binary16 ok16 0 j ltac:(lia) ltac:(change (mbits binary16) with 10; lia) ltac:(lia)) as H.
  rewrite Z.mul_0_l, !Z.add_0_l in H. exact H.
Qed.

Lemma f32_from_f16_exact b : is_pattern binary16 b ->
  exact_conversion binary16 binary32 b (f32_from_f16 b).
Proof.
  intros Hb. destruct (pat_split binary16 b ok16 Hb) as (s & Hs & E & Hn & Hm).
  change (ebits binary16 + mbits binary16) with 15 in *.
  set (x := magnitude binary16 b) in *.
  pose proof (Z.div_mod x (2 ^ 10) ltac:(lia)) as D. pose proof (Z.mod_pos_bound x (2 ^ 10) ltac:(lia)) as B.
  set (e := x / 2 ^ 10) in *. set (f := x mod 2 ^ 10) in *.
  assert (He : 0 <= e < 32) by lia.
  assert (Er : exists r, f32_from_f16 b = s * 2 ^ 31 + r /\ 0 <= r < 2 ^ 31 /\
    (inf_mag binary16 < x -> inf_mag binary32 < r) /\ (x = inf_mag binary16 -> r = inf_mag binary32) /\
    (x < inf_mag binary16 -> r < inf_mag binary32 /\ mag_value binary32 r = mag_value binary16 x)).
  { unfold f32_from_f16.
    assert (A1 : Z.shiftr b 15 = s) by (rewrite shiftr_div by lia; symmetry; apply Z.div_unique with x; lia).
    assert (A2 : Z.land (Z.shiftr b 10) 31 = e).
    { rewrite shiftr_div by lia. rewrite (land_mod _ 5) by (reflexivity || lia).
      replace (b / 2 ^ 10) with (s * 2 ^ 5 + e) by (apply Z.div_unique with f; lia). symmetry; apply Z.mod_unique with s; lia. }
    assert (A3 : Z.land b 1023 = f) by (rewrite (land_mod _ 10) by (reflexivity || lia); symmetry; apply Z.mod_unique with (s * 2 ^ 5 + e); lia).
    cbv zeta. rewrite A1, A2, A3.
    change (inf_mag binary16) with (31 * 2 ^ 10). change (inf_mag binary32) with (255 * 2 ^ 23).
    destruct (Z.eqb_spec e 0) as [Z0|Z0].
    - destruct (f32_sub16 f B) as (R1 & R2). set (r := f32_mul_mag _ _) in *.
      change (inf_mag binary32) with (255 * 2 ^ 23) in R2.
      assert (Rlt : r < 255 * 2 ^ 23).
      { destruct (Z.eq_dec r (255 * 2 ^ 23)) as [Er|]; [exfalso|lia]. rewrite Er in R1.
        assert (f * 2 ^ 1050 <= 2 ^ 10 * 2 ^ 1050) by (apply Z.mul_le_mono_nonneg_r; [apply Z.lt_le_incl, pow2_gt0|]; lia).
        rewrite <- R1 in H. revert H. vm_compute. intros H; apply H; reflexivity. }
      exists r. split; [|split; [lia|]; split; [lia|]; split; [lia|]; intros _; split; [exact Rlt|]].
      + destruct Hs; subst s; cbn [Z.eqb negb]; [lia|].
        rewrite lor_bit_cases by lia. rewrite (testbit_small r 31 31) by lia. lia.
      + rewrite R1. replace x with f by lia. symmetry. apply V16_sub. lia.
    - destruct (Z.eqb_spec e 31) as [Z1|Z1].
      + exists (255 * 2 ^ 23 + f * 2 ^ 13). split; [|lia].
        rewrite !Z.shiftl_mul_pow2 by lia. change (23 - 10) with 13. rewrite !wrap_small by lia.
        rewrite lor_shift_add by lia. replace (s * 2 ^ 31 + 255 * 2 ^ 23) with ((s * 2 ^ 8 + 255) * 2 ^ 23) by lia.
        rewrite lor_shift_add by lia. lia.
      + exists ((e + 112) * 2 ^ 23 + f * 2 ^ 13). split.
        { rewrite !Z.shiftl_mul_pow2 by lia. change (23 - 10) with 13. change (127 - 15) with 112.
          rewrite (wrap_small 32 (e + 112)) by lia. rewrite !wrap_small by lia.
          rewrite lor_shift_add by lia. replace (s * 2 ^ 31 + (e + 112) * 2 ^ 23) with ((s * 2 ^ 8 + (e + 112)) * 2 ^ 23) by lia.
          rewrite lor_shift_add by lia. lia. }
        split; [lia|]. split; [lia|]. split; [lia|]. intros _. split; [lia|].
        rewrite V32_ef by lia.
        replace x with ((e - 1) * 2 ^ mbits binary16 + (f + 2 ^ 10)) by (change (mbits binary16) with 10; lia).
        rewrite V_grid; [|apply ok16|lia|change (mbits binary16) with 10; lia|change (mbits binary16) with 10; lia].
        change (s0 binary16) with 1050.
        replace (f * 2 ^ 13 + 2 ^ 23) with ((f + 2 ^ 10) * 2 ^ 13) by lia.
        rewrite <- Z.mul_assoc, <- Z.pow_add_r by lia. f_equal. f_equal. lia. }
  destruct Er as (r & -> & Rr & R1 & R2 & R3).
  destruct (pat_make binary32 s r ok32 Hs Rr) as (M1 & M2 & M3).
  change (ebits binary32 + mbits binary32) with 31 in *.
  unfold exact_conversion, is_nan, is_inf. rewrite M2, M3, Hn. fold x.
  split; [exact M1|]. split; [reflexivity|]. split; [exact R1|]. split; [exact R2|]. intros Hx. destruct (R3 Hx) as (R4 & R5).
  split; [exact R4|]. apply value_eq; [rewrite M2, Hn; reflexivity|]. rewrite M3. exact R5.
Qed.

(** A correctly rounded narrowing undoes an exact widening. *)
Lemma value_mag f g b r : fmt_ok f -> fmt_ok g -> is_pattern f b -> is_pattern g r ->
  negative g r = negative f b -> value g r = value f b -> mag_value g (magnitude g r) = mag_value f (magnitude f b).
Proof. intros _ _ _ _ H. unfold value. rewrite H. destruct (negative f b); lia. Qed.

Lemma round_trip f g b r b' : fmt_ok f -> fmt_ok g -> is_pattern f b -> magnitude f b <= inf_mag f ->
  exact_conversion f g b r -> correct_conversion g f r b' -> b' = b.
Proof.
  intros Of Og Hb Hm (X1 & X2 & X3 & X4 & X5) (C1 & C2 & C3 & C4 & C5).
  destruct (pat_split f b Of Hb) as (s & Hs & E & Hn & Hr).
  destruct (pat_split f b' Of C1) as (s' & Hs' & E' & Hn' & Hr').
  assert (s' = s).
  { rewrite X2, Hn, Hn' in C2. destruct Hs as [->| ->], Hs' as [->| ->]; try reflexivity; discriminate. }
  assert (magnitude f b' = magnitude f b); [|congruence].
  destruct (Z.eq_dec (magnitude f b) (inf_mag f)) as [I|I].
  - rewrite I. apply C4, X4. exact I.
  - destruct (X5 ltac:(lia)) as (Y1 & Y2). specialize (C5 Y1).
    rewrite (value_mag f g b r Of Og Hb X1 X2 Y2) in C5.
    apply (nearest_unique f Of (mag_value f (magnitude f b))); [exact C5|]. apply nearest_exact; [exact Of|lia].
Qed.

(** --- round to odd --- *)
Definition rto (n b : Z) : Z :=
  Z.lor (Z.land b (2 ^ 64 - 2 ^ n)) (Z.land (wrap 64 (b + (2 ^ n - 1))) (2 ^ n)).
Definition odd_mag (n x : Z) : Z :=
  (if x mod 2 ^ n =? 0 then x / 2 ^ n else if Z.odd (x / 2 ^ n) then x / 2 ^ n else x / 2 ^ n + 1) * 2 ^ n.

Lemma land_high b n : 0 <= n <= 64 -> 0 <= b < 2 ^ 64 -> Z.land b (2 ^ 64 - 2 ^ n) = b / 2 ^ n * 2 ^ n.
Proof.
  intros Hn Hb. apply Z.bits_inj'. intros k Hk. rewrite Z.land_spec.
  assert (P : 0 < 2 ^ n) by (apply pow2_gt0; lia).
  replace (2 ^ 64 - 2 ^ n) with ((2 ^ (64 - n) - 1) * 2 ^ n).
  2:{ rewrite Z.mul_sub_distr_r, <- Z.pow_add_r by lia. replace (64 - n + n) with 64 by lia. lia. }
  destruct (Z.lt_ge_cases k n).
  - rewrite !Z.mul_pow2_bits_low by lia. apply andb_false_r.
  - rewrite !Z.mul_pow2_bits by lia. rewrite <- shiftr_div by lia. rewrite Z.shiftr_spec by lia. replace (k - n + n) with k by lia.
    destruct (Z.lt_ge_cases k 64).
    + rewrite Z.sub_1_r. rewrite <- Z.ones_equiv, Z.ones_spec_low by lia. apply andb_true_r.
    + rewrite (testbit_small b 64 k) by lia. reflexivity.
Qed.

Lemma land_bit w n : 0 <= n -> Z.land w (2 ^ n) = if Z.testbit w n then 2 ^ n else 0.
Proof.
  intros Hn. apply Z.bits_inj'. intros k Hk. rewrite Z.land_spec.
  destruct (Z.eq_dec k n) as [->|N].
  - rewrite Z.pow2_bits_true by lia. destruct (Z.testbit w n) eqn:T; rewrite ?T; [rewrite Z.pow2_bits_true by lia; reflexivity|rewrite Z.bits_0; reflexivity].
  - rewrite Z.pow2_bits_false by lia. rewrite andb_false_r. destruct (Z.testbit w n); [rewrite Z.pow2_bits_false by lia|rewrite Z.bits_0]; reflexivity.
Qed.

Lemma rto_eq n s x : 0 < n < 63 -> (s = 0 \/ s = 1) -> 0 <= x < 2 ^ 63 ->
  rto n (s * 2 ^ 63 + x) = s * 2 ^ 63 + odd_mag n x /\ 0 <= odd_mag n x < 2 ^ 63.
Proof.
  intros Hn Hs Hx. unfold rto, odd_mag.
  assert (P : 0 < 2 ^ n) by (apply pow2_gt0; lia).
  assert (P2 : 0 < 2 ^ (62 - n)) by (apply pow2_gt0; lia).
  assert (E63 : 2 ^ 63 = 2 ^ (62 - n) * 2 * 2 ^ n).
  { replace 63 with (62 - n + 1 + n) by lia. rewrite !Z.pow_add_r by lia. rewrite Z.pow_1_r. replace (62 - n + 1 + n - 1 - n) with (62 - n) by lia. reflexivity. }
  set (b := s * 2 ^ 63 + x). assert (Hb : 0 <= b < 2 ^ 64) by (unfold b; lia).
  rewrite land_high, land_bit by lia.
  pose proof (Z.div_mod x (2 ^ n) ltac:(lia)) as D. pose proof (Z.mod_pos_bound x (2 ^ n) ltac:(lia)) as B.
  set (y := x / 2 ^ n) in *. set (rem := x mod 2 ^ n) in *.
  assert (Hy : 0 <= y < 2 ^ (62 - n) * 2) by (unfold y; split; [apply Z.div_pos; lia|apply Z.div_lt_upper_bound; lia]).
  assert (Y : b / 2 ^ n = s * (2 ^ (62 - n) * 2) + y) by (symmetry; apply Z.div_unique with rem; [lia|unfold b; rewrite E63; lia]).
  set (Y' := s * (2 ^ (62 - n) * 2) + y) in *.
  assert (OY : Z.odd Y' = Z.odd y).
  { unfold Y'. rewrite Z.odd_add, Z.mul_assoc, Z.odd_mul. change (Z.odd 2) with false. rewrite andb_false_r. destruct (Z.odd y); reflexivity. }
  assert (T : Z.testbit (wrap 64 (b + (2 ^ n - 1))) n = Z.odd (if rem =? 0 then y else y + 1)).
  { unfold wrap. rewrite Z.mod_pow2_bits_low by lia. rewrite Z.testbit_odd, shiftr_div by lia.
    assert (((b + (2 ^ n - 1)) / 2 ^ n) = Y' + if rem =? 0 then 0 else 1) as ->.
    { pose proof (Z.div_mod b (2 ^ n) ltac:(lia)) as Db. rewrite Y in Db.
      assert (Hbm : b mod 2 ^ n = rem).
      { unfold b, rem. rewrite E63. replace (s * (2 ^ (62 - n) * 2 * 2 ^ n) + x) with (x + s * (2 ^ (62 - n) * 2) * 2 ^ n) by lia.
        apply Z.mod_add. lia. }
      rewrite Hbm in Db. destruct (Z.eqb_spec rem 0).
      - symmetry; apply Z.div_unique with (2 ^ n - 1); lia.
      - symmetry; apply Z.div_unique with (rem - 1); lia. }
    rewrite Z.odd_add, OY. destruct (rem =? 0); [rewrite xorb_false_r; reflexivity|]. rewrite (Z.odd_add y 1). reflexivity. }
  rewrite T, Y.
  assert (TB : Z.testbit (Y' * 2 ^ n) n = Z.odd y).
  { rewrite Z.mul_pow2_bits by lia. rewrite Z.sub_diag, Z.bit0_odd. exact OY. }
  assert (EY : Y' * 2 ^ n = s * 2 ^ 63 + y * 2 ^ n) by (unfold Y'; rewrite E63; lia).
  destruct (Z.eqb_spec rem 0) as [R0|R0].
  - split; [|nia]. destruct (Z.odd y) eqn:Oy; [rewrite lor_bit_cases, TB by lia|rewrite Z.lor_0_r]; exact EY.
  - replace (Z.odd (y + 1)) with (negb (Z.odd y)) by (rewrite Z.odd_add; destruct (Z.odd y); reflexivity).
    destruct (Z.odd y) eqn:Oy; cbn [negb].
    + rewrite Z.lor_0_r. split; [exact EY|nia].
    + rewrite lor_bit_cases, TB by lia. split; [lia|].
      assert (y + 1 < 2 ^ (62 - n) * 2); [|nia].
      assert (y <> 2 ^ (62 - n) * 2 - 1); [|lia].
      intro C. rewrite C in Oy. rewrite Z.odd_sub, Z.odd_mul in Oy. change (Z.odd 2) with false in Oy. rewrite andb_false_r in Oy. discriminate.
Qed.

Lemma odd_mag_compare n x q : 0 <= n -> 0 <= x -> q mod (2 * 2 ^ n) = 0 -> (odd_mag n x ?= q) = (x ?= q).
Proof.
  intros Hn Hx Hq. unfold odd_mag. assert (P : 0 < 2 ^ n) by (apply pow2_gt0; lia).
  pose proof (Z.div_mod q (2 * 2 ^ n) ltac:(lia)) as Dq. rewrite Hq in Dq. set (c := q / (2 * 2 ^ n)) in *.
  pose proof (Z.div_mod x (2 ^ n) ltac:(lia)) as D. pose proof (Z.mod_pos_bound x (2 ^ n) ltac:(lia)) as B.
  set (y := x / 2 ^ n) in *. set (rem := x mod 2 ^ n) in *. set (h := 2 ^ n) in *.
  destruct (Z.eqb_spec rem 0) as [R0|R0]; [f_equal; lia|].
  pose proof (Zodd_mod y) as _. pose proof (Z.div_mod y 2 ltac:(lia)) as Dy. pose proof (Zmod_odd y) as Oy.
  destruct (Z.odd y).
  - assert (C : y < 2 * c \/ 2 * c < y) by lia. destruct C as [C|C].
    + transitivity Lt; [|symmetry]; apply Z.compare_lt_iff; nia.
    + transitivity Gt; [|symmetry]; apply Z.compare_gt_iff; nia.
  - assert (C : y < 2 * c - 1 \/ 2 * c <= y) by lia. destruct C as [C|C].
    + transitivity Lt; [|symmetry]; apply Z.compare_lt_iff; nia.
    + transitivity Gt; [|symmetry]; apply Z.compare_gt_iff; nia.
Qed.

Lemma odd_mag_mult n x : 0 <= n -> odd_mag n x mod 2 ^ n = 0.
Proof. intros. unfold odd_mag. apply Z.mod_mul. apply Z.pow_nonzero; lia. Qed.

(** --- double -> g, through round-to-odd and float --- *)
Section Odd.
Variables (g : fmt) (n : Z).
Hypothesis Og : fmt_ok g.
Hypothesis Hn : 29 <= n < 52.
Hypothesis H1 : mbits g + 1 + (n + 1) <= 52.
Hypothesis H2 : n + 2 <= s0 g.
Hypothesis H4 : 978 - n < s0 g.
Hypothesis H5 : mag_value g (inf_mag g) <= mag_value binary32 (inf_mag binary32).

Lemma mid2_repr k : 0 <= k -> exists q, 0 <= q /\ q mod (2 * 2 ^ n) = 0 /\ mid2 g k = 2 * mag_value binary64 q.
Proof.
  intros Hk. destruct (sig_exp_of g k Og Hk) as (t & j & E & Ht & Hj & Hj2 & EV).
  assert (M : mid2 g k = (2 * j + 1) * 2 ^ (t + s0 g)).
  { unfold mid2. rewrite EV. rewrite E. rewrite <- Z.add_assoc, V_grid by (assumption || lia). lia. }
  assert (L : Z.log2 (2 * j + 1) <= mbits g + 1).
  { pose proof (log2_small (2 * j + 1) (mbits g + 2)) as L.
    destruct Og as (_ & O2 & _). assert (2 ^ (mbits g + 2) = 4 * 2 ^ mbits g).
    { rewrite Z.pow_add_r by lia. change (2 ^ 2) with 4. lia. } lia. }
  destruct (repr_dyadic binary64 (2 * j + 1) (t + s0 g - 1) ok64 ltac:(lia) ltac:(change (mbits binary64) with 52; lia) ltac:(change (s0 binary64) with 0; lia))
    as (R1 & R2 & R3).
  set (s := Z.max _ _) in *.
  change (s0 binary64) with 0 in *. change (mbits binary64) with 52 in *.
  eexists. split; [exact R2|]. split.
  - assert (E52 : 2 ^ 52 = 2 ^ (51 - n) * (2 * 2 ^ n)).
    { replace 52 with (51 - n + (1 + n)) by lia. rewrite !Z.pow_add_r by lia. rewrite Z.pow_1_r. reflexivity. }
    assert (Eps : 2 ^ (t + s0 g - 1 - s) = 2 ^ (t + s0 g - 1 - s - (n + 1)) * (2 * 2 ^ n)).
    { set (d := t + s0 g - 1 - s) in *. assert (0 <= d - (n + 1)) by lia. replace d with (d - (n + 1) + (1 + n)) at 1 by lia. rewrite !Z.pow_add_r by lia. rewrite Z.pow_1_r. reflexivity. }
    rewrite E52, Eps.
    replace ((s - 0) * (2 ^ (51 - n) * (2 * 2 ^ n)) + (2 * j + 1) * (2 ^ (t + s0 g - 1 - s - (n + 1)) * (2 * 2 ^ n)))
      with (((s - 0) * 2 ^ (51 - n) + (2 * j + 1) * 2 ^ (t + s0 g - 1 - s - (n + 1))) * (2 * 2 ^ n)) by ring.
    apply Z.mod_mul. assert (0 < 2 ^ n) by (apply pow2_gt0; lia). lia.
  - rewrite R3, M. replace (t + s0 g) with (1 + (t + s0 g - 1)) at 1 by lia.
    rewrite (Z.pow_add_r 2 1) by lia. change (2 ^ 1) with 2. ring.
Qed.

Lemma V64_32_compare x k : 0 <= x < inf_mag binary64 -> 0 <= k < inf_mag g ->
  let c := ieee_round binary32 (mag_value binary64 (odd_mag n x)) in
  0 <= odd_mag n x < inf_mag binary64 /\
  (2 * mag_value binary32 c ?= mid2 g k) = (2 * mag_value binary64 x ?= mid2 g k).
Proof.
  intros Hx Hk c. assert (P : 0 < 2 ^ n) by (apply pow2_gt0; lia).
  assert (O0 : 0 <= odd_mag n x).
  { unfold odd_mag. assert (0 <= x / 2 ^ n) by (apply Z.div_pos; lia).
    destruct (x mod 2 ^ n =? 0); [nia|]. destruct (Z.odd (x / 2 ^ n)); nia. }
  assert (OI : odd_mag n x < inf_mag binary64).
  { apply (proj1 (Z.compare_lt_iff _ _)). rewrite odd_mag_compare; [apply Z.compare_lt_iff; lia|lia|lia|].
    change (inf_mag binary64) with (2047 * 2 ^ 52). replace (2 ^ 52) with (2 ^ (51 - n) * (2 * 2 ^ n)).
    - rewrite Z.mul_assoc. apply Z.mod_mul. lia.
    - replace 52 with (51 - n + (1 + n)) by lia. rewrite (Z.pow_add_r 2 (51 - n)), (Z.pow_add_r 2 1) by lia. rewrite Z.pow_1_r. reflexivity. }
  split; [lia|].
  set (o := odd_mag n x) in *.
  assert (S1 : (2 * mag_value binary64 x ?= mid2 g k) = (2 * mag_value binary64 o ?= mid2 g k)).
  { destruct (mid2_repr k ltac:(lia)) as (q & Q0 & Q1 & Q2). rewrite Q2.
    assert (M : forall a, 0 <= a -> (2 * mag_value binary64 a ?= 2 * mag_value binary64 q) = (a ?= q)).
    { intros a Ha. destruct (Z.compare_spec a q) as [->|C|C].
      - apply Z.compare_refl.
      - apply Z.compare_lt_iff. pose proof (V_mono_lt binary64 ok64 a q). lia.
      - apply Z.compare_gt_iff. pose proof (V_mono_lt binary64 ok64 q a). lia. }
    rewrite !M by lia. symmetry. apply odd_mag_compare; lia. }
  rewrite S1. clear S1.
  assert (V0o : 0 <= mag_value binary64 o) by (apply V_nonneg; [apply ok64|lia]).
  pose proof (ieee_round_nearest binary32 ok32 _ V0o) as N. fold c in N.
  destruct (sig_exp_of binary64 o ok64 O0) as (t & j & E & Ht & Hj & Hj2 & EV).
  change (mbits binary64) with 52 in *. change (s0 binary64) with 0 in EV. rewrite Z.add_0_r in EV.
  assert (Jm : j mod 2 ^ n = 0).
  { pose proof (odd_mag_mult n x ltac:(lia)) as Om. fold o in Om. rewrite E in Om.
    replace (2 ^ 52) with (2 ^ (52 - n) * 2 ^ n) in Om by (rewrite <- Z.pow_add_r by lia; f_equal; lia).
    rewrite Z.mul_assoc, Z.add_comm, Z.mod_add in Om by lia. exact Om. }
  pose proof (Z.div_mod j (2 ^ n) ltac:(lia)) as Dj. rewrite Jm, Z.add_0_r in Dj.
  set (h := j / 2 ^ n) in *.
  assert (Hh : 0 <= h < 2 ^ 24).
  { unfold h. split; [apply Z.div_pos; lia|]. apply Z.div_lt_upper_bound; [lia|].
    assert (2 ^ 29 <= 2 ^ n) by (apply Z.pow_le_mono_r; lia). lia. }
  assert (EV' : mag_value binary64 o = h * 2 ^ (t + n)).
  { rewrite EV, Dj. rewrite Z.pow_add_r by lia. ring. }
  destruct (Z.lt_ge_cases (t + n) 925) as [C|C].
  - (* below the float grid: far below the first midpoint *)
    assert (B1 : mag_value binary64 o <= 2 ^ (977 - n)).
    { rewrite EV. apply Z.le_trans with (2 ^ 53 * 2 ^ (924 - n)).
      - apply Z.mul_le_mono_nonneg; [lia|lia|apply Z.lt_le_incl, pow2_gt0; lia|apply Z.pow_le_mono_r; lia].
      - rewrite <- Z.pow_add_r by lia. apply Z.pow_le_mono_r; lia. }
    assert (Vz : mag_value binary32 (2 ^ (52 - n)) = 2 ^ (977 - n)).
    { pose proof (V_grid binary32 ok32 0 (2 ^ (52 - n)) ltac:(lia)) as G. change (mbits binary32) with 23 in G.
      rewrite Z.mul_0_l, !Z.add_0_l in G. rewrite G.
      - change (s0 binary32) with 925. rewrite <- Z.pow_add_r by lia. f_equal. lia.
      - split; [apply Z.lt_le_incl, pow2_gt0; lia|]. change (2 * 2 ^ 23) with (2 ^ 24). apply Z.pow_le_mono_r; lia.
      - lia. }
    assert (B2 : mag_value binary32 c <= 2 ^ (977 - n)).
    { rewrite <- Vz. apply (nearest_le binary32 _ c _ ok32 N).
      - split; [apply Z.lt_le_incl, pow2_gt0; lia|]. apply Z.le_trans with (2 ^ 23); [apply Z.pow_le_mono_r; lia|vm_compute; discriminate].
      - rewrite Vz. exact B1. }
    assert (B3 : 2 * 2 ^ (977 - n) < mid2 g k).
    { eapply Z.lt_le_trans; [|apply (mid2_mono g Og 0 k); lia].
      unfold mid2. rewrite (V_0 g Og), !Z.add_0_l.
      pose proof (V_grid g Og 0 1 ltac:(lia)) as G. rewrite Z.mul_0_l, !Z.add_0_l, Z.mul_1_l in G.
      pose proof (pm_pos g Og). rewrite G by lia.
      rewrite <- (Z.pow_succ_r 2 (977 - n)) by lia. apply Z.pow_lt_mono_r; lia. }
    transitivity Lt; [|symmetry]; apply Z.compare_lt_iff; lia.
  - destruct (Z.le_gt_cases (mag_value binary64 o) (mag_value binary32 (inf_mag binary32))) as [L|L].
    + (* exact *)
      unfold c. rewrite EV' in L |- *. rewrite round_repr; [reflexivity|apply ok32|lia| |change (s0 binary32) with 925; lia|exact L].
      intros. change (mbits binary32) with 23. apply (log2_small h 24); lia.
    + (* above every midpoint *)
      assert (B2 : mag_value binary32 (inf_mag binary32) <= mag_value binary32 c).
      { apply (nearest_ge binary32 _ c _ ok32 N); [vm_compute; split; discriminate|lia]. }
      assert (B3 : mid2 g k < 2 * mag_value g (inf_mag g)).
      { unfold mid2. pose proof (V_mono_lt g Og k (inf_mag g) ltac:(lia) ltac:(lia)).
        pose proof (V_mono g Og (k + 1) (inf_mag g) ltac:(lia) ltac:(lia)). lia. }
      transitivity Gt; [|symmetry]; apply Z.compare_gt_iff; lia.
Qed.

Lemma odd_mag_nan x : 0 <= x -> (inf_mag binary64 < x -> inf_mag binary64 < odd_mag n x) /\
  (x = inf_mag binary64 -> odd_mag n x = inf_mag binary64).
Proof.
  intros Hx. assert (P : 0 < 2 ^ n) by (apply pow2_gt0; lia).
  assert (D : inf_mag binary64 mod (2 * 2 ^ n) = 0).
  { change (inf_mag binary64) with (2047 * 2 ^ 52). replace (2 ^ 52) with (2 ^ (51 - n) * (2 * 2 ^ n)).
    - rewrite Z.mul_assoc. apply Z.mod_mul. lia.
    - replace 52 with (51 - n + (1 + n)) by lia. rewrite (Z.pow_add_r 2 (51 - n)), (Z.pow_add_r 2 1) by lia. rewrite Z.pow_1_r. reflexivity. }
  pose proof (odd_mag_compare n x (inf_mag binary64) ltac:(lia) Hx D) as C.
  split; intros H.
  - apply (proj1 (Z.compare_gt_iff _ _)). rewrite C. apply Z.compare_gt_iff. exact H.
  - apply (proj1 (Z.compare_eq_iff _ _)). rewrite C. apply Z.compare_eq_iff. exact H.
Qed.

Lemma f32_of_f64_eq nan s x : (s = 0 \/ s = 1) -> 0 <= x < 2 ^ 63 ->
  (forall b, is_nan binary64 b -> 0 < nan b < 2 ^ 23) ->
  exists c, f32_of_f64 nan (s * 2 ^ 63 + x) = s * 2 ^ 31 + c /\ 0 <= c < 2 ^ 31 /\
    (inf_mag binary64 < x -> inf_mag binary32 < c) /\ (x = inf_mag binary64 -> c = inf_mag binary32) /\
    (x < inf_mag binary64 -> c = ieee_round binary32 (mag_value binary64 x)).
Proof.
  intros Hs Hx Hnan. unfold f32_of_f64.
  destruct (pat_make binary64 s x ok64 Hs Hx) as (M1 & M2 & M3). change (ebits binary64 + mbits binary64) with 63 in *.
  assert (A1 : Z.shiftr (s * 2 ^ 63 + x) 63 = s) by (rewrite shiftr_div by lia; symmetry; apply Z.div_unique with x; lia).
  assert (A2 : wrap 63 (s * 2 ^ 63 + x) = x) by exact M3.
  cbv zeta. rewrite A1, A2. rewrite Z.shiftl_mul_pow2 by lia.
  exists (if inf_mag binary64 <? x then inf_mag binary32 + nan (s * 2 ^ 63 + x) else if inf_mag binary64 =? x then inf_mag binary32
          else ieee_round binary32 (mag_value binary64 x)).
  split.
  2:{ split; [|split; [|split]].
      4:{ intros L. destruct (Z.ltb_spec (inf_mag binary64) x); [lia|]. destruct (Z.eqb_spec (inf_mag binary64) x); [lia|]. reflexivity. }
      3:{ intros ->. rewrite Z.ltb_irrefl, Z.eqb_refl. reflexivity. }
      2:{ intros L. destruct (Z.ltb_spec (inf_mag binary64) x); [|lia]. assert (0 < nan (s * 2 ^ 63 + x) < 2 ^ 23) by (apply Hnan; unfold is_nan; rewrite M3; exact L). lia. }
      change (inf_mag binary32) with (255 * 2 ^ 23).
      destruct (Z.ltb_spec (inf_mag binary64) x).
      - assert (0 < nan (s * 2 ^ 63 + x) < 2 ^ 23) by (apply Hnan; unfold is_nan; rewrite M3; assumption). lia.
      - destruct (inf_mag binary64 =? x); [lia|].
        pose proof (ieee_round_range binary32 ok32 (mag_value binary64 x) ltac:(apply V_nonneg; [apply ok64|lia])) as R.
        change (inf_mag binary32) with (255 * 2 ^ 23) in R. lia. }
  apply lor_shift_add; [lia|]. change (inf_mag binary32) with (255 * 2 ^ 23).
  destruct (Z.ltb_spec (inf_mag binary64) x).
  - assert (0 < nan (s * 2 ^ 63 + x) < 2 ^ 23) by (apply Hnan; unfold is_nan; rewrite M3; assumption). lia.
  - destruct (inf_mag binary64 =? x); [lia|].
    pose proof (ieee_round_range binary32 ok32 (mag_value binary64 x) ltac:(apply V_nonneg; [apply ok64|lia])) as R.
    change (inf_mag binary32) with (255 * 2 ^ 23) in R. lia.
Qed.

Lemma odd_then_f32 nan b : (forall b, is_nan binary64 b -> 0 < nan b < 2 ^ 23) -> is_pattern binary64 b ->
  is_pattern binary32 (f32_of_f64 nan (rto n b)) /\
  forall r, correct_conversion binary32 g (f32_of_f64 nan (rto n b)) r -> correct_conversion binary64 g b r.
Proof.
  intros Hnan Hb. destruct (pat_split binary64 b ok64 Hb) as (s & Hs & E & Hsn & Hm).
  change (ebits binary64 + mbits binary64) with 63 in *. set (x := magnitude binary64 b) in *.
  rewrite E. destruct (rto_eq n s x ltac:(lia) Hs Hm) as (-> & Ro).
  destruct (f32_of_f64_eq nan s (odd_mag n x) Hs Ro Hnan) as (c & -> & Rc & C1 & C2 & C3).
  destruct (pat_make binary32 s c ok32 Hs Rc) as (M1 & M2 & M3). change (ebits binary32 + mbits binary32) with 31 in *.
  rewrite <- E. split; [exact M1|]. intros r (R1 & R2 & R3 & R4 & R5).
  unfold correct_conversion, is_nan, is_inf in *. rewrite M2, M3 in *. fold x.
  pose proof (odd_mag_nan x ltac:(lia)) as (N1 & N2).
  split; [exact R1|]. split; [rewrite R2; symmetry; exact Hsn|].
  split; [intros L; apply R3, C1, N1, L|]. split; [intros L; apply R4, C2, N2, L|].
  intros L.
  assert (Nc : nearest_even g (mag_value binary32 c) (magnitude g r)).
  { destruct (V64_32_compare x 0 ltac:(lia)) as (O & _); [pose proof (inf_pos g Og); pose proof (pm_pos g Og); lia|].
    specialize (C3 ltac:(lia)).
    destruct (Z.eq_dec c (inf_mag binary32)) as [I|I].
    - rewrite (R4 I), I. apply nearest_big; [exact Og|exact H5].
    - apply R5. pose proof (ieee_round_range binary32 ok32 (mag_value binary64 (odd_mag n x)) ltac:(apply V_nonneg; [apply ok64|lia])). lia. }
  apply (nearest_same_side g Og (mag_value binary32 c)); [|exact Nc].
  intros k Hk. destruct (V64_32_compare x k ltac:(lia) Hk) as (O & Q). cbv zeta in Q.
  rewrite C3 by lia. exact Q.
Qed.
End Odd.

Lemma f16_from_f64_correct nan b : (forall b, is_nan binary64 b -> 0 < nan b < 2 ^ 23) -> is_pattern binary64 b ->
  exists r, f16_from_f64 nan b = Some r /\ correct_conversion binary64 binary16 b r.
Proof.
  intros Hnan Hb. unfold f16_from_f64. change (f16_round_to_odd b) with (rto 29 b).
  destruct (odd_then_f32 binary16 29 ok16 ltac:(lia) ltac:(vm_compute; discriminate) ltac:(vm_compute; discriminate)
    ltac:(vm_compute; reflexivity) ltac:(vm_compute; discriminate) nan b Hnan Hb) as (P & Q).
  destruct (f16_from_f32_correct _ P) as (r & R1 & R2). exists r. split; [exact R1|apply Q, R2].
Qed.

Lemma bf16_from_f64_correct nan b : (forall b, is_nan binary64 b -> 0 < nan b < 2 ^ 23) -> is_pattern binary64 b ->
  correct_conversion binary64 bfloat16 b (bf16_from_f64 nan b).
Proof.
  intros Hnan Hb. unfold bf16_from_f64. change (bf16_round_to_odd b) with (rto 38 b).
  destruct (odd_then_f32 bfloat16 38 okb16 ltac:(lia) ltac:(vm_compute; discriminate) ltac:(vm_compute; discriminate)
    ltac:(vm_compute; reflexivity) ltac:(vm_compute; discriminate) nan b Hnan Hb) as (P & Q).
  apply Q, bf16_from_f32_correct, P.
Qed.
