(** The float conversions of hwy/base.h are correctly rounded. *)
From Coq Require Import ZArith Bool List Lia.
From Verif Require Import Word Word_Proofs Float_Spec Float_Model Float_Proofs.
Local Open Scope Z_scope.

Lemma lor_shift_add hi lo n : 0 <= n -> 0 <= lo < 2 ^ n -> Z.lor (hi * 2 ^ n) lo = hi * 2 ^ n + lo.
Proof.
  intros Hn Hl.
  assert (D : Z.land (hi * 2 ^ n) lo = 0).
  { apply Z.bits_inj'. intros k Hk. rewrite Z.land_spec, Z.bits_0.
    destruct (Z.lt_ge_cases k n).
    - rewrite Z.mul_pow2_bits_low by lia. reflexivity.
    - rewrite (testbit_small lo n k) by lia. apply andb_false_r. }
  rewrite Z.add_nocarry_lxor by exact D.
  apply Z.bits_inj'. intros k Hk. rewrite Z.lor_spec, Z.lxor_spec.
  assert (T : Z.testbit (Z.land (hi * 2 ^ n) lo) k = false) by (rewrite D; apply Z.bits_0).
  rewrite Z.land_spec in T. destruct (Z.testbit (hi * 2 ^ n) k), (Z.testbit lo k); try reflexivity; discriminate.
Qed.

Lemma lor_bit_cases a i : 0 <= i -> Z.lor a (2 ^ i) = if Z.testbit a i then a else a + 2 ^ i.
Proof.
  intros Hi.
  assert (P : forall k, 0 <= k -> Z.testbit (2 ^ i) k = (k =? i)).
  { intros k Hk. destruct (Z.eqb_spec k i); [subst; apply Z.pow2_bits_true; lia|apply Z.pow2_bits_false; lia]. }
  destruct (Z.testbit a i) eqn:T.
  - apply Z.bits_inj'. intros k Hk. rewrite Z.lor_spec, P by lia.
    destruct (Z.eqb_spec k i); [subst; rewrite T; reflexivity|apply orb_false_r].
  - rewrite Z.add_nocarry_lxor.
    + apply Z.bits_inj'. intros k Hk. rewrite Z.lor_spec, Z.lxor_spec, P by lia.
      destruct (Z.eqb_spec k i); [subst; rewrite T; reflexivity|destruct (Z.testbit a k); reflexivity].
    + apply Z.bits_inj'. intros k Hk. rewrite Z.land_spec, P, Z.bits_0 by lia.
      destruct (Z.eqb_spec k i); [subst; rewrite T; reflexivity|apply andb_false_r].
Qed.

Lemma pat_split f b : fmt_ok f -> is_pattern f b -> exists s,
  (s = 0 \/ s = 1) /\ b = s * 2 ^ (ebits f + mbits f) + magnitude f b /\
  negative f b = (s =? 1) /\ 0 <= magnitude f b < 2 ^ (ebits f + mbits f).
Proof.
  intros (O1 & O2 & O3) H. unfold is_pattern, fwidth, negative, magnitude in *.
  rewrite <- Z.add_assoc, (Z.pow_add_r 2 1) in H by lia. change (2 ^ 1) with 2 in H.
  assert (P : 0 < 2 ^ (ebits f + mbits f)) by (apply pow2_gt0; lia).
  set (w := 2 ^ (ebits f + mbits f)) in *.
  pose proof (Z.div_mod b w ltac:(lia)) as D. pose proof (Z.mod_pos_bound b w ltac:(lia)) as B.
  exists (b / w).
  assert (0 <= b / w < 2) by (split; [apply Z.div_pos; lia|apply Z.div_lt_upper_bound; lia]).
  split; [lia|]. split; [lia|]. split; [|lia].
  destruct (Z.leb_spec w b); destruct (Z.eqb_spec (b / w) 1); try reflexivity; nia.
Qed.

Lemma pat_make f s r : fmt_ok f -> (s = 0 \/ s = 1) -> 0 <= r < 2 ^ (ebits f + mbits f) ->
  is_pattern f (s * 2 ^ (ebits f + mbits f) + r) /\
  negative f (s * 2 ^ (ebits f + mbits f) + r) = (s =? 1) /\
  magnitude f (s * 2 ^ (ebits f + mbits f) + r) = r.
Proof.
  intros (O1 & O2 & O3) Hs Hr. unfold is_pattern, fwidth, negative, magnitude.
  rewrite <- Z.add_assoc, (Z.pow_add_r 2 1) by lia. change (2 ^ 1) with 2.
  assert (P : 0 < 2 ^ (ebits f + mbits f)) by (apply pow2_gt0; lia).
  set (w := 2 ^ (ebits f + mbits f)) in *.
  split; [nia|]. split.
  - destruct Hs; subst s; cbn [Z.eqb]; [destruct (Z.leb_spec w (0 * w + r)); [lia|reflexivity]|].
    destruct (Z.leb_spec w (1 * w + r)); [reflexivity|lia].
  - rewrite Z.add_comm, Z.mod_add, Z.mod_small by lia. reflexivity.
Qed.

Lemma land_mod a n k : 0 <= n -> k = 2 ^ n - 1 -> Z.land a k = a mod 2 ^ n.
Proof. intros Hn ->. apply land_ones'. exact Hn. Qed.

(** Rounding the quotient by a power of two, the way the code does it: add
    half minus one, plus the parity of the quotient, and truncate. *)
Lemma rne_quot M i : 0 < i ->
  let K := M / 2 ^ i in let k := (M + K mod 2 + 2 ^ (i - 1) - 1) / 2 ^ i in
  K * 2 ^ i <= M < (K + 1) * 2 ^ i /\
  (k = K /\ (2 * (M - K * 2 ^ i) < 2 ^ i \/ (2 * (M - K * 2 ^ i) = 2 ^ i /\ Z.even K = true)) \/
   k = K + 1 /\ (2 ^ i < 2 * (M - K * 2 ^ i) \/ (2 * (M - K * 2 ^ i) = 2 ^ i /\ Z.even K = false))).
Proof.
  intros Hi K k. assert (P : 0 < 2 ^ (i - 1)) by (apply pow2_gt0; lia).
  assert (E : 2 ^ i = 2 * 2 ^ (i - 1)) by (rewrite <- (Z.pow_succ_r 2 (i - 1)) by lia; f_equal; lia).
  set (h := 2 ^ (i - 1)) in *. unfold k, K in *. rewrite E. clear E k K.
  pose proof (Z.div_mod M (2 * h) ltac:(lia)) as D. pose proof (Z.mod_pos_bound M (2 * h) ltac:(lia)) as B.
  set (K := M / (2 * h)) in *. set (rem := M mod (2 * h)) in *.
  split; [lia|].
  replace (M - K * (2 * h)) with rem by lia.
  pose proof (Zmod_odd K) as O. rewrite <- Z.negb_even in O.
  assert (C : rem + K mod 2 + h - 1 < 2 * h \/ 2 * h <= rem + K mod 2 + h - 1) by lia.
  destruct C as [C|C].
  - left. split.
    + symmetry. apply Z.div_unique with (rem + K mod 2 + h - 1); destruct (Z.even K); cbn [negb] in O; lia.
    + destruct (Z.even K); cbn [negb] in O; [|left; lia].
      destruct (Z.eq_dec rem h); [right; split; [lia|reflexivity]|left; lia].
  - right. split.
    + symmetry. apply Z.div_unique with (rem + K mod 2 + h - 1 - 2 * h); destruct (Z.even K); cbn [negb] in O; lia.
    + destruct (Z.even K); cbn [negb] in O; [left; lia|].
      destruct (Z.eq_dec rem h); [right; split; [lia|reflexivity]|left; lia].
Qed.

(** A magnitude of [f], as significand times power of two. *)
Definition sig_exp (f : fmt) (x t j : Z) : Prop :=
  x = t * 2 ^ mbits f + j /\ 0 <= t /\ 0 <= j < 2 * 2 ^ mbits f /\ (0 < t -> 2 ^ mbits f <= j) /\
  mag_value f x = j * 2 ^ (t + s0 f).
Lemma sig_exp_of f x : fmt_ok f -> 0 <= x -> exists t j, sig_exp f x t j.
Proof.
  intros O Hx. destruct (grid_of f O x Hx) as (t & j & E & Ht & Hj & Hj2).
  exists t, j. unfold sig_exp. rewrite E at 2. rewrite V_grid by (assumption || lia). tauto.
Qed.

(** --- bfloat16 --- *)
Lemma bf16_nearest x : 0 <= x < inf_mag binary32 ->
  nearest_even bfloat16 (mag_value binary32 x) ((x + 0x7FFF + (x / 2 ^ 16) mod 2) / 2 ^ 16).
Proof.
  intros Hx. destruct (sig_exp_of binary32 x ok32 ltac:(lia)) as (t & j & E & Ht & Hj & Hj2 & EV).
  rewrite EV. change (s0 binary32) with 925. change (mbits binary32) with 23 in *.
  change (inf_mag binary32) with (255 * 2 ^ 23) in Hx.
  pose proof (rne_quot j 16 ltac:(lia)) as R. cbv zeta in R. destruct R as (R1 & R2).
  assert (Q : x / 2 ^ 16 = t * 2 ^ 7 + j / 2 ^ 16).
  { rewrite E. replace (t * 2 ^ 23 + j) with (j + t * 2 ^ 7 * 2 ^ 16) by lia. rewrite Z.div_add by lia. lia. }
  replace ((x + 32767 + (x / 2 ^ 16) mod 2) / 2 ^ 16) with
    (t * 2 ^ 7 + (j + j / 2 ^ 16 mod 2 + 2 ^ (16 - 1) - 1) / 2 ^ 16).
  2:{ rewrite Q. replace ((t * 2 ^ 7 + j / 2 ^ 16) mod 2) with ((j / 2 ^ 16) mod 2).
      - rewrite E. replace (t * 2 ^ 23 + j + 32767 + (j / 2 ^ 16) mod 2) with ((j + (j / 2 ^ 16) mod 2 + 2 ^ (16 - 1) - 1) + t * 2 ^ 7 * 2 ^ 16) by lia.
        rewrite Z.div_add by lia. lia.
      - replace (t * 2 ^ 7 + j / 2 ^ 16) with (j / 2 ^ 16 + t * 2 ^ 6 * 2) by lia. rewrite Z.mod_add by lia. reflexivity. }
  assert (P : 0 < 2 ^ (t + 925)) by (apply pow2_gt0; lia).
  assert (PP : 2 ^ (t + s0 bfloat16) = 2 ^ 16 * 2 ^ (t + 925)).
  { rewrite <- Z.pow_add_r by lia. f_equal. change (s0 bfloat16) with 941. lia. }
  apply (nearest_grid bfloat16 okb16 _ t (j / 2 ^ 16)); rewrite ?PP; change (mbits bfloat16) with 7.
  - lia.
  - split; [apply Z.div_pos; lia|apply Z.div_lt_upper_bound; lia].
  - intros. apply Z.div_le_lower_bound; lia.
  - change (inf_mag bfloat16) with (255 * 2 ^ 7). rewrite <- Q. apply Z.div_lt_upper_bound; lia.
  - nia.
  - destruct R2 as [[-> [R2|[R2 R3]]]|[-> [R2|[R2 R3]]]].
    + left. split; [reflexivity|]. left. nia.
    + left. split; [reflexivity|]. right. split; [nia|exact R3].
    + right. split; [reflexivity|]. left. nia.
    + right. split; [reflexivity|]. right. split; [nia|exact R3].
Qed.

Lemma bf16_from_f32_eq b : is_pattern binary32 b ->
  bf16_from_f32 b =
    b / 2 ^ 31 * 2 ^ 15 +
    (let x := magnitude binary32 b in
     if x <? inf_mag binary32 then (x + 0x7FFF + (x / 2 ^ 16) mod 2) / 2 ^ 16
     else if x =? inf_mag binary32 then inf_mag bfloat16
     else Z.lor (x / 2 ^ 16) 64).
Proof.
  intros Hb. destruct (pat_split binary32 b ok32 Hb) as (s & Hs & E & _ & Hm).
  unfold bf16_from_f32, f32_bits_to_bf16_round_incr.
  rewrite (land_mod b 31) by (reflexivity || lia). fold (magnitude binary32 b).
  change (b mod 2 ^ 31) with (magnitude binary32 b).
  change (ebits binary32 + mbits binary32) with 31 in *.
  set (x := magnitude binary32 b) in *. cbv zeta.
  change (inf_mag binary32) with 2139095040. change (inf_mag bfloat16) with 32640.
  assert (S : b / 2 ^ 31 = s) by (symmetry; apply Z.div_unique with x; lia). rewrite S.
  rewrite !shiftr_div by lia. rewrite (land_mod _ 1) by (reflexivity || lia). change (2 ^ 1) with 2.
  assert (B16 : b / 2 ^ 16 = s * 2 ^ 15 + x / 2 ^ 16).
  { rewrite E. replace (s * 2 ^ 31 + x) with (x + s * 2 ^ 15 * 2 ^ 16) by lia. rewrite Z.div_add by lia. lia. }
  destruct (Z.ltb_spec x 2139095040) as [L|L].
  - destruct (Z.ltb_spec 2139095040 x); [lia|]. rewrite Z.shiftl_0_l, Z.lor_0_r.
    assert (Par : (b / 2 ^ 16) mod 2 = (x / 2 ^ 16) mod 2).
    { rewrite B16. replace (s * 2 ^ 15 + x / 2 ^ 16) with (x / 2 ^ 16 + s * 2 ^ 14 * 2) by lia. apply Z.mod_add; lia. }
    rewrite Par. pose proof (Z.mod_pos_bound (x / 2 ^ 16) 2 ltac:(lia)) as O.
    rewrite (wrap_small 32) by lia.
    replace (b + (32767 + (x / 2 ^ 16) mod 2)) with ((x + 32767 + (x / 2 ^ 16) mod 2) + s * 2 ^ 15 * 2 ^ 16) by lia.
    rewrite Z.div_add by lia. rewrite wrap_small; [lia|].
    assert (0 <= (x + 32767 + (x / 2 ^ 16) mod 2) / 2 ^ 16 < 2 ^ 15).
    { split; [apply Z.div_pos; lia|apply Z.div_lt_upper_bound; lia]. }
    lia.
  - rewrite Z.add_0_r. rewrite (wrap_small 32) by lia.
    destruct (Z.eqb_spec x 2139095040) as [->|N].
    + rewrite Z.ltb_irrefl, Z.shiftl_0_l, Z.lor_0_r, B16. change (2139095040 / 2 ^ 16) with 32640.
      apply wrap_small; lia.
    + destruct (Z.ltb_spec 2139095040 x); [|lia]. change (Z.shiftl 1 6) with (2 ^ 6). change 64 with (2 ^ 6).
      rewrite B16, !lor_bit_cases by lia.
      assert (X : 32640 <= x / 2 ^ 16 < 32768) by (split; [apply Z.div_le_lower_bound; lia|apply Z.div_lt_upper_bound; lia]).
      replace (Z.testbit (s * 2 ^ 15 + x / 2 ^ 16) 6) with (Z.testbit (x / 2 ^ 16) 6).
      2:{ rewrite <- lor_shift_add by lia. rewrite Z.lor_spec, Z.mul_pow2_bits_low by lia. reflexivity. }
      destruct (Z.testbit (x / 2 ^ 16) 6) eqn:T.
      * apply wrap_small; lia.
      * rewrite wrap_small; [lia|].
        assert (x / 2 ^ 16 < 32704); [|lia].
        destruct (Z.lt_ge_cases (x / 2 ^ 16) 32704); [lia|exfalso].
        rewrite Z.testbit_odd, shiftr_div in T by lia.
        assert (x / 2 ^ 16 / 2 ^ 6 = 511) as F by (symmetry; apply Z.div_unique with (x / 2 ^ 16 - 32704); lia).
        rewrite F in T; discriminate.
Qed.

Lemma bf16_from_f32_correct b : is_pattern binary32 b ->
  correct_conversion binary32 bfloat16 b (bf16_from_f32 b).
Proof.
  intros Hb. rewrite bf16_from_f32_eq by exact Hb. cbv zeta.
  destruct (pat_split binary32 b ok32 Hb) as (s & Hs & E & Hn & Hm).
  change (ebits binary32 + mbits binary32) with 31 in *.
  unfold correct_conversion, is_nan, is_inf. rewrite Hn.
  set (x := magnitude binary32 b) in *.
  assert (S : b / 2 ^ 31 = s) by (symmetry; apply Z.div_unique with x; lia). rewrite S.
  change 15 with (ebits bfloat16 + mbits bfloat16).
  set (r := if x <? inf_mag binary32 then _ else _).
  assert (R : 0 <= r < 2 ^ (ebits bfloat16 + mbits bfloat16) /\ (inf_mag binary32 < x -> inf_mag bfloat16 < r) /\
     (x = inf_mag binary32 -> r = inf_mag bfloat16) /\ (x < inf_mag binary32 -> nearest_even bfloat16 (mag_value binary32 x) r)).
  { unfold r. clear r. change (ebits bfloat16 + mbits bfloat16) with 15.
    destruct (Z.ltb_spec x (inf_mag binary32)) as [L|L].
    - pose proof (bf16_nearest x ltac:(lia)) as N. split; [|split; [lia|split; [lia|intros _; exact N]]].
      destruct N as [N _]. change (inf_mag bfloat16) with 32640 in N. change (2 ^ 15) with 32768. lia.
    - destruct (Z.eqb_spec x (inf_mag binary32)) as [E2|N].
      + rewrite E2. split; [vm_compute; split; [discriminate|reflexivity]|]. split; [lia|]. split; [reflexivity|lia].
      + change (inf_mag binary32) with 2139095040 in *. change (inf_mag bfloat16) with 32640.
        assert (X : 32640 <= x / 2 ^ 16 < 32768) by (split; [apply Z.div_le_lower_bound; lia|apply Z.div_lt_upper_bound; lia]).
        change 64 with (2 ^ 6). rewrite lor_bit_cases by lia.
        assert (T : Z.testbit (x / 2 ^ 16) 6 = (32704 <=? x / 2 ^ 16)).
        { rewrite Z.testbit_odd, shiftr_div by lia. destruct (Z.leb_spec 32704 (x / 2 ^ 16)).
          - assert (x / 2 ^ 16 / 2 ^ 6 = 511) as -> by (symmetry; apply Z.div_unique with (x / 2 ^ 16 - 32704); lia). reflexivity.
          - assert (x / 2 ^ 16 / 2 ^ 6 = 510) as -> by (symmetry; apply Z.div_unique with (x / 2 ^ 16 - 32640); lia). reflexivity. }
        rewrite T. destruct (Z.leb_spec 32704 (x / 2 ^ 16)); lia. }
  destruct (pat_make bfloat16 s r okb16 Hs ltac:(tauto)) as (M1 & M2 & M3).
  rewrite M2, M3. tauto.
Qed.

(** --- binary16 --- *)
Lemma f16_assemble s be m16 : (s = 0 \/ s = 1) -> 0 <= be < 32 -> 0 <= m16 < 1024 ->
  Z.lor (Z.lor (wrap 32 (Z.shiftl s 15)) (wrap 32 (Z.shiftl be 10))) m16 = s * 2 ^ 15 + be * 2 ^ 10 + m16.
Proof.
  intros Hs Hb Hm. rewrite !Z.shiftl_mul_pow2 by lia. rewrite !wrap_small by lia.
  rewrite lor_shift_add by lia. replace (s * 2 ^ 15 + be * 2 ^ 10) with ((s * 2 ^ 5 + be) * 2 ^ 10) by lia.
  rewrite lor_shift_add by lia. reflexivity.
Qed.

Definition f16_idx e := Z.min (Z.max (126 - e) 13) 24.
(** Result magnitude of F16FromF32, by exponent. *)
Definition f16_mag (e f : Z) : Z :=
  let M := f + 2 ^ 23 in
  let i := f16_idx e in
  let k := (M + (M / 2 ^ i) mod 2 + 2 ^ (i - 1) - 1) / 2 ^ i in
  if e <? 102 then 0
  else if e <? 113 then k
  else if e <? 143 then (e - 113) * 2 ^ 10 + k
  else if (e =? 255) && negb (f =? 0) then 0x7FFF
  else 0x7C00.

Lemma f16_tail s e f exp rounded :
  (s = 0 \/ s = 1) -> 0 <= f < 2 ^ 23 -> 0 <= e < 256 -> 0 <= rounded < 2 ^ 24 ->
  -24 <= exp -> (15 < exp -> e = 142 \/ 143 <= e) ->
  let is_nan := (e =? 255) && negb (f =? 0) in
  let be := Z.min (Z.max 0 (exp + 15)) 31 in
  let sub := Z.max (-14 - exp) 0 in
  let m16 := if is_nan then 0x3FF else if 16 <=? exp then 0 else
    (if sub =? 0 then 0 else Z.shiftr 1024 sub) + Z.shiftr (Z.land rounded 0x7FFFFF) (23 - 10 + sub) in
  (is_nan = true -> 16 <= exp) ->
  (if negb (sub <? 11) then None else
    if (exp <? -14) && negb ((be =? 0) && (1 <=? sub)) then None else
    if negb (exp <? -14) && (exp <=? 15) && negb ((1 <=? be) && (be <? 31) && (sub =? 0)) then None else
    if negb (m16 <? 1024) then None else
    let bits16 := Z.lor (Z.lor (wrap 32 (Z.shiftl s 15)) (wrap 32 (Z.shiftl be 10))) m16 in
    if negb (bits16 <? 0x10000) then None else
    Some (wrap 16 bits16)) = Some (s * 2 ^ 15 + be * 2 ^ 10 + m16).
Proof.
  intros Hs Hf He Hr H24 H15 is_nan be sub m16 Hnan.
  assert (Hsub : 0 <= sub < 11) by lia. assert (Hbe : 0 <= be < 32) by lia.
  assert (Hm : 0 <= m16 < 1024).
  { unfold m16. destruct is_nan; [lia|]. destruct (Z.leb_spec 16 exp); [lia|].
    rewrite (land_mod rounded 23) by (reflexivity || lia). rewrite !shiftr_div by lia.
    pose proof (Z.mod_pos_bound rounded (2 ^ 23) ltac:(lia)) as B.
    assert (Hp : 2 ^ (23 - 10 + sub) = 2 ^ 13 * 2 ^ sub) by (rewrite <- Z.pow_add_r by lia; f_equal; lia).
    assert (0 < 2 ^ sub) by (apply pow2_gt0; lia).
    assert (Hd : (rounded mod 2 ^ 23) / 2 ^ (23 - 10 + sub) = ((rounded mod 2 ^ 23) / 2 ^ 13) / 2 ^ sub).
    { rewrite Hp. rewrite Z.div_div by lia. reflexivity. }
    rewrite Hd. set (z := rounded mod 2 ^ 23 / 2 ^ 13).
    assert (Hz : 0 <= z < 1024) by (unfold z; split; [apply Z.div_pos; lia|apply Z.div_lt_upper_bound; lia]).
    destruct (Z.eqb_spec sub 0) as [E|E].
    - rewrite E. rewrite Z.pow_0_r, Z.div_1_r. lia.
    - assert (Hs2 : 2 ^ sub = 2 * 2 ^ (sub - 1)) by (rewrite <- (Z.pow_succ_r 2 (sub - 1)) by lia; f_equal; lia).
      assert (0 < 2 ^ (sub - 1)) by (apply pow2_gt0; lia).
      assert (1024 / 2 ^ sub <= 512) by (apply Z.div_le_upper_bound; [lia|nia]).
      assert (0 <= 1024 / 2 ^ sub) by (apply Z.div_pos; lia).
      assert (z / 2 ^ sub < 512) by (apply Z.div_lt_upper_bound; [lia|nia]).
      assert (0 <= z / 2 ^ sub) by (apply Z.div_pos; lia). lia. }
  rewrite f16_assemble by assumption.
  destruct (Z.ltb_spec sub 11); [|lia]. cbn [negb].
  replace ((exp <? -14) && negb ((be =? 0) && (1 <=? sub))) with false.
  2:{ destruct (Z.ltb_spec exp (-14)); [|reflexivity]. destruct (Z.eqb_spec be 0); [|lia]. destruct (Z.leb_spec 1 sub); [reflexivity|lia]. }
  replace (negb (exp <? -14) && (exp <=? 15) && negb ((1 <=? be) && (be <? 31) && (sub =? 0))) with false.
  2:{ destruct (Z.ltb_spec exp (-14)); [reflexivity|]. destruct (Z.leb_spec exp 15); [|reflexivity].
      destruct (Z.leb_spec 1 be); [|lia]. destruct (Z.ltb_spec be 31); [|lia]. destruct (Z.eqb_spec sub 0); [reflexivity|lia]. }
  destruct (Z.ltb_spec m16 1024); [|lia]. cbn [negb].
  assert (Z : 0 <= s * 2 ^ 15 + be * 2 ^ 10 + m16 < 2 ^ 16) by lia.
  destruct (Z.ltb_spec (s * 2 ^ 15 + be * 2 ^ 10 + m16) 65536); [|lia]. cbn [negb]. cbv zeta.
  rewrite wrap_small by lia. reflexivity.
Qed.

Lemma f16_core s e f : (s = 0 \/ s = 1) -> 0 <= e < 256 -> 0 <= f < 2 ^ 23 ->
  f16_from_f32 (s * 2 ^ 31 + (e * 2 ^ 23 + f)) = Some (s * 2 ^ 15 + f16_mag e f).
Proof.
  intros Hs He Hf. unfold f16_from_f32.
  assert (A1 : Z.shiftr (s * 2 ^ 31 + (e * 2 ^ 23 + f)) 31 = s).
  { rewrite shiftr_div by lia. symmetry. apply Z.div_unique with (e * 2 ^ 23 + f); lia. }
  assert (A2 : Z.land (Z.shiftr (s * 2 ^ 31 + (e * 2 ^ 23 + f)) 23) 255 = e).
  { rewrite shiftr_div by lia. rewrite (land_mod _ 8) by (reflexivity || lia).
    replace ((s * 2 ^ 31 + (e * 2 ^ 23 + f)) / 2 ^ 23) with (s * 2 ^ 8 + e) by (apply Z.div_unique with f; lia).
    symmetry. apply Z.mod_unique with s; lia. }
  assert (A3 : Z.land (s * 2 ^ 31 + (e * 2 ^ 23 + f)) 8388607 = f).
  { rewrite (land_mod _ 23) by (reflexivity || lia). symmetry. apply Z.mod_unique with (s * 2 ^ 8 + e); lia. }
  cbv zeta. rewrite A1, A2, A3. clear A1 A2 A3.
  assert (A4 : Z.lor f 8388608 = f + 2 ^ 23).
  { change 8388608 with (2 ^ 23). rewrite lor_bit_cases by lia. rewrite (testbit_small f 23 23) by lia. reflexivity. }
  rewrite A4. fold (f16_idx e). set (i := f16_idx e).
  assert (Hi : 13 <= i <= 24) by (unfold i, f16_idx; lia).
  rewrite (shiftr_div (f + 2 ^ 23)) by lia. rewrite (land_mod _ 1) by (reflexivity || lia).
  rewrite (Z.shiftl_mul_pow2 1) by lia. change (2 ^ 1) with 2. rewrite Z.mul_1_l.
  set (odd := ((f + 2 ^ 23) / 2 ^ i) mod 2).
  assert (Ho : 0 <= odd < 2) by (apply Z.mod_pos_bound; lia).
  assert (Hh : 2 ^ 12 <= 2 ^ (i - 1) <= 2 ^ 23) by (split; apply Z.pow_le_mono_r; lia).
  rewrite wrap_small by lia.
  set (rounded := f + odd + 2 ^ (i - 1) - 1).
  assert (Hr : 0 <= rounded < 2 ^ 24).
  { unfold rounded. change (2 ^ 24) with (2 * 2 ^ 23). unfold odd.
    assert (i = 24 \/ i <= 23) as [Ei|Ei] by lia.
    - rewrite Ei. rewrite (Z.div_small (f + 2 ^ 23)) by lia. change (0 mod 2) with 0. lia.
    - assert (2 ^ (i - 1) <= 2 ^ 22) by (apply Z.pow_le_mono_r; lia). fold odd. lia. }
  set (exp := e - 127 + (if 2 ^ 23 <=? rounded then 1 else 0)).
  assert (Hexp : e - 127 <= exp <= e - 126) by (unfold exp; destruct (2 ^ 23 <=? rounded); lia).
  unfold f16_mag. fold i. fold odd.
  destruct (Z.ltb_spec e 102) as [C1|C1].
  { destruct (Z.ltb_spec exp (-24)) as [_|X]; [|lia].
    rewrite Z.shiftl_mul_pow2 by lia. rewrite wrap_small by lia. f_equal. lia. }
  assert (Ei : e < 113 -> i = 126 - e) by (unfold i, f16_idx; lia).
  assert (Ei2 : 113 <= e -> i = 13) by (unfold i, f16_idx; lia).
  destruct (Z.ltb_spec exp (-24)) as [X|X].
  { (* e = 102, f = 0 *)
    assert (e = 102) by lia. destruct (Z.leb_spec (2 ^ 23) rounded) as [Y|Y]; [lia|].
    assert (I24 : i = 24) by lia.
    assert (O0 : odd = 0) by (unfold odd; rewrite I24, Z.div_small by lia; reflexivity).
    unfold rounded in Y. rewrite O0 in *. rewrite I24 in *. change (2 ^ (24 - 1)) with (2 ^ 23) in *.
    assert (f = 0) by lia. rewrite Z.shiftl_mul_pow2 by lia. rewrite wrap_small by lia. f_equal.
    destruct (Z.ltb_spec e 113); [|lia]. rewrite Z.div_small by lia. lia. }
  pose proof (f16_tail s e f exp rounded Hs Hf He Hr X ltac:(lia) ltac:(intro Y; apply andb_prop in Y; lia)) as T.
  cbv zeta in T. rewrite T. clear T.
  f_equal. rewrite <- Z.add_assoc. f_equal.
  rewrite (land_mod rounded 23) by (reflexivity || lia). rewrite !shiftr_div by lia.
  destruct (Z.ltb_spec e 113) as [C2|C2].
  - specialize (Ei C2). replace ((e =? 255) && negb (f =? 0)) with false by (destruct (Z.eqb_spec e 255); [lia|reflexivity]).
    destruct (Z.leb_spec 16 exp); [lia|].
    replace (f + 2 ^ 23 + odd + 2 ^ (i - 1) - 1) with (rounded + 2 ^ 23) by (unfold rounded; lia).
    assert (Pi : 2 ^ i = 2 * 2 ^ (i - 1)) by (rewrite <- (Z.pow_succ_r 2 (i - 1)) by lia; f_equal; lia).
    destruct (Z.leb_spec (2 ^ 23) rounded) as [Y|Y].
    + assert (exp = e - 126) by lia. clear Hexp.
      assert (Rm : rounded mod 2 ^ 23 = rounded - 2 ^ 23) by (symmetry; apply Z.mod_unique with 1; lia).
      assert (Rs : 0 <= rounded - 2 ^ 23 < 2 ^ (i - 1)) by (unfold rounded in *; lia).
      rewrite Rm.
      assert (K : (rounded + 2 ^ 23) / 2 ^ i = 2 ^ (24 - i)).
      { symmetry. apply Z.div_unique with (rounded - 2 ^ 23); [lia|].
        rewrite <- Z.pow_add_r by lia. replace (i + (24 - i)) with 24 by lia. lia. }
      rewrite K.
      rewrite (Z.div_small (rounded - 2 ^ 23)).
      2:{ split; [lia|]. eapply Z.lt_le_trans; [apply Rs|]. apply Z.pow_le_mono_r; lia. }
      destruct (Z.eqb_spec (Z.max (-14 - exp) 0) 0) as [Z0|Z0].
      * replace (24 - i) with 10 by lia. lia.
      * replace (Z.max (-14 - exp) 0) with (i - 14) by lia.
        replace (Z.min (Z.max 0 (exp + 15)) 31) with 0 by lia.
        replace 1024 with (2 ^ (24 - i) * 2 ^ (i - 14)) by (rewrite <- Z.pow_add_r by lia; replace (24 - i + (i - 14)) with 10 by lia; reflexivity).
        rewrite Z.div_mul by (apply Z.pow_nonzero; lia). lia.
    + assert (exp = e - 127) by lia. clear Hexp.
      rewrite (Z.mod_small rounded) by lia.
      replace (Z.max (-14 - exp) 0) with (i - 13) by lia.
      replace (Z.min (Z.max 0 (exp + 15)) 31) with 0 by lia.
      destruct (Z.eqb_spec (i - 13) 0); [lia|].
      replace (23 - 10 + (i - 13)) with i by lia.
      assert (i <= 23) by lia.
      replace 1024 with (2 ^ (23 - i) * 2 ^ (i - 13)) by (rewrite <- Z.pow_add_r by lia; replace (23 - i + (i - 13)) with 10 by lia; reflexivity).
      rewrite Z.div_mul by (apply Z.pow_nonzero; lia).
      replace (2 ^ 23) with (2 ^ (23 - i) * 2 ^ i) by (rewrite <- Z.pow_add_r by lia; f_equal; lia).
      rewrite Z.div_add by (apply Z.pow_nonzero; lia). lia.
  - specialize (Ei2 C2). rewrite Ei2 in *. clear Ei. clear Hh.
    destruct (Z.ltb_spec e 143) as [C3|C3].
    + replace ((e =? 255) && negb (f =? 0)) with false by (destruct (Z.eqb_spec e 255); [lia|reflexivity]).
      replace (f + 2 ^ 23 + odd + 2 ^ (13 - 1) - 1) with (rounded + 2 ^ 10 * 2 ^ 13) by (unfold rounded; rewrite Ei2; lia).
      rewrite Z.div_add by lia.
      replace (Z.max (-14 - exp) 0) with 0 by lia. cbn [Z.eqb]. change (23 - 10 + 0) with 13.
      destruct (Z.leb_spec (2 ^ 23) rounded) as [Y|Y].
      * assert (exp = e - 126) by lia. clear Hexp.
        assert (Rs : 0 <= rounded - 2 ^ 23 < 2 ^ 12) by (unfold rounded in *; rewrite Ei2 in *; lia).
        assert (rounded / 2 ^ 13 = 2 ^ 10) as -> by (symmetry; apply Z.div_unique with (rounded - 2 ^ 23); lia).
        assert (rounded mod 2 ^ 23 = rounded - 2 ^ 23) as -> by (symmetry; apply Z.mod_unique with 1; lia).
        rewrite (Z.div_small (rounded - 2 ^ 23)) by lia.
        destruct (Z.leb_spec 16 exp); lia.
      * assert (exp = e - 127) by lia. clear Hexp.
        rewrite (Z.mod_small rounded) by lia. destruct (Z.leb_spec 16 exp); lia.
    + destruct (Z.leb_spec 16 exp); [|lia]. replace (Z.min (Z.max 0 (exp + 15)) 31) with 31 by lia.
      destruct ((e =? 255) && negb (f =? 0)); reflexivity.
Qed.

Lemma V32_ef e f : 0 < e -> 0 <= f < 2 ^ 23 -> mag_value binary32 (e * 2 ^ 23 + f) = (f + 2 ^ 23) * 2 ^ (e - 1 + 925).
Proof.
  intros He Hf. replace (e * 2 ^ 23 + f) with ((e - 1) * 2 ^ mbits binary32 + (f + 2 ^ 23)) by (change (mbits binary32) with 23; lia).
  rewrite V_grid; [reflexivity|apply ok32|lia|change (mbits binary32) with 23; lia|change (mbits binary32) with 23; lia].
Qed.

Lemma f16_mag_nearest e f : 0 <= e < 255 -> 0 <= f < 2 ^ 23 ->
  nearest_even binary16 (mag_value binary32 (e * 2 ^ 23 + f)) (f16_mag e f).
Proof.
  intros He Hf. unfold f16_mag. set (i := f16_idx e).
  destruct (Z.ltb_spec e 102) as [C1|C1].
  { apply nearest_iff; [apply ok16|]. change (inf_mag binary16) with 31744. split; [lia|]. split; [lia|]. intros _. left.
    assert (L : mag_value binary32 (e * 2 ^ 23 + f) < mag_value binary32 (102 * 2 ^ 23 + 0)) by (apply V_mono_lt; [apply ok32|lia|lia]).
    rewrite (V32_ef 102 0) in L by lia. unfold mid2. change (mag_value binary16 0) with 0. rewrite Z.add_0_l, Z.add_0_l.
    eapply Z.lt_le_trans with (2 * ((0 + 2 ^ 23) * 2 ^ (102 - 1 + 925))); [lia|]. vm_compute. discriminate. }
  assert (Hi : 13 <= i <= 24) by (unfold i, f16_idx; lia).
  destruct (Z.ltb_spec e 143) as [C3|C3].
  2:{ replace ((e =? 255) && negb (f =? 0)) with false by (destruct (Z.eqb_spec e 255); [lia|reflexivity]).
      destruct (Z.ltb_spec e 113); [lia|].
      change 31744 with (inf_mag binary16). apply nearest_big; [apply ok16|].
      eapply Z.le_trans; [|apply V_mono with (x := 143 * 2 ^ 23); [apply ok32|lia|lia]]. vm_compute. discriminate. }
  rewrite V32_ef by lia.
  pose proof (rne_quot (f + 2 ^ 23) i ltac:(lia)) as R. cbv zeta in R. destruct R as (R1 & R2).
  set (K := (f + 2 ^ 23) / 2 ^ i) in *. set (k := (f + 2 ^ 23 + K mod 2 + 2 ^ (i - 1) - 1) / 2 ^ i) in *.
  set (t := if e <? 113 then 0 else e - 113).
  replace (if e <? 113 then k else (e - 113) * 2 ^ 10 + k) with (t * 2 ^ mbits binary16 + k)
    by (unfold t; change (mbits binary16) with 10; destruct (e <? 113); lia).
  assert (PP : 2 ^ (t + s0 binary16) = 2 ^ i * 2 ^ (e - 1 + 925)).
  { rewrite <- Z.pow_add_r by lia. f_equal. change (s0 binary16) with 1050.
    unfold t, i, f16_idx. destruct (Z.ltb_spec e 113); lia. }
  assert (P : 0 < 2 ^ (e - 1 + 925)) by (apply pow2_gt0; lia).
  assert (Pi : 0 < 2 ^ i) by (apply pow2_gt0; lia).
  assert (KB : 0 <= K < 2 * 2 ^ 10 /\ (113 <= e -> 2 ^ 10 <= K) /\ (e < 113 -> K < 2 ^ 10)).
  { unfold K. split; [split; [apply Z.div_pos; lia|]|split].
    - apply Z.div_lt_upper_bound; [lia|]. assert (2 ^ 13 <= 2 ^ i) by (apply Z.pow_le_mono_r; lia). nia.
    - intros. assert (i = 13) as -> by (unfold i, f16_idx; lia). apply Z.div_le_lower_bound; lia.
    - intros. assert (2 ^ 14 <= 2 ^ i) by (apply Z.pow_le_mono_r; [lia|]; unfold i, f16_idx; lia).
      apply Z.div_lt_upper_bound; [lia|]. nia. }
  apply (nearest_grid binary16 ok16 _ t K); rewrite ?PP; change (mbits binary16) with 10.
  - unfold t. destruct (Z.ltb_spec e 113); lia.
  - lia.
  - unfold t. destruct (Z.ltb_spec e 113); lia.
  - change (inf_mag binary16) with (31 * 2 ^ 10). unfold t. destruct (Z.ltb_spec e 113); lia.
  - nia.
  - destruct R2 as [[-> [R2|[R2 R3]]]|[-> [R2|[R2 R3]]]].
    + left. split; [reflexivity|]. left. nia.
    + left. split; [reflexivity|]. right. split; [nia|exact R3].
    + right. split; [reflexivity|]. left. nia.
    + right. split; [reflexivity|]. right. split; [nia|exact R3].
Qed.

Lemma f16_from_f32_correct b : is_pattern binary32 b ->
  exists r, f16_from_f32 b = Some r /\ correct_conversion binary32 binary16 b r.
Proof.
  intros Hb. destruct (pat_split binary32 b ok32 Hb) as (s & Hs & E & Hn & Hm).
  change (ebits binary32 + mbits binary32) with 31 in *.
  set (x := magnitude binary32 b) in *.
  pose proof (Z.div_mod x (2 ^ 23) ltac:(lia)) as D. pose proof (Z.mod_pos_bound x (2 ^ 23) ltac:(lia)) as B.
  set (e := x / 2 ^ 23) in *. set (f := x mod 2 ^ 23) in *.
  assert (He : 0 <= e < 256) by lia.
  exists (s * 2 ^ 15 + f16_mag e f). split.
  { rewrite E. replace x with (e * 2 ^ 23 + f) by lia. apply f16_core; assumption. }
  unfold correct_conversion, is_nan, is_inf. rewrite Hn. fold x.
  change 15 with (ebits binary16 + mbits binary16).
  assert (R : 0 <= f16_mag e f < 2 ^ 15 /\ (inf_mag binary32 < x -> inf_mag binary16 < f16_mag e f) /\
     (x = inf_mag binary32 -> f16_mag e f = inf_mag binary16) /\ (x < inf_mag binary32 -> nearest_even binary16 (mag_value binary32 x) (f16_mag e f))).
  { change (inf_mag binary32) with (255 * 2 ^ 23). change (inf_mag binary16) with 31744.
    destruct (Z.eq_dec e 255) as [E5|N5].
    - unfold f16_mag. rewrite E5. change (255 <? 102) with false. change (255 <? 113) with false. change (255 <? 143) with false.
      change (255 =? 255) with true. cbn [andb]. cbv iota.
      destruct (Z.eqb_spec f 0); cbn [negb]; lia.
    - pose proof (f16_mag_nearest e f ltac:(lia) B) as N.
      replace x with (e * 2 ^ 23 + f) by lia.
      split; [destruct N as [N _]; change (inf_mag binary16) with 31744 in N; lia|]. split; [lia|]. split; [lia|]. intros _. exact N. }
  destruct (pat_make binary16 s (f16_mag e f) ok16 Hs ltac:(tauto)) as (M1 & M2 & M3).
  rewrite M2, M3. tauto.
Qed.
