(** Correctness of the vector float16_t conversions. *)
From Coq Require Import ZArith Bool List Lia.
From Verif Require Import Word Word_Proofs Float_Spec Float_Model Float_Proofs Float_Conv Float_F64 Float_More Rounding_Model Rounding_Spec Rounding_Ops2 Pow2_Model VecF16_Model.
Import ListNotations.
Open Scope Z_scope.
Arguments Z.pow : simpl never.
Arguments Z.mul : simpl never.
Arguments Z.add : simpl never.

(** --- the steps on bits --- *)
Definition upto (n : nat) : list Z := map Z.of_nat (seq 0 n).
Lemma upto_in n x : 0 <= x < Z.of_nat n -> In x (upto n).
Proof. intros H. unfold upto. rewrite in_map_iff. exists (Z.to_nat x). rewrite in_seq. lia. Qed.
Lemma incr_eq u8 v s e : (s = 0 \/ s = 1) -> 0 <= e < 256 -> Z.shiftr v 23 = s * 256 + e ->
  demote_f16_incr u8 v = s * 256 + Z.max (Z.min (e + 13) 255) 126.
Proof.
  intros Hs He H. unfold demote_f16_incr. rewrite H. clear H v.
  assert (C : forallb (fun s => forallb (fun e => forallb (fun u8 : bool =>
     (if u8 then lanes 4 8 Z.max (lanes 4 8 satadd8 (s * 256 + e) 13) 126
      else bitwise_if 255 (Z.max (Z.min (wrap 32 (Z.land (s * 256 + e) 255 + 13)) 255) 126) (s * 256 + e)) =? s * 256 + Z.max (Z.min (e + 13) 255) 126)
     [true; false]) (upto 256)) [0; 1] = true) by (vm_compute; reflexivity).
  rewrite forallb_forall in C. specialize (C s ltac:(destruct Hs; subst; cbn; auto)). rewrite forallb_forall in C.
  specialize (C e (upto_in 256 e ltac:(lia))). rewrite forallb_forall in C. specialize (C u8 ltac:(destruct u8; cbn; auto)).
  apply Z.eqb_eq in C. exact C.
Qed.

Lemma lanes4_min X : lanes 4 8 Z.min X 157 = Z.min (wrap 8 X) 157.
Proof.
  cbn [lanes]. change (wrap 8 157) with 157. change (157 / 2 ^ 8) with 0. do 2 change (0 / 2 ^ 8) with 0. change (wrap 8 0) with 0.
  pose proof (wrap_range 8 (X / 2 ^ 8) ltac:(lia)). pose proof (wrap_range 8 (X / 2 ^ 8 / 2 ^ 8) ltac:(lia)). pose proof (wrap_range 8 (X / 2 ^ 8 / 2 ^ 8 / 2 ^ 8) ltac:(lia)).
  rewrite (Z.min_r (wrap 8 (X / 2 ^ 8)) 0), (Z.min_r (wrap 8 (X / 2 ^ 8 / 2 ^ 8)) 0), (Z.min_r (wrap 8 (X / 2 ^ 8 / 2 ^ 8 / 2 ^ 8)) 0) by lia. lia.
Qed.
Lemma lanes4_sat a b : wrap 8 (lanes 4 8 satadd8 a b) = satadd8 (wrap 8 a) (wrap 8 b).
Proof.
  cbn [lanes]. rewrite Z.mul_comm, wrap_add_mult by lia. apply wrap_small.
  pose proof (wrap_range 8 a ltac:(lia)). pose proof (wrap_range 8 b ltac:(lia)). unfold satadd8. change (2 ^ 8) with 256 in *. lia.
Qed.
Lemma exp_eq u8 ri9 rv : 0 <= ri9 < 512 -> 0 <= rv ->
  let e := Z.min (ri9 mod 256 + (rv / 1024) mod 256) 157 in
  demote_f16_exp u8 ri9 rv = (e * 1024, e =? 157).
Proof.
  intros Hr Hv e. pose proof (Z.mod_pos_bound ri9 256 ltac:(lia)). pose proof (Z.mod_pos_bound (rv / 1024) 256 ltac:(lia)).
  unfold demote_f16_exp. destruct u8.
  - rewrite lanes4_min, lanes4_sat. unfold satadd8, wrap. change (2 ^ 8) with 256. rewrite shiftr_div by lia. change (2 ^ 10) with 1024.
    replace (Z.min (Z.min (ri9 mod 256 + (rv / 1024) mod 256) 255) 157) with e by lia. f_equal.
    rewrite Z.shiftl_mul_pow2 by lia. change (2 ^ 10) with 1024. apply Z.mod_small. change (2 ^ 32) with 4294967296. lia.
  - replace (Z.land ri9 255) with (ri9 mod 256) by (symmetry; apply (land_mod ri9 8); [lia|reflexivity]).
    replace (Z.land rv (Z.shiftl 255 10)) with (((rv / 1024) mod 256) * 1024).
    2:{ change 1024 with (2 ^ 10). rewrite <- (Z.shiftl_mul_pow2 _ 10) by lia.
        change 256 with (2 ^ 8). rewrite <- (land_ones' _ 8) by lia. rewrite <- shiftr_div by lia.
        apply Z.bits_inj'. intros k Hk. rewrite Z.land_spec.
        destruct (Z.lt_ge_cases k 10).
        - rewrite !Z.shiftl_spec_low by lia. rewrite andb_false_r. reflexivity.
        - rewrite !Z.shiftl_spec by lia. rewrite Z.land_spec, Z.shiftr_spec by lia. replace (k - 10 + 10) with k by lia. reflexivity. }
    rewrite Z.shiftl_mul_pow2 by lia. change (2 ^ 10) with 1024. change (Z.shiftl 157 10) with (157 * 1024).
    unfold wrap. change (2 ^ 32) with 4294967296. rewrite (Z.mod_small (ri9 mod 256 * 1024)) by lia. rewrite Z.mod_small by lia.
    assert (E : Z.min (ri9 mod 256 * 1024 + (rv / 1024) mod 256 * 1024) (157 * 1024) = e * 1024) by lia. rewrite E. f_equal.
    destruct (Z.eqb_spec e 157); destruct (Z.eqb_spec (e * 1024) (157 * 1024)); lia.
Qed.

Lemma finish s m em : (s = 0 \/ s = 1) -> 0 <= m < 2 ^ 31 -> 0 <= em < 2 ^ 15 ->
  demote_i32_i16 (swrap 32 (Z.lor em (Z.land (wrap 32 (Z.shiftr (swrap 32 (s * 2 ^ 31 + m)) 16)) 0xFFFF8000))) = s * 2 ^ 15 + em.
Proof.
  intros Hs Hm He.
  assert (L : Z.land (wrap 32 (Z.shiftr (swrap 32 (s * 2 ^ 31 + m)) 16)) 0xFFFF8000 = (s * (2 ^ 17 - 1)) * 2 ^ 15).
  { change 0xFFFF8000 with (2 ^ 32 - 2 ^ 15). rewrite land_high_w by (try lia; apply wrap_range; lia).
    f_equal. rewrite shiftr_div by lia. destruct Hs; subst s.
    - rewrite swrap_small by (unfold in_s; change (2 ^ (32 - 1)) with (2 ^ 31); lia).
      assert (0 <= (0 * 2 ^ 31 + m) / 2 ^ 16 < 2 ^ 15) by (split; [apply Z.div_pos; lia|apply Z.div_lt_upper_bound; [lia|change (2 ^ 16 * 2 ^ 15) with (2 ^ 31); lia]]).
      rewrite wrap_small by (change (2 ^ 32) with 4294967296; change (2 ^ 15) with 32768 in *; lia). rewrite Z.div_small by lia. reflexivity.
    - assert (E : swrap 32 (1 * 2 ^ 31 + m) = m - 2 ^ 31).
      { apply swrap_unique; [lia|unfold in_s; change (2 ^ (32 - 1)) with (2 ^ 31); lia|]. replace (1 * 2 ^ 31 + m) with (m - 2 ^ 31 + 1 * 2 ^ 32) by (change (2 ^ 32) with (2 * 2 ^ 31); lia).
        apply Z.mod_add. discriminate. }
      rewrite E. replace (m - 2 ^ 31) with (m + (- 2 ^ 15) * 2 ^ 16) by (change (2 ^ 31) with (2 ^ 15 * 2 ^ 16); ring). rewrite Z.div_add by discriminate.
      assert (0 <= m / 2 ^ 16 < 2 ^ 15) by (split; [apply Z.div_pos; lia|apply Z.div_lt_upper_bound; [lia|change (2 ^ 16 * 2 ^ 15) with (2 ^ 31); lia]]).
      assert (W : wrap 32 (m / 2 ^ 16 + - 2 ^ 15) = m / 2 ^ 16 + (2 ^ 17 - 1) * 2 ^ 15).
      { unfold wrap. symmetry. apply Z.mod_unique with (-1); [left; split; [change (2 ^ 17) with 131072; change (2 ^ 15) with 32768 in *; lia|]|].
        - change (2 ^ 32) with 4294967296. change (2 ^ 17) with 131072; change (2 ^ 15) with 32768 in *; lia.
        - change (2 ^ 32) with 4294967296. change (2 ^ 17) with 131072; change (2 ^ 15) with 32768 in *; lia. }
      rewrite W, Z.div_add by discriminate. rewrite Z.div_small by lia. lia. }
  rewrite L, Z.lor_comm, lor_shift_add by lia.
  assert (S : swrap 32 (s * (2 ^ 17 - 1) * 2 ^ 15 + em) = em - s * 2 ^ 15).
  { apply swrap_unique; [lia|unfold in_s; change (2 ^ (32 - 1)) with 2147483648; change (2 ^ 15) with 32768 in *; lia|].
    replace (s * (2 ^ 17 - 1) * 2 ^ 15 + em) with (em - s * 2 ^ 15 + s * 2 ^ 32) by (change (2 ^ 32) with (2 ^ 17 * 2 ^ 15); ring). apply Z.mod_add. discriminate. }
  rewrite S. unfold demote_i32_i16. change (2 ^ 15) with 32768 in *.
  replace (Z.max (- (32768)) (Z.min (em - s * 32768) (32768 - 1))) with (em - s * 32768) by lia.
  unfold wrap. symmetry. apply Z.mod_unique with (- s); change (2 ^ 16) with 65536; lia.
Qed.

(** everything after the addition *)
Lemma tail_eq nan u8 v s e re m : (s = 0 \/ s = 1) -> 0 <= e < 256 -> Z.shiftr v 23 = s * 256 + e -> re = Z.max (Z.min (e + 13) 255) 126 ->
  0 <= m < 2 ^ 31 -> fadd_ieee binary32 nan v (s * 2 ^ 31 + re * 2 ^ 23) = (s * 2 ^ 31 + m) ->
  let E := Z.min (re + (m / 1024) mod 256) 157 in
  demote_f16 nan u8 v = s * 2 ^ 15 + ((E - 126) * 1024 + (if inf_mag binary32 <? m then 1023 else if E =? 157 then 0 else m mod 1024)).
Proof.
  intros Hs He Hv Hre Hm Ha E. unfold demote_f16. rewrite (incr_eq u8 v s e Hs He Hv), <- Hre.
  assert (Hri : wrap 32 (Z.shiftl (s * 256 + re) 23) = s * 2 ^ 31 + re * 2 ^ 23).
  { rewrite Z.shiftl_mul_pow2 by lia. rewrite wrap_small; [change (2 ^ 31) with (256 * 2 ^ 23); ring|]. change (2 ^ 32) with (512 * 2 ^ 23). change (2 ^ 23) with 8388608. lia. }
  rewrite Hri, Ha. rewrite exp_eq by lia.
  assert (B1 : (s * 256 + re) mod 256 = re) by (rewrite Z.add_comm, Z.mod_add by lia; apply Z.mod_small; lia).
  assert (B2 : ((s * 2 ^ 31 + m) / 1024) mod 256 = (m / 1024) mod 256).
  { replace (s * 2 ^ 31 + m) with (m + (s * 2 ^ 13 * 256) * 1024) by (change (2 ^ 31) with (2 ^ 13 * 256 * 1024); ring). rewrite Z.div_add by lia. apply Z.mod_add. lia. }
  rewrite B1, B2. fold E. pose proof (Z.mod_pos_bound (m / 1024) 256 ltac:(lia)) as P.
  assert (HE : 126 <= E <= 157) by lia.
  change (Z.shiftl 126 10) with (126 * 1024). rewrite wrap_small by (change (2 ^ 32) with 4294967296; lia).
  destruct (pat_make binary32 s m ok32 Hs Hm) as (_ & _ & M3). change (ebits binary32 + mbits binary32) with 31 in M3.
  unfold f32_nan. rewrite M3.
  assert (LM : Z.land (Z.lor (if E =? 157 then 0 else s * 2 ^ 31 + m) (if inf_mag binary32 <? m then 2 ^ 32 - 1 else 0)) 0x03FF = (if inf_mag binary32 <? m then 1023 else if E =? 157 then 0 else m mod 1024)).
  { rewrite (land_mod _ 10) by (lia || reflexivity). destruct (inf_mag binary32 <? m).
    - rewrite <- (land_ones' _ 10) by lia. rewrite Z.land_lor_distr_l. change (Z.land (2 ^ 32 - 1) (2 ^ 10 - 1)) with (2 ^ 10 - 1).
      rewrite land_ones' by lia. rewrite <- (Z.mul_1_l ((_) mod _)). pose proof (Z.mod_pos_bound (if E =? 157 then 0 else s * 2 ^ 31 + m) (2 ^ 10) ltac:(lia)) as Q.
      set (y := (if E =? 157 then 0 else s * 2 ^ 31 + m) mod 2 ^ 10) in *. rewrite Z.mul_1_l. apply (word_ext 10); [lia|apply lor_range; [lia|lia|change (2^10) with 1024; lia]|change (2 ^ 10) with 1024; lia|].
      intros k Hk. rewrite Z.lor_spec. change 1023 with (Z.ones 10). change (2 ^ 10 - 1) with (Z.ones 10). rewrite Z.ones_spec_low by lia. apply orb_true_r.
    - rewrite Z.lor_0_r. destruct (E =? 157); [reflexivity|]. change (2 ^ 10) with 1024. replace (s * 2 ^ 31 + m) with (m + s * 2 ^ 21 * 1024) by (change (2 ^ 31) with (2 ^ 21 * 1024); ring). apply Z.mod_add. lia. }
  rewrite LM. set (mant := if inf_mag binary32 <? m then 1023 else if E =? 157 then 0 else m mod 1024).
  assert (Hmant : 0 <= mant < 2 ^ 10). { unfold mant. pose proof (Z.mod_pos_bound m 1024 ltac:(lia)). change (2 ^ 10) with 1024. destruct (inf_mag binary32 <? m); [lia|]. destruct (E =? 157); lia. }
  replace (E * 1024 - 126 * 1024) with ((E - 126) * 2 ^ 10) by (change (2 ^ 10) with 1024; lia). rewrite lor_shift_add by lia. change (2 ^ 10) with 1024 in *.
  apply finish; [exact Hs|exact Hm|]. change (2 ^ 15) with 32768. lia.
Qed.

(** --- the addition --- *)
Lemma s0_32 : s0 binary32 = 925. Proof. reflexivity. Qed.
Lemma s0_16 : s0 binary16 = 1050. Proof. reflexivity. Qed.
Lemma V16_inf : mag_value binary16 (inf_mag binary16) = 2 ^ 1090. Proof. vm_compute. reflexivity. Qed.
(** adding 2^(re - 127), re large enough, leaves the rounded significand of [x] in the low bits, and it is also the significand of the nearest half *)
Lemma round_core x re : 0 <= x < inf_mag binary32 -> re = Z.max (x / 2 ^ 23 + 13) 126 -> re < 255 ->
  exists k, 0 <= k <= 2048 /\
  ieee_round binary32 (mag_value binary32 x + mag_value binary32 (re * 2 ^ 23)) = re * 2 ^ 23 + k /\
  nearest_even binary16 (mag_value binary32 x) (Z.min ((re - 126) * 1024 + k) (inf_mag binary16)).
Proof.
  intros Hx Hre Hlt. change (2 ^ 23) with 8388608 in *.
  destruct (sig_exp_of binary32 x ok32 ltac:(lia)) as (t & j & Ex & Ht & Hj & Hj2 & EV).
  change (mbits binary32) with 23 in *. change (2 ^ 23) with 8388608 in *. rewrite s0_32 in EV.
  pose proof (Z.div_mod x 8388608 ltac:(lia)) as D. pose proof (Z.mod_pos_bound x 8388608 ltac:(lia)) as B.
  set (e := x / 8388608) in *.
  assert (Te : t = Z.max (e - 1) 0 /\ (e = 0 -> j < 8388608)).
  { destruct (Z.eq_dec t 0) as [->|]; [|specialize (Hj2 ltac:(lia))]; nia. }
  destruct Te as (Te & Tj).
  set (i := re - 1 - t). assert (Hi : 13 <= i) by lia.
  pose proof (rne_quot j i ltac:(lia)) as R. cbv zeta in R. set (K := j / 2 ^ i) in *. set (k := (j + K mod 2 + 2 ^ (i - 1) - 1) / 2 ^ i) in *.
  destruct R as (R1 & R2).
  assert (Pi : 2 ^ 13 <= 2 ^ i) by (apply Z.pow_le_mono_r; lia). change (2 ^ 13) with 8192 in Pi.
  assert (K0 : 0 <= K) by (apply Z.div_pos; lia).
  assert (K1 : K < 2048) by nia.
  assert (K2 : 0 < re - 126 -> 1024 <= K).
  { intros C. assert (i = 13) by lia. unfold K. replace i with 13 by lia. apply Z.div_le_lower_bound; [lia|]. change (2 ^ 13 * 1024) with 8388608. apply Hj2. lia. }
  set (c := 2 ^ (t + 925)) in *. assert (Pc : 0 < c) by (apply pow2_gt0; lia).
  set (u := 2 ^ (re - 1 + 925)). assert (Eu : u = 2 ^ i * c).
  { unfold u, c. rewrite <- Z.pow_add_r by lia. f_equal. lia. }
  assert (Pu : 0 < u) by (apply pow2_gt0; lia).
  assert (Um : u = 2 ^ (re - 1 + 925)) by reflexivity. assert (VN : 0 <= mag_value binary32 x) by (apply V_nonneg; [apply ok32|lia]).
  clearbody c u.
  (* the rounding conditions in units of u *)
  assert (Q1 : K * u <= mag_value binary32 x < (K + 1) * u).
  { rewrite EV, Eu. rewrite !Z.mul_assoc. split; [apply Z.mul_le_mono_nonneg_r|apply Z.mul_lt_mono_pos_r]; lia. }
  assert (Q2 : k = K /\ (2 * (mag_value binary32 x - K * u) < u \/ (2 * (mag_value binary32 x - K * u) = u /\ Z.even K = true)) \/
     k = K + 1 /\ (u < 2 * (mag_value binary32 x - K * u) \/ (2 * (mag_value binary32 x - K * u) = u /\ Z.even K = false))).
  { rewrite EV, Eu. replace (2 * (j * c - K * (2 ^ i * c))) with (2 * (j - K * 2 ^ i) * c) by ring.
    destruct R2 as [(R2 & [R3|(R3 & R4)])|(R2 & [R3|(R3 & R4)])]; [left|left|right|right]; (split; [exact R2|]); [left; apply Z.mul_lt_mono_pos_r; assumption|right; split; [rewrite R3; reflexivity|exact R4]|left; apply Z.mul_lt_mono_pos_r; assumption|right; split; [rewrite R3; reflexivity|exact R4]]. }
  assert (Hk : 0 <= k <= 2048) by (destruct Q2 as [(-> & _)|(-> & _)]; lia).
  exists k. split; [exact Hk|]. split.
  - assert (Vr : mag_value binary32 (re * 8388608) = 8388608 * u).
    { replace (re * 8388608) with ((re - 1) * 2 ^ mbits binary32 + 8388608) by (change (2 ^ mbits binary32) with 8388608; ring).
      rewrite V_grid by (try apply ok32; change (2 ^ mbits binary32) with 8388608; lia). rewrite s0_32. rewrite Um. reflexivity. }
    apply (nearest_unique binary32 ok32 (mag_value binary32 x + mag_value binary32 (re * 8388608))).
    + apply ieee_round_nearest; [exact ok32|]. rewrite Vr. lia.
    + replace (re * 8388608 + k) with ((re - 1) * 2 ^ mbits binary32 + (8388608 + k)) by (change (2 ^ mbits binary32) with 8388608; ring).
      apply (nearest_grid binary32 ok32 _ (re - 1) (8388608 + K)); change (2 ^ mbits binary32) with 8388608; rewrite ?s0_32, <- ?Um.
      * lia.
      * lia.
      * lia.
      * change (inf_mag binary32) with (255 * 8388608). lia.
      * rewrite Vr. rewrite !Z.mul_add_distr_r in *. lia.
      * rewrite Vr. replace (mag_value binary32 x + 8388608 * u - (8388608 + K) * u) with (mag_value binary32 x - K * u) by ring.
        rewrite Z.even_add. change (Z.even 8388608) with true. replace (Bool.eqb true (Z.even K)) with (Z.even K) by (destruct (Z.even K); reflexivity).
        destruct Q2 as [(-> & Q)|(-> & Q)]; [left; split; [reflexivity|exact Q]|right; split; [ring|exact Q]].
  - change (inf_mag binary16) with (31 * 1024). destruct (Z.lt_ge_cases ((re - 126) * 1024 + K) (31 * 1024)) as [L|L].
    + rewrite Z.min_l by (destruct Q2 as [(-> & _)|(-> & _)]; lia).
      apply (nearest_grid binary16 ok16 _ (re - 126) K); change (2 ^ mbits binary16) with 1024; rewrite ?s0_16.
      * lia.
      * lia.
      * lia.
      * change (inf_mag binary16) with (31 * 1024). lia.
      * replace (re - 126 + 1050) with (re - 1 + 925) by lia. rewrite <- Um. exact Q1.
      * replace (re - 126 + 1050) with (re - 1 + 925) by lia. rewrite <- Um. exact Q2.
    + rewrite Z.min_r by (destruct Q2 as [(-> & _)|(-> & _)]; lia). apply (nearest_big binary16 ok16). rewrite V16_inf.
      destruct Q1 as (Q1 & _). eapply Z.le_trans; [|exact Q1].
      destruct (Z.eq_dec re 156) as [E|].
      * specialize (K2 ltac:(lia)). rewrite Um. replace (re - 1 + 925) with 1080 by lia. replace (2 ^ 1090) with (1024 * 2 ^ 1080) by (change 1090 with (10 + 1080); rewrite Z.pow_add_r by lia; reflexivity). apply Z.mul_le_mono_nonneg_r; [apply Z.pow_nonneg; lia|lia].
      * assert (157 <= re) by lia. specialize (K2 ltac:(lia)). transitivity (1024 * u); [|apply Z.mul_le_mono_nonneg_r; lia].
        replace (2 ^ 1090) with (1024 * 2 ^ 1080) by (change 1090 with (10 + 1080); rewrite Z.pow_add_r by lia; reflexivity).
        apply Z.mul_le_mono_nonneg_l; [lia|]. rewrite Um. apply Z.pow_le_mono_r; lia.
Qed.

Lemma pat32 b : is_pattern binary32 b -> exists s, (s = 0 \/ s = 1) /\ b = s * 2 ^ 31 + magnitude binary32 b /\ negative binary32 b = (s =? 1) /\ 0 <= magnitude binary32 b < 2 ^ 31.
Proof. intros H. exact (pat_split binary32 b ok32 H). Qed.
Lemma make32 s m : (s = 0 \/ s = 1) -> 0 <= m < 2 ^ 31 -> is_pattern binary32 (s * 2 ^ 31 + m) /\ negative binary32 (s * 2 ^ 31 + m) = (s =? 1) /\ magnitude binary32 (s * 2 ^ 31 + m) = m.
Proof. intros. exact (pat_make binary32 s m ok32 H H0). Qed.

Lemma fadd_same s x y : (s = 0 \/ s = 1) -> 0 <= x < inf_mag binary32 -> 0 < y < inf_mag binary32 -> forall nan,
  fadd_ieee binary32 nan (s * 2 ^ 31 + x) (s * 2 ^ 31 + y) = s * 2 ^ 31 + ieee_round binary32 (mag_value binary32 x + mag_value binary32 y).
Proof.
  intros Hs Hx Hy nan. change (inf_mag binary32) with (255 * 2 ^ 23) in *. assert (L : 255 * 2 ^ 23 < 2 ^ 31) by reflexivity.
  destruct (make32 s x Hs ltac:(lia)) as (A1 & A2 & A3). destruct (make32 s y Hs ltac:(lia)) as (B1 & B2 & B3).
  assert (N : 0 <= mag_value binary32 x) by (apply V_nonneg; [apply ok32|lia]).
  assert (P : 0 < mag_value binary32 y). { pose proof (V_mono_lt binary32 ok32 0 y ltac:(lia) ltac:(lia)) as P. rewrite V_0 in P by apply ok32. exact P. }
  unfold fadd_ieee, not_nan, is_fin. rewrite A3, B3. change (inf_mag binary32) with (255 * 2 ^ 23).
  rewrite (proj2 (Z.leb_le x _)), (proj2 (Z.leb_le y _)), (proj2 (Z.ltb_lt x _)), (proj2 (Z.ltb_lt y _)) by lia. cbn [negb orb andb].
  unfold fadd, is_fin. rewrite A3, B3. change (inf_mag binary32) with (255 * 2 ^ 23). rewrite (proj2 (Z.ltb_lt x _)), (proj2 (Z.ltb_lt y _)) by lia. cbn [andb].
  unfold value. rewrite A2, B2, A3, B3. unfold mk. change (ebits binary32 + mbits binary32) with 31.
  destruct Hs; subst s; cbn [Z.eqb Pos.eqb].
  - rewrite (proj2 (Z.eqb_neq _ 0)) by lia. rewrite (proj2 (Z.ltb_ge _ 0)) by lia. rewrite Z.abs_eq by lia. reflexivity.
  - rewrite (proj2 (Z.eqb_neq _ 0)) by lia. rewrite (proj2 (Z.ltb_lt _ 0)) by lia. replace (Z.abs (- mag_value binary32 x + - mag_value binary32 y)) with (mag_value binary32 x + mag_value binary32 y) by lia. lia.
Qed.

Definition nan32_ok (nan : Z -> Z -> Z) : Prop := forall a b, is_nan binary32 a \/ is_nan binary32 b -> is_pattern binary32 (nan a b) /\ is_nan binary32 (nan a b).

Lemma demote_f16_ok nan u8 v : nan32_ok nan -> is_pattern binary32 v ->
  (~ is_nan binary32 v -> correct_conversion binary32 binary16 v (demote_f16 nan u8 v)) /\
  (is_nan binary32 v -> is_pattern binary16 (demote_f16 nan u8 v) /\ is_nan binary16 (demote_f16 nan u8 v)).
Proof.
  intros Hn Hv. destruct (pat32 v Hv) as (s & Hs & Ev & Hneg & Hm). set (x := magnitude binary32 v) in *.
  pose proof (Z.div_mod x (2 ^ 23) ltac:(lia)) as D. pose proof (Z.mod_pos_bound x (2 ^ 23) ltac:(lia)) as B.
  set (e := x / 2 ^ 23) in *. assert (He : 0 <= e < 256). { split; [apply Z.div_pos; lia|apply Z.div_lt_upper_bound; [lia|exact (proj2 Hm)]]. }
  assert (Hsh : Z.shiftr v 23 = s * 256 + e).
  { rewrite shiftr_div by lia. rewrite Ev. replace (s * 2 ^ 31 + x) with (x + s * 256 * 2 ^ 23) by (change (2 ^ 31) with (256 * 2 ^ 23); ring). rewrite Z.div_add by discriminate. fold e. lia. }
  set (re := Z.max (Z.min (e + 13) 255) 126).
  assert (Iinf : inf_mag binary32 = 255 * 2 ^ 23) by reflexivity. assert (L31 : 2 ^ 31 = 256 * 2 ^ 23) by reflexivity.
  assert (P23 : 2 ^ 23 = 8388608) by reflexivity.
  assert (Hri : is_pattern binary32 (s * 2 ^ 31 + re * 2 ^ 23) /\ negative binary32 (s * 2 ^ 31 + re * 2 ^ 23) = (s =? 1) /\ magnitude binary32 (s * 2 ^ 31 + re * 2 ^ 23) = re * 2 ^ 23) by (apply make32; [exact Hs|lia]).
  destruct Hri as (Ri1 & Ri2 & Ri3).
  unfold correct_conversion, is_nan, is_inf. fold x.
  destruct (Z.lt_ge_cases (inf_mag binary32) x) as [NaN|NN].
  { split; [lia|]. intros _. destruct (Hn v (s * 2 ^ 31 + re * 2 ^ 23) (or_introl NaN)) as (N1 & N2).
    assert (re = 255) by lia.
    destruct (pat32 _ N1) as (s' & Hs' & En & Hneg' & Hm'). unfold is_nan in N2. set (m' := magnitude binary32 (nan v (s * 2 ^ 31 + re * 2 ^ 23))) in *.
    (* the sign of the result comes from the sum; redo the last step with s' *)
    assert (exists em, 31 * 1024 < em < 32768 /\ demote_f16 nan u8 v = s' * 2 ^ 15 + em) as (em & Hem & ->).
    { unfold demote_f16. rewrite (incr_eq u8 v s e Hs He Hsh). fold re.
      assert (Hw : wrap 32 (Z.shiftl (s * 256 + re) 23) = s * 2 ^ 31 + re * 2 ^ 23).
      { rewrite Z.shiftl_mul_pow2 by lia. rewrite wrap_small; [lia|]. change (2 ^ 32) with (512 * 2 ^ 23). lia. }
      rewrite Hw. unfold fadd_ieee, not_nan. fold x. rewrite (proj2 (Z.leb_gt x _)) by lia. cbn [negb orb].
      rewrite En. rewrite exp_eq by lia.
      replace ((s * 256 + re) mod 256) with 255 by (rewrite Z.add_comm, Z.mod_add, Z.mod_small by lia; lia).
      pose proof (Z.mod_pos_bound ((s' * 2 ^ 31 + m') / 1024) 256 ltac:(lia)). rewrite Z.min_r by lia.
      change (157 =? 157) with true. cbv iota. destruct (make32 s' m' Hs' Hm') as (_ & _ & M3). unfold f32_nan. rewrite M3. rewrite (proj2 (Z.ltb_lt _ m')) by lia.
      change (Z.land (Z.lor 0 (2 ^ 32 - 1)) 1023) with 1023. change (wrap 32 (157 * 1024 - Z.shiftl 126 10)) with (31 * 1024). change (Z.lor (31 * 1024) 1023) with 32767.
      exists 32767. split; [lia|]. apply finish; [exact Hs'|exact Hm'|change (2 ^ 15) with 32768; lia]. }
    destruct (pat_make binary16 s' em ok16 Hs' ltac:(change (2 ^ (ebits binary16 + mbits binary16)) with 32768; lia)) as (F1 & F2 & F3). change (ebits binary16 + mbits binary16) with 15 in *.
    split; [exact F1|]. rewrite F3. change (inf_mag binary16) with (31 * 1024). lia. }
  split; [intros _|lia].
  (* not NaN *)
  assert (G : exists r, demote_f16 nan u8 v = s * 2 ^ 15 + r /\ 0 <= r <= inf_mag binary16 /\ (x = inf_mag binary32 -> r = inf_mag binary16) /\ (x < inf_mag binary32 -> nearest_even binary16 (mag_value binary32 x) r)).
  { change (inf_mag binary16) with (31 * 1024). destruct (Z.eq_dec re 255) as [R255|R255].
    - assert (fadd_ieee binary32 nan v (s * 2 ^ 31 + re * 2 ^ 23) = s * 2 ^ 31 + 255 * 2 ^ 23).
      { unfold fadd_ieee, not_nan, is_fin. fold x. rewrite Ri3. rewrite (proj2 (Z.leb_le x _)), (proj2 (Z.leb_le (re * 2 ^ 23) _)) by lia. cbn [negb orb].
        rewrite (proj2 (Z.ltb_ge (re * 2 ^ 23) _)) by lia. rewrite andb_false_r. destruct (Z.ltb_spec x (inf_mag binary32)); [rewrite R255; reflexivity|].
        rewrite Hneg, Ri2, Bool.eqb_reflx. rewrite Ev. f_equal. lia. }
      exists (31 * 1024). rewrite (tail_eq nan u8 v s e re (255 * 2 ^ 23) Hs He Hsh eq_refl ltac:(lia) H).
      split; [|split; [lia|split; [lia|]]].
      + rewrite R255. vm_compute (255 * 2 ^ 23). change (inf_mag binary32) with 2139095040. reflexivity.
      + intros Lx. apply (nearest_big binary16 ok16). rewrite V16_inf.
        replace x with (e * 2 ^ 23 + x mod 2 ^ 23) by lia. rewrite V32_ef by lia.
        transitivity (2 ^ 23 * 2 ^ (241 + 925)); [rewrite <- Z.pow_add_r by lia; apply Z.pow_le_mono_r; lia|].
        apply Z.mul_le_mono_nonneg; [lia|lia|apply Z.pow_nonneg; lia|apply Z.pow_le_mono_r; lia].
    - assert (Lx : x < inf_mag binary32) by lia.
      destruct (round_core x re ltac:(lia) ltac:(fold e; lia) ltac:(lia)) as (k & Hk & Hr & Hnear).
      assert (Ha : fadd_ieee binary32 nan v (s * 2 ^ 31 + re * 2 ^ 23) = s * 2 ^ 31 + (re * 2 ^ 23 + k)).
      { rewrite Ev, fadd_same by (try exact Hs; lia). rewrite Hr. reflexivity. }
      exists (Z.min ((re - 126) * 1024 + k) (31 * 1024)). rewrite (tail_eq nan u8 v s e re (re * 2 ^ 23 + k) Hs He Hsh eq_refl ltac:(lia) Ha).
      split; [|split; [lia|split; [lia|intros _; exact Hnear]]].
      f_equal. rewrite (proj2 (Z.ltb_ge (inf_mag binary32) _)) by lia.
      replace (re * 2 ^ 23 + k) with (k + re * 8192 * 1024) by lia. rewrite Z.div_add, Z.mod_add by lia.
      replace (k / 1024 + re * 8192) with (k / 1024 + re * 32 * 256) by lia. rewrite Z.mod_add by lia.
      pose proof (Z.div_mod k 1024 ltac:(lia)) as Dk. pose proof (Z.mod_pos_bound k 1024 ltac:(lia)) as Bk. assert (0 <= k / 1024 <= 2) by lia.
      rewrite (Z.mod_small (k / 1024)) by lia. destruct (Z.eqb_spec (Z.min (re + k / 1024) 157) 157); lia. }
  destruct G as (r & -> & Hr & Hi & Hf). change (inf_mag binary16) with (31 * 1024) in *.
  destruct (pat_make binary16 s r ok16 Hs ltac:(change (2 ^ (ebits binary16 + mbits binary16)) with 32768; lia)) as (F1 & F2 & F3). change (ebits binary16 + mbits binary16) with 15 in *.
  rewrite F2, F3, Hneg. split; [exact F1|]. split; [reflexivity|]. split; [lia|]. split; [exact Hi|exact Hf].
Qed.
