(** MulByPow2: the exponents. *)
From Coq Require Import ZArith Bool Lia.
From Verif Require Import Word Word_Proofs Float_Spec Float_Model Float_Proofs Float_Conv Float_F64 Float_More Rounding_Model Pow2_Spec Pow2_Model.
Open Scope Z_scope.
Arguments Z.pow : simpl never.
Arguments Z.mul : simpl never.
Lemma div_mod_pow a L n : 0 <= L -> 0 <= n -> (a mod 2 ^ (L + n)) / 2 ^ L = (a / 2 ^ L) mod 2 ^ n /\ (a mod 2 ^ (L + n)) mod 2 ^ L = a mod 2 ^ L.
Proof.
  intros HL Hn. assert (P : 0 < 2 ^ L) by (apply pow2_gt0; auto). assert (Q : 0 < 2 ^ n) by (apply pow2_gt0; auto). rewrite Z.pow_add_r by auto.
  rewrite Z.rem_mul_r by lia. split.
  - rewrite Z.mul_comm, Z.div_add by lia. rewrite Z.div_small by (apply Z.mod_pos_bound; lia). reflexivity.
  - rewrite Z.mul_comm, Z.mod_add by lia. apply Z.mod_mod; lia.
Qed.
Lemma wrap_parts a L n : 0 <= L -> 0 <= n -> wrap L a + 2 ^ L * wrap n (a / 2 ^ L) = wrap (L + n) a.
Proof. intros HL Hn. assert (P : 0 < 2 ^ L) by (apply pow2_gt0; auto). assert (Q : 0 < 2 ^ n) by (apply pow2_gt0; auto). unfold wrap. rewrite Z.pow_add_r by auto. rewrite Z.rem_mul_r by lia. reflexivity. Qed.
Lemma lanes_sel (op : Z -> Z -> Z -> Z) (g : Z -> Z -> Z) L :
  0 < L -> (forall a b, g a b = a \/ g a b = b) -> (forall a b c, 0 < c -> g (a / c) (b / c) = g a b / c) -> (forall a b, in_s L a -> in_s L b -> op L (wrap L a) (wrap L b) = wrap L (g a b)) ->
  forall n a b, in_s L a -> in_s L b -> lanes n L (op L) (wrap (Z.of_nat n * L) a) (wrap (Z.of_nat n * L) b) = wrap (Z.of_nat n * L) (g a b).
Proof.
  intros HL Hg Hd Ho. induction n; intros a b Ha Hb.
  - cbn [lanes]. unfold wrap. replace (Z.of_nat 0 * L) with 0 by lia. change (2 ^ 0) with 1. rewrite Z.mod_1_r. reflexivity.
  - cbn [lanes]. replace (Z.of_nat (S n) * L) with (L + Z.of_nat n * L) by lia. set (K := Z.of_nat n * L). assert (HK : 0 <= K) by (unfold K; nia).
    assert (P : 0 < 2 ^ L) by (apply pow2_gt0; lia).
    destruct (div_mod_pow a L K ltac:(lia) HK) as [A1 A2]. destruct (div_mod_pow b L K ltac:(lia) HK) as [B1 B2].
    fold (wrap (L + K) a) in A1, A2. fold (wrap (L + K) b) in B1, B2. fold (wrap L a) in A2. fold (wrap L b) in B2. fold (wrap K (a / 2 ^ L)) in A1. fold (wrap K (b / 2 ^ L)) in B1.
    fold (wrap L (wrap (L + K) a)) in A2. fold (wrap L (wrap (L + K) b)) in B2.
    rewrite A1, A2, B1, B2, Ho by auto. unfold K in *. 
    assert (R : forall x, in_s L x -> in_s L (x / 2 ^ L)).
    { intros x [X1 X2]. assert (2 ^ L = 2 * 2 ^ (L - 1)) by (replace L with (1 + (L - 1)) at 1 by lia; rewrite Z.pow_add_r by lia; reflexivity).
      assert (0 < 2 ^ (L - 1)) by (apply pow2_gt0; lia). assert (-1 <= x / 2 ^ L < 1). { split; [apply Z.div_le_lower_bound; lia | apply Z.div_lt_upper_bound; lia]. } unfold in_s. lia. }
    rewrite IHn by auto. rewrite Hd by lia. apply wrap_parts; lia.
Qed.
Lemma div_max a b c : 0 < c -> Z.max (a / c) (b / c) = Z.max a b / c.
Proof. intros Hc. destruct (Z.max_spec a b) as [[H ->]|[H ->]]; pose proof (Z.div_le_mono a b c Hc) as D1; pose proof (Z.div_le_mono b a c Hc) as D2; [rewrite Z.max_r | rewrite Z.max_l]; auto; lia. Qed.
Lemma div_min a b c : 0 < c -> Z.min (a / c) (b / c) = Z.min a b / c.
Proof. intros Hc. destruct (Z.min_spec a b) as [[H ->]|[H ->]]; pose proof (Z.div_le_mono a b c Hc) as D1; pose proof (Z.div_le_mono b a c Hc) as D2; [rewrite Z.min_l | rewrite Z.min_r]; auto; lia. Qed.
Lemma lanes_max L n a b : 0 < L -> in_s L a -> in_s L b -> lanes n L (smax L) (wrap (Z.of_nat n * L) a) (wrap (Z.of_nat n * L) b) = wrap (Z.of_nat n * L) (Z.max a b).
Proof.
  intros HL. apply (lanes_sel smax Z.max L HL); [lia | intros; apply div_max; auto |]. intros x y Hx Hy. unfold smax. rewrite !swrap_wrap by lia. rewrite !swrap_small by auto. reflexivity.
Qed.
Lemma lanes_min L n a b : 0 < L -> in_s L a -> in_s L b -> lanes n L (smin L) (wrap (Z.of_nat n * L) a) (wrap (Z.of_nat n * L) b) = wrap (Z.of_nat n * L) (Z.min a b).
Proof.
  intros HL. apply (lanes_sel smin Z.min L HL); [lia | intros; apply div_min; auto |]. intros x y Hx Hy. unfold smin. rewrite !swrap_wrap by lia. rewrite !swrap_small by auto. reflexivity.
Qed.
Lemma lanes_ones L n x : 0 < L -> lanes n L satsub x (2 ^ (Z.of_nat n * L) - 1) = 0.
Proof.
  intros HL. revert x. induction n; intros x; [reflexivity|]. cbn [lanes]. replace (Z.of_nat (S n) * L) with (L + Z.of_nat n * L) by lia. assert (HK : 0 <= Z.of_nat n * L) by nia. rewrite Z.pow_add_r by lia.
  set (K := 2 ^ (Z.of_nat n * L)) in *. assert (0 < K) by (apply pow2_gt0; auto). assert (P : 0 < 2 ^ L) by (apply pow2_gt0; lia).
  replace (2 ^ L * K - 1) with ((K - 1) * 2 ^ L + (2 ^ L - 1)) by ring. rewrite Z.div_add_l by lia. rewrite (Z.div_small (2 ^ L - 1)) by lia. rewrite Z.add_0_r, IHn.
  unfold wrap at 2. rewrite (Z.add_comm _ (2 ^ L - 1)), Z.mod_add by lia. rewrite (Z.mod_small (2 ^ L - 1)) by lia. pose proof (wrap_range L x ltac:(lia)). unfold satsub. lia.
Qed.
Lemma lanes_zero L n : 0 < L -> lanes n L satsub 0 0 = 0.
Proof. intros HL. induction n; [reflexivity|]. cbn [lanes]. rewrite Z.div_0_l by (pose proof (pow2_gt0 L); lia). rewrite IHn. unfold wrap. rewrite Z.mod_0_l by (pose proof (pow2_gt0 L); lia). rewrite Z.mul_0_r. reflexivity. Qed.
Section S.
Context (f : fmt) (SF : simd_float f).
Notation B := (bias f).
Notation M := (mbits f).
Lemma sf_hwy : hwy_float f. Proof. unfold hwy_float. destruct SF as [->|[->| ->]]; auto. Qed.
Lemma sf_ok : fmt_ok f. Proof. apply fmt_facts, sf_hwy. Qed.
Lemma sf_num : exp_bias f = B /\ 15 <= B /\ M + 5 <= B /\ 10 <= M <= 52 /\ 8 * B < 2 ^ (wd f - 1) /\ 2 ^ ebits f = 2 * B + 2 /\ wd f = 1 + ebits f + M /\ 5 <= ebits f /\ s0 f = 1075 - B - M /\ 2 ^ ebits f * 2 ^ M = 2 ^ (ebits f + M).
Proof. destruct SF as [->|[->| ->]]; vm_compute; repeat split; congruence. Qed.
Lemma small_s x : - 8 * B <= x <= 8 * B -> swrap (wd f) x = x.
Proof. intros H. destruct sf_num as (_ & _ & _ & M1 & H1 & _ & W & E1 & _). apply swrap_small; [lia|]. unfold in_s. lia. Qed.
Lemma n_of L n : 0 < L -> fwidth f = Z.of_nat n * L -> Z.to_nat (wd f / L) = n.
Proof. intros H E. unfold wd. rewrite E, Z.div_mul by lia. apply Nat2Z.id. Qed.
Definition efield (v : Z) : Z := magnitude f v / 2 ^ M.
Lemma efield_range v : is_pattern f v -> 0 <= efield v <= 2 * B + 1.
Proof.
  intros Hv. destruct sf_num as (_ & _ & _ & HM & _ & E & W & E5 & _ & EM). assert (P : 0 < 2 ^ M) by (apply pow2_gt0; lia). unfold efield, magnitude. rewrite <- EM.
  assert (0 < 2 ^ ebits f) by (apply pow2_gt0; lia). pose proof (Z.mod_pos_bound v (2 ^ ebits f * 2 ^ M) ltac:(nia)) as D.
  split; [apply Z.div_pos; lia|]. assert (v mod (2 ^ ebits f * 2 ^ M) / 2 ^ M < 2 ^ ebits f) by (apply Z.div_lt_upper_bound; lia). lia.
Qed.
Lemma factor_eq e : 1 - B <= e <= B -> is_pattern f (factor f e) /\ negative f (factor f e) = false /\ magnitude f (factor f e) = (e + B) * 2 ^ M /\ (e + B) * 2 ^ M < inf_mag f /\ 0 < (e + B) * 2 ^ M /\ mag_value f ((e + B) * 2 ^ M) = 2 ^ (1074 + e).
Proof.
  intros He. destruct sf_num as (N0 & N1 & N2 & HM & N8 & E & W & E5 & ES & EM). assert (P : 0 < 2 ^ M) by (apply pow2_gt0; lia).
  assert (R : 0 < (e + B) * 2 ^ M < 2 ^ (ebits f + M)). { rewrite <- EM. split; nia. }
  assert (Ef : factor f e = (e + B) * 2 ^ M).
  { unfold factor. rewrite N0, small_s by lia. rewrite Z.shiftl_mul_pow2 by lia. apply wrap_small. split; [lia|]. replace (wd f) with (1 + (ebits f + M)) by lia. rewrite Z.pow_add_r by lia. lia. }
  pose proof (pat_make f 0 ((e + B) * 2 ^ M) sf_ok ltac:(auto) ltac:(lia)) as (P1 & P2 & P3). rewrite Z.mul_0_l, Z.add_0_l in *. rewrite Ef. split; [exact P1|]. split; [exact P2|]. split; [exact P3|].
  split; [unfold inf_mag; rewrite E; nia|]. split; [lia|]. unfold mag_value. rewrite Z.div_mul by lia. rewrite Z.mod_mul by lia. destruct (Z.eqb_spec (e + B) 0); [lia|]. rewrite Z.add_0_r, <- Z.pow_add_r by (pose proof sf_ok as (_ & _ & S0); lia). f_equal. lia.
Qed.
Context (Lmm Lss : Z) (HL : lanes_ok f Lmm Lss).
Lemma narrow_max a b : - 3 * B <= a <= 3 * B -> - 3 * B <= b <= 3 * B -> narrow f Lmm smax a b = Z.max a b.
Proof.
  intros Ha Hb. destruct sf_num as (N0 & N1 & _). destruct HL as ((n & E) & _ & H3 & H4 & _). unfold narrow. rewrite (n_of _ n H4 E). unfold wd. rewrite E. rewrite lanes_max by (auto; unfold in_s; lia). rewrite swrap_wrap by nia. rewrite <- E. apply small_s. lia.
Qed.
Lemma narrow_min a b : - 3 * B <= a <= 3 * B -> - 3 * B <= b <= 3 * B -> narrow f Lmm smin a b = Z.min a b.
Proof.
  intros Ha Hb. destruct sf_num as (N0 & N1 & _). destruct HL as ((n & E) & _ & H3 & H4 & _). unfold narrow. rewrite (n_of _ n H4 E). unfold wd. rewrite E. rewrite lanes_min by (auto; unfold in_s; lia). rewrite swrap_wrap by nia. rewrite <- E. apply small_s. lia.
Qed.
Lemma min12_eq v : is_pattern f v -> min_exp12 f Lmm Lss v = Z.max (- Z.max 0 (efield v - 1)) (2 - 2 * B).
Proof.
  intros Hv. pose proof (efield_range v Hv) as ER. destruct sf_num as (N0 & N1 & N2 & HM & _ & E & W & E5 & _ & EM). assert (PM : 0 < 2 ^ M) by (apply pow2_gt0; lia).
  assert (F : lanes (Z.to_nat (wd f / Lss)) Lss satsub (Z.shiftr (if zero_out_sign f Lss then v else scalar_abs f v) M) (wrap (wd f) (1 - Z.shiftl (if zero_out_sign f Lss then 1 else 0) (ebits f))) = Z.max 0 (efield v - 1)).
  { destruct HL as (_ & (n & En) & _ & _ & HS). rewrite (n_of Lss n ltac:(lia) En). rewrite Z.shiftr_div_pow2 by lia. rewrite Z.shiftl_mul_pow2 by lia.
    assert (PE : 2 ^ ebits f <= 2 ^ Lss) by (apply Z.pow_le_mono_r; lia).
    unfold zero_out_sign. destruct (Z.eqb_spec Lss (ebits f)) as [EL|NL].
    - destruct n as [|n]; [unfold fwidth in En; lia|]. assert (Hn : 0 < Z.of_nat n) by (unfold fwidth in En; nia).
      cbn [lanes]. rewrite Z.mul_1_l.
      set (K := 2 ^ (Z.of_nat n * Lss)). assert (K0 : 0 < K) by (apply pow2_gt0; nia).
      assert (K2 : 2 ^ wd f = 2 ^ Lss * K). { unfold wd. rewrite En. unfold K. rewrite <- Z.pow_add_r by nia. f_equal. lia. }
      assert (DE : wrap (wd f) (1 - 2 ^ ebits f) = (K - 1) * 2 ^ Lss + 1).
      { rewrite <- EL. unfold wrap. rewrite K2. symmetry. apply (Z.mod_unique_pos _ _ (-1)); [|ring]. assert (K <> 0) by lia. nia. }
      rewrite DE. rewrite Z.div_add_l by lia. rewrite (Z.div_small 1) by lia. rewrite Z.add_0_r. fold K. unfold K at 2. rewrite lanes_ones by lia.
      unfold wrap at 2. rewrite Z.add_comm with (m := 1). rewrite Z.mod_add by lia. rewrite (Z.mod_small 1) by lia.
      replace (wrap Lss (v / 2 ^ M)) with (efield v); [unfold satsub; lia|].
      unfold efield, magnitude, wrap. rewrite EL. rewrite Z.add_comm. apply div_mod_pow; lia.
    - destruct n as [|n]; [unfold fwidth in En; lia|]. cbn [lanes]. rewrite Z.mul_0_l, Z.sub_0_r.
      destruct (classify_ok f v sf_hwy Hv) as (_ & _ & _ & _ & (A1 & A2 & A3) & _).
      assert (SA : scalar_abs f v = magnitude f v). { rewrite <- A3. unfold magnitude. symmetry. apply Z.mod_small. unfold negative in A2. apply Z.leb_gt in A2. unfold is_pattern in A1. lia. }
      rewrite SA. fold (efield v). assert (W1 : wrap (wd f) 1 = 1). { apply wrap_small. split; [lia|]. assert (2 ^ 1 <= 2 ^ wd f) by (apply Z.pow_le_mono_r; lia). change (2 ^ 1) with 2 in *. lia. }
      rewrite W1. rewrite (Z.div_small 1), (Z.div_small (efield v)) by lia. rewrite lanes_zero by lia. rewrite (wrap_small Lss 1), (wrap_small Lss (efield v)) by lia. unfold satsub. lia. }
  unfold min_exp12. rewrite F. rewrite N0. rewrite (small_s (Z.max 0 _)) by lia. rewrite small_s by lia. rewrite narrow_max by lia. f_equal. lia.
Qed.
(** the clamped exponent and its three parts *)
Lemma exps v exp : is_pattern f v -> in_s (wd f) exp ->
  let mn := Z.max (- Z.max 0 (efield v - 1)) (2 - 2 * B) in let c := clamped_exp f Lmm Lss v exp in let e := exp12 f Lmm Lss v exp in
  c = Z.max (Z.min exp (3 * B)) (mn + 1 - B) /\ mn <= e <= 2 * B /\ 1 - B <= c - e <= B /\ (0 <= e -> 0 <= c - e \/ (e = 0 /\ c < 0)) /\ (e < 0 -> c - e <= 0) /\ 
  (exists e1 e2, e = e1 + e2 /\ 1 - B <= e1 <= B /\ 1 - B <= e2 <= B /\ (0 <= e -> 0 <= e1 /\ 0 <= e2) /\ (e < 0 -> e1 <= 0 /\ e2 <= 0) /\ (e < 0 -> e < 0) /\
    forall nan, mul_by_pow2 f Lmm Lss nan v exp = fmul f nan (fmul f nan (fmul f nan v (factor f e1)) (factor f e2)) (factor f (c - e))).
Proof.
  intros Hv Hx mn c e. pose proof (efield_range v Hv) as ER. destruct sf_num as (N0 & N1 & N2 & HM & N8 & E & W & E5 & _ & EM).
  assert (Hmn : 2 - 2 * B <= mn <= 0) by (unfold mn; lia).
  assert (Ec : c = Z.max (Z.min exp (3 * B)) (mn + 1 - B)). { unfold c, clamped_exp. rewrite min12_eq by auto. fold mn. rewrite N0. rewrite small_s by lia. f_equal; lia. }
  assert (Hc : 3 - 3 * B <= c <= 3 * B) by lia.
  pose proof (Z.div_mod c 4 ltac:(lia)) as D. pose proof (Z.mod_pos_bound c 4 ltac:(lia)) as D'.
  assert (Ee : e = Z.max (Z.min (c - c / 4) (2 * B)) mn).
  { unfold e, exp12. fold c. cbv zeta. rewrite min12_eq by auto. fold mn. rewrite N0. rewrite Z.shiftr_div_pow2 by lia. change (2 ^ 2) with 4. rewrite small_s by lia. rewrite narrow_min by lia. rewrite narrow_max by lia. f_equal. f_equal. lia. }
  assert (He : mn <= e <= 2 * B) by lia.
  pose proof (Z.div_mod e 2 ltac:(lia)) as D2. pose proof (Z.mod_pos_bound e 2 ltac:(lia)) as D2'.
  split; [exact Ec|]. split; [exact He|]. split; [lia|]. split; [lia|]. split; [lia|].
  exists (e / 2), (e - e / 2). split; [lia|]. split; [lia|]. split; [lia|]. split; [lia|]. split; [lia|]. split; [lia|].
  intros nan. unfold mul_by_pow2. cbv zeta. fold e c. rewrite Z.shiftr_div_pow2 by lia. change (2 ^ 1) with 2. rewrite !(small_s) by lia. reflexivity.
Qed.
End S.
