(** MulByPow2 is std::ldexp. *)
From Coq Require Import ZArith Bool Lia.
From Verif Require Import Word Word_Proofs Float_Spec Float_Model Float_Proofs Float_Conv Float_F64 Float_More Rounding_Model Pow2_Spec Pow2_Model Pow2_Round Pow2_Lanes.
Open Scope Z_scope.
Arguments Z.pow : simpl never.
Arguments Z.mul : simpl never.
Section S.
Context (f : fmt) (SF : simd_float f).
Notation B := (bias f).
Notation M := (mbits f).
Notation V := (mag_value f).
Notation I := (inf_mag f).
Notation T := (2 ^ (ebits f + mbits f)).
Let O : fmt_ok f := sf_ok f SF.
Lemma pf_inf : 0 < I < T. Proof. split; [pose proof (inf_pos f O); pose proof (pm_pos f O); lia | apply fmt_facts, sf_hwy, SF]. Qed.
Lemma pf_mk : forall n x, 0 <= x < T -> is_pattern f (mk f n x) /\ negative f (mk f n x) = n /\ magnitude f (mk f n x) = x.
Proof.
  intros n x Hx. pose proof (pat_make f (if n then 1 else 0) x O ltac:(destruct n; auto) Hx) as H. unfold mk. destruct n; cbn [Z.eqb Pos.eqb] in H; [rewrite Z.mul_1_l in H | rewrite Z.mul_0_l in H]; exact H.
Qed.
Lemma pf_pat : forall b, is_pattern f b -> b = mk f (negative f b) (magnitude f b) /\ 0 <= magnitude f b < T.
Proof.
  intros b Hb. destruct (pat_split f b O Hb) as (s & Hs & E & Hn & Hm). split; auto. rewrite Hn. unfold mk. destruct Hs; subst s; cbn [Z.eqb Pos.eqb]; lia.
Qed.
Lemma V_inf : V I = 2 ^ (1075 + B).
Proof.
  destruct (sf_num f SF) as (N0 & N1 & N2 & HM & N8 & E & W & E5 & ES & EM). pose proof O as (_ & _ & S0). assert (P : 0 < 2 ^ M) by (apply pow2_gt0; lia).
  unfold mag_value, inf_mag. rewrite Z.div_mul, Z.mod_mul by lia. destruct (Z.eqb_spec (2 ^ ebits f - 1) 0); [lia|]. rewrite Z.add_0_r, <- Z.pow_add_r by lia. f_equal. lia.
Qed.
(** one multiplication by 2^e, on magnitudes *)
Definition step (x e : Z) : Z := if x =? I then I else round_scaled f (V x * 2 ^ (1074 + e)) 1074.
Lemma step_range x e : 0 <= x <= I -> 0 <= 1074 + e -> 0 <= step x e <= I.
Proof.
  intros Hx He. pose proof pf_inf. unfold step. destruct (Z.eqb_spec x I); [lia|]. apply (round_scaled_nearest f O 1074 ltac:(lia)). apply Z.mul_nonneg_nonneg; [apply V_nonneg; auto; lia | apply Z.pow_nonneg; lia].
Qed.
Lemma fmul_step nan n x e : 1 - B <= e <= B -> 0 <= x <= I -> fmul f nan (mk f n x) (factor f e) = mk f n (step x e).
Proof.
  intros He Hx. pose proof pf_inf. destruct (factor_eq f SF e He) as (F1 & F2 & F3 & F4 & F5 & F6). destruct (pf_mk n x ltac:(lia)) as (M1 & M2 & M3).
  unfold fmul. rewrite M2, M3, F2, F3. destruct (Z.ltb_spec I x); [lia|]. destruct (Z.ltb_spec I ((e + B) * 2 ^ M)); [lia|]. cbn [orb]. rewrite xorb_false_r.
  destruct (Z.eqb_spec ((e + B) * 2 ^ M) I); [lia|]. destruct (Z.eqb_spec ((e + B) * 2 ^ M) 0); [lia|]. rewrite !orb_false_r. unfold step. destruct (Z.eqb_spec x I); [|rewrite F6; reflexivity].
  destruct (Z.eqb_spec x 0); [lia|]. reflexivity.
Qed.
Lemma fmul_nan nan a e : is_nan f a -> fmul f nan a (factor f e) = nan a (factor f e).
Proof. intros Ha. unfold fmul. unfold is_nan in Ha. destruct (Z.ltb_spec I (magnitude f a)); [reflexivity | lia]. Qed.
Lemma step_near x e : 0 <= x < I -> 0 <= 1074 + e -> times_pow2 f x e (step x e).
Proof.
  intros Hx He. pose proof pf_inf as PI. unfold step. destruct (Z.eqb_spec x I); [lia|]. assert (V0 : 0 <= V x) by (apply V_nonneg; auto; lia).
  pose proof (round_scaled_nearest f O 1074 ltac:(lia) (V x * 2 ^ (1074 + e)) ltac:(apply Z.mul_nonneg_nonneg; [lia | apply Z.pow_nonneg; lia])) as H. unfold times_pow2.
  destruct (Z_le_gt_dec 0 e) as [L|L].
  - replace (Z.max 0 e) with e by lia. replace (Z.max 0 (- e)) with 0 by lia. apply (scaled_shift f (V x * 2 ^ e) 0 1074); [lia | lia |]. replace (V x * 2 ^ e * 2 ^ 1074) with (V x * 2 ^ (1074 + e)) by (rewrite Z.pow_add_r by lia; ring). exact H.
  - replace (Z.max 0 e) with 0 by lia. replace (Z.max 0 (- e)) with (- e) by lia. change (2 ^ 0) with 1. rewrite Z.mul_1_r. apply (scaled_shift f (V x) (- e) (1074 + e)); [lia | lia |]. replace (- e + (1074 + e)) with 1074 by lia. exact H.
Qed.
Lemma step_up x e : 0 <= x <= I -> 0 <= e -> V (step x e) = Z.min (V x * 2 ^ e) (V I).
Proof.
  intros Hx He. pose proof pf_inf as PI. pose proof O as (_ & _ & S0). assert (P : 1 <= 2 ^ e) by (pose proof (pow2_gt0 e He); lia). assert (V0 : 0 <= V x) by (apply V_nonneg; auto; lia).
  destruct (Z.eq_dec x I) as [->|N]. { unfold step. rewrite Z.eqb_refl. rewrite Z.min_r; [reflexivity | nia]. }
  pose proof (step_near x e ltac:(lia) ltac:(lia)) as H. unfold times_pow2 in H. replace (Z.max 0 e) with e in H by lia. replace (Z.max 0 (- e)) with 0 in H by lia. rewrite scaled_0 in H.
  destruct (Z_le_gt_dec (V x * 2 ^ e) (V I)) as [L|G].
  - rewrite Z.min_l by auto. destruct (grid_of f O x ltac:(lia)) as (t & k & -> & Ht & Hk & Hk2).
    assert (E : V (t * 2 ^ M + k) * 2 ^ e = k * 2 ^ (t + s0 f + e)) by (rewrite V_grid by (auto; lia); rewrite <- Z.mul_assoc, <- Z.pow_add_r by lia; reflexivity). rewrite E in *.
    assert (R : V (ieee_round f (k * 2 ^ (t + s0 f + e))) = k * 2 ^ (t + s0 f + e)).
    { apply round_repr; auto; [lia | | lia]. intros K0. apply Z.lt_succ_r. apply Z.log2_lt_pow2; [lia|]. rewrite Z.pow_succ_r by (destruct O as (?&?&?); lia). lia. }
    rewrite <- R. f_equal. apply (nearest_unique f O _ _ _ H). apply ieee_round_nearest; auto. rewrite <- E. nia.
  - rewrite Z.min_r by lia. f_equal. apply (nearest_unique f O _ _ _ H). apply nearest_big; auto. lia.
Qed.
Lemma step_down x e : 0 <= x < I -> e <= 0 -> 1 <= x / 2 ^ M + e -> 0 <= 1074 + e -> step x e = x + e * 2 ^ M /\ 0 <= x + e * 2 ^ M < I /\ (x + e * 2 ^ M) / 2 ^ M = x / 2 ^ M + e /\ V (x + e * 2 ^ M) * 2 ^ (- e) = V x.
Proof.
  intros Hx He H1 H2. pose proof pf_inf as PI. pose proof O as (O1 & O2 & S0). assert (P : 0 < 2 ^ M) by (apply pow2_gt0; lia).
  pose proof (Z.div_mod x (2 ^ M) ltac:(lia)) as D. pose proof (Z.mod_pos_bound x (2 ^ M) ltac:(lia)) as D'.
  assert (R : 0 <= x + e * 2 ^ M < I) by nia. assert (Q : (x + e * 2 ^ M) / 2 ^ M = x / 2 ^ M + e) by (apply Z.div_add; lia).
  assert (E : V (x + e * 2 ^ M) * 2 ^ (- e) = V x).
  { unfold mag_value. rewrite Q. rewrite Z.mod_add by lia. destruct (Z.eqb_spec (x / 2 ^ M + e) 0); [lia|]. destruct (Z.eqb_spec (x / 2 ^ M) 0); [lia|]. unfold s0 in S0. rewrite <- Z.mul_assoc, <- Z.pow_add_r by lia. f_equal. f_equal. lia. }
  split; [|auto]. pose proof (step_near x e Hx H2) as H. unfold times_pow2 in H. replace (Z.max 0 e) with 0 in H by lia. replace (Z.max 0 (- e)) with (- e) in H by lia. change (2 ^ 0) with 1 in H. rewrite Z.mul_1_r in H.
  apply (scaled_unique f O (- e) ltac:(lia) _ _ _ H). rewrite <- E. apply scaled_exact; auto; lia.
Qed.
Lemma V_upper x : 0 <= x < I -> V x < 2 ^ (1075 + Z.max 1 (x / 2 ^ M) - B).
Proof.
  intros Hx. pose proof O as (O1 & O2 & S0). unfold s0 in S0. assert (P : 0 < 2 ^ M) by (apply pow2_gt0; lia). pose proof (Z.mod_pos_bound x (2 ^ M) ltac:(lia)) as D'. assert (Q : 0 <= x / 2 ^ M) by (apply Z.div_pos; lia).
  unfold mag_value. destruct (Z.eqb_spec (x / 2 ^ M) 0) as [E|N].
  - rewrite E. replace (1075 + Z.max 1 0 - B) with (1 + (M + (1074 + 1 - B - M))) by lia. rewrite !Z.pow_add_r by lia. change (2 ^ 1) with 2. assert (0 < 2 ^ (1074 + 1 - B - M)) by (apply pow2_gt0; lia). rewrite <- Z.pow_add_r by lia. 
    set (u := 2 ^ (1074 + 1 - B - M)) in *. replace (2 ^ (1074 + 1 - B - M)) with u by reflexivity. set (p := 2 ^ M) in *. set (mm := x mod p) in *. rewrite Z.pow_add_r by lia. change (2 ^ M) with p. fold u. nia.
  - replace (1075 + Z.max 1 (x / 2 ^ M) - B) with (1 + (M + (1074 + x / 2 ^ M - B - M))) by lia. rewrite (Z.pow_add_r 2 1), (Z.pow_add_r 2 M) by lia. change (2 ^ 1) with 2. assert (0 < 2 ^ (1074 + x / 2 ^ M - B - M)) by (apply pow2_gt0; lia). nia.
Qed.
Lemma V_lower x : 0 < x -> 2 ^ s0 f <= V x.
Proof.
  intros Hx. assert (E : V 1 = 2 ^ s0 f). { pose proof (pm_pos f O). replace 1 with (0 * 2 ^ M + 1) by lia. rewrite V_grid by (auto; lia). rewrite Z.add_0_l. lia. }
  rewrite <- E. apply V_mono; auto; lia.
Qed.
Context (Lmm Lss : Z) (HL : lanes_ok f Lmm Lss).
Lemma up_case x e1 e2 e3 : 0 <= x < I -> 0 <= e1 -> 0 <= e2 -> 0 <= e3 -> times_pow2 f x (e1 + e2 + e3) (step (step (step x e1) e2) e3).
Proof.
  intros Hx U1 U2 U3. pose proof pf_inf as PI. assert (V0 : 0 <= V x) by (apply V_nonneg; auto; lia).
  pose proof (step_range x e1 ltac:(lia) ltac:(lia)) as R1. pose proof (step_range _ e2 R1 ltac:(lia)) as R2. pose proof (step_range _ e3 R2 ltac:(lia)) as R3.
  pose proof (step_up x e1 ltac:(lia) U1) as A1. pose proof (step_up _ e2 R1 U2) as A2. pose proof (step_up _ e3 R2 U3) as A3. set (r := step (step (step x e1) e2) e3) in *.
  assert (A : V r = Z.min (V x * 2 ^ (e1 + e2 + e3)) (V I)).
  { rewrite A3, A2, A1. assert (G : forall a k, 0 <= k -> Z.min (Z.min a (V I) * 2 ^ k) (V I) = Z.min (a * 2 ^ k) (V I)).
    { intros a k Hk. pose proof (pow2_gt0 k Hk) as K0. pose proof (V_nonneg f O I ltac:(lia)) as VI0. destruct (Z_le_gt_dec a (V I)) as [g|g]; [rewrite (Z.min_l a) by auto; reflexivity|]. rewrite (Z.min_r a) by (clear - g; lia).
      assert (K1 : V I <= V I * 2 ^ k) by (clear - VI0 K0; nia). assert (K2 : V I <= a * 2 ^ k) by (clear - VI0 K0 g; nia). rewrite !Z.min_r by auto. reflexivity. }
    rewrite (G (V x * 2 ^ e1) e2) by auto. rewrite G by auto. rewrite !Z.pow_add_r by (clear - U1 U2 U3; lia). rewrite !Z.mul_assoc. reflexivity. }
  clear A1 A2 A3. unfold times_pow2. rewrite (Z.max_r 0 (e1 + e2 + e3)), (Z.max_l 0 (- (e1 + e2 + e3))) by (clear - U1 U2 U3; lia). rewrite scaled_0.
  destruct (Z_le_gt_dec (V x * 2 ^ (e1 + e2 + e3)) (V I)) as [L|G]; [rewrite Z.min_l in A by auto; rewrite <- A; apply nearest_exact; auto|]. rewrite Z.min_r in A by (clear - G; lia).
  rewrite (V_inj f O r I ltac:(clear - R3; lia) ltac:(clear - PI; lia) A). apply nearest_big; auto. clear - G. lia.
Qed.
Lemma zero_case x c : 0 <= x < I -> 0 <= 1074 + c -> times_pow2 f x c (step (step (step x 0) 0) c).
Proof.
  intros Hx Hc. assert (S1 : step x 0 = x).
  { apply (V_inj f O); [apply step_range; lia | lia |]. rewrite step_up by lia. change (2 ^ 0) with 1. rewrite Z.mul_1_r. apply Z.min_l. apply V_mono; auto; lia. }
  rewrite !S1. apply step_near; auto.
Qed.
Lemma down_case x e1 e2 e3 : 0 <= x < I -> e1 <= 0 -> e2 <= 0 -> e3 <= 0 -> 1 <= x / 2 ^ M + e1 + e2 -> 0 <= 1074 + e1 -> 0 <= 1074 + e2 -> 0 <= 1074 + e3 -> times_pow2 f x (e1 + e2 + e3) (step (step (step x e1) e2) e3).
Proof.
  intros Hx D1 D2 D3 HE T1 T2 T3. 
  destruct (step_down x e1 ltac:(lia) ltac:(lia) ltac:(lia) ltac:(lia)) as (A1 & A2 & A3 & A4).
  destruct (step_down (x + e1 * 2 ^ M) e2 ltac:(lia) ltac:(lia) ltac:(lia) ltac:(lia)) as (B1 & B2 & B3 & B4).
  rewrite A1, B1. set (y := x + e1 * 2 ^ M + e2 * 2 ^ M) in *. pose proof (step_near y e3 ltac:(lia) ltac:(lia)) as H. clear A1 A2 A3 B1 B2 B3. clearbody y. unfold times_pow2 in *.
  rewrite (Z.max_l 0 e3), (Z.max_r 0 (- e3)) in H by lia. change (2 ^ 0) with 1 in H. rewrite Z.mul_1_r in H.
  rewrite (Z.max_l 0 (e1 + e2 + e3)), (Z.max_r 0 (- (e1 + e2 + e3))) by lia. change (2 ^ 0) with 1. rewrite Z.mul_1_r. replace (- (e1 + e2 + e3)) with (- e3 + (- e2 + - e1)) by lia.
  rewrite <- A4, <- B4. rewrite <- Z.mul_assoc, <- Z.pow_add_r by lia. apply scaled_shift; [lia | lia | exact H].
Qed.
Lemma over_case x c exp r : 0 <= x < I -> 3 * B <= c -> c <= exp -> times_pow2 f x c r -> times_pow2 f x exp r.
Proof.
  intros Hx Hc Hexp Hr. destruct (sf_num f SF) as (N0 & N1 & N2 & HM & _ & _ & _ & _ & ES & _). pose proof O as (O1 & O2 & S0). assert (V0 : 0 <= V x) by (apply V_nonneg; auto; lia). unfold times_pow2 in *.
  rewrite (Z.max_r 0 c), (Z.max_l 0 (- c)) in Hr by lia. rewrite (Z.max_r 0 exp), (Z.max_l 0 (- exp)) by lia. rewrite scaled_0 in *.
  destruct (Z.eq_dec x 0) as [->|Nx]; [rewrite V_0, Z.mul_0_l in * by auto; exact Hr|].
  assert (Big : V I <= V x * 2 ^ c).
  { rewrite V_inf. pose proof (V_lower x ltac:(lia)) as VL. replace (1075 + B) with (s0 f + (B + B + M)) by lia. rewrite Z.pow_add_r by lia. assert (P1 : 2 ^ (B + B + M) <= 2 ^ c) by (apply Z.pow_le_mono_r; lia). assert (P2 : 0 < 2 ^ s0 f) by (apply pow2_gt0; lia). assert (P3 : 0 < 2 ^ (B + B + M)) by (apply pow2_gt0; lia). clear - VL P1 P2 P3. apply Z.mul_le_mono_nonneg; lia. }
  rewrite (nearest_unique f O _ _ _ Hr (nearest_big f O _ Big)). apply nearest_big; auto. eapply Z.le_trans; [exact Big|]. apply Z.mul_le_mono_nonneg_l; [exact V0|]. apply Z.pow_le_mono_r; lia.
Qed.
Lemma under_case x c exp r : 0 <= x < I -> c <= 0 -> c <= 1 - B - (Z.max 1 (x / 2 ^ M) - 1) \/ c <= 3 - 3 * B -> exp <= c -> times_pow2 f x c r -> times_pow2 f x exp r.
Proof.
  intros Hx Hc0 Hc Hexp Hr. destruct (sf_num f SF) as (N0 & N1 & N2 & HM & _ & E & _ & _ & ES & _). pose proof O as (O1 & O2 & S0). assert (V0 : 0 <= V x) by (apply V_nonneg; auto; lia).
  assert (PM : 0 < 2 ^ M) by (apply pow2_gt0; lia). assert (EF : x / 2 ^ M < 2 ^ ebits f - 1). { unfold inf_mag in Hx. apply Z.div_lt_upper_bound; lia. }
  unfold times_pow2 in *. rewrite (Z.max_l 0 c), (Z.max_r 0 (- c)) in Hr by lia. rewrite (Z.max_l 0 exp), (Z.max_r 0 (- exp)) by lia. change (2 ^ 0) with 1 in *. rewrite Z.mul_1_r in *.
  assert (Tiny : 2 * V x < 2 ^ (s0 f + - c)).
  { pose proof (V_upper x ltac:(lia)) as VU. assert (0 <= x / 2 ^ M) by (apply Z.div_pos; lia). assert (PL : 2 ^ (1 + (1075 + Z.max 1 (x / 2 ^ M) - B)) <= 2 ^ (s0 f + - c)) by (apply Z.pow_le_mono_r; lia). rewrite Z.pow_add_r in PL by lia. change (2 ^ 1) with 2 in PL. lia. }
  rewrite (scaled_unique f O (- c) ltac:(lia) _ _ _ Hr (scaled_tiny f O (- c) ltac:(lia) _ V0 Tiny)). apply scaled_tiny; auto; [lia|]. eapply Z.lt_le_trans; [exact Tiny|]. apply Z.pow_le_mono_r; lia.
Qed.
Lemma chain x v e c exp e1 e2 : is_pattern f v -> in_s (wd f) exp -> x = magnitude f v -> x < I -> 
  let mn := Z.max (- Z.max 0 (efield f v - 1)) (2 - 2 * B) in
  c = Z.max (Z.min exp (3 * B)) (mn + 1 - B) -> mn <= e <= 2 * B -> 1 - B <= c - e <= B -> (0 <= e -> 0 <= c - e \/ (e = 0 /\ c < 0)) -> (e < 0 -> c - e <= 0) -> e = e1 + e2 -> (0 <= e -> 0 <= e1 /\ 0 <= e2) -> (e < 0 -> e1 <= 0 /\ e2 <= 0) -> 1 - B <= e1 -> 1 - B <= e2 ->
  times_pow2 f x exp (step (step (step x e1) e2) (c - e)).
Proof.
  intros Hv Hexp Ex Hx mn Hc He H3 Hup Hdn He12 Hup2 Hdn2 L1 L2. destruct (sf_num f SF) as (N0 & N1 & N2 & HM & _ & E & W & E5 & ES & EM). pose proof O as (O1 & O2 & S0).
  pose proof (efield_range f SF v Hv) as ER. unfold efield in ER. rewrite <- Ex in ER. assert (Emn : mn = Z.max (- Z.max 0 (x / 2 ^ M - 1)) (2 - 2 * B)) by (unfold mn, efield; rewrite <- Ex; reflexivity). clearbody mn. destruct (pf_pat v Hv) as [_ X0]. rewrite <- Ex in X0. clear Ex v Hv.
  set (q := x / 2 ^ M) in *. assert (B1000 : B <= 1074) by lia.
  assert (C1 : c = exp \/ (c = 3 * B /\ c <= exp) \/ (c <= 0 /\ exp <= c /\ c = mn + 1 - B)) by (clear - Hc Emn ER N1; lia).
  assert (Q : - (q - 1) <= mn \/ mn = 0) by (clear - Emn N1; lia). assert (Qm : mn = 0 /\ q <= 1 \/ mn = - (q - 1) /\ 1 <= q \/ mn = 2 - 2 * B) by (clear - Emn N1; lia). clear Hc Emn.
  assert (Hr : times_pow2 f x c (step (step (step x e1) e2) (c - e))).
  { destruct (Z_le_gt_dec 0 e) as [Le|Le]; [destruct (Hup Le) as [Lc|[Ez Lc]]|].
    - destruct (Hup2 Le) as [U1 U2]. pose proof (up_case x e1 e2 (c - e) ltac:(lia) U1 U2 Lc) as K. replace (e1 + e2 + (c - e)) with c in K by lia. exact K.
    - destruct (Hup2 Le) as [U1 U2]. assert (e1 = 0) by lia. assert (e2 = 0) by lia. subst e1 e2 e. replace (c - 0) with c by lia. replace (c - (0 + 0)) with c by lia. apply zero_case; lia.
    - destruct (Hdn2 ltac:(lia)) as [D1 D2]. specialize (Hdn ltac:(lia)). pose proof (down_case x e1 e2 (c - e) ltac:(lia) D1 D2 Hdn) as K. fold q in K. replace (e1 + e2 + (c - e)) with c in K by lia. apply K; clear K; lia. }
  destruct C1 as [-> | [[C1 C2] | (C1 & C2 & C3)]]; [exact Hr | |].
  - apply (over_case x c); auto; lia.
  - apply (under_case x c); auto; [lia | fold q; lia].
Qed.
Lemma mul_by_pow2_ldexp nan v exp : (forall a b, is_pattern f (nan a b) /\ is_nan f (nan a b)) -> is_pattern f v -> in_s (fwidth f) exp -> is_ldexp f v exp (mul_by_pow2 f Lmm Lss nan v exp).
Proof.
  intros HN Hv Hexp. pose proof pf_inf as PI. destruct (exps f SF Lmm Lss HL v exp Hv Hexp) as (Ec & Re & R3 & U & D & e1 & e2 & Ee & R1 & R2 & U2 & D2 & _ & Em). rewrite Em.
  set (c := clamped_exp f Lmm Lss v exp) in *. set (e := exp12 f Lmm Lss v exp) in *. destruct (pf_pat v Hv) as [Pv Rv].
  pose proof O as (_ & _ & S0). destruct (sf_num f SF) as (N0 & N1 & N2 & HM & N8 & E & W & E5 & ES & EM).
  unfold is_ldexp. destruct (Z.lt_trichotomy (magnitude f v) I) as [L|[L|L]].
  - pose proof (step_range (magnitude f v) e1 ltac:(lia) ltac:(lia)) as Q1. pose proof (step_range _ e2 Q1 ltac:(lia)) as Q2. pose proof (step_range _ (c - e) Q2 ltac:(lia)) as Q3.
    assert (Er : fmul f nan (fmul f nan (fmul f nan v (factor f e1)) (factor f e2)) (factor f (c - e)) = mk f (negative f v) (step (step (step (magnitude f v) e1) e2) (c - e))).
    { rewrite Pv at 1. rewrite fmul_step by lia. rewrite fmul_step by lia. rewrite fmul_step by lia. reflexivity. }
    rewrite Er.
    destruct (pf_mk (negative f v) _ (conj (proj1 Q3) (Z.le_lt_trans _ _ _ (proj2 Q3) (proj2 PI)))) as (K1 & K2 & K3).
    split; [exact K1|]. split; [intros Q; unfold is_nan in Q; lia|]. split; [intros Q; unfold is_inf in Q; lia|]. intros _. rewrite K2, K3. split; [reflexivity|].
    apply (chain _ v e c exp e1 e2 Hv Hexp eq_refl L); auto; lia.
  - assert (S : forall k, step I k = I) by (intros; unfold step; rewrite Z.eqb_refl; reflexivity).
    assert (R : fmul f nan (fmul f nan (fmul f nan v (factor f e1)) (factor f e2)) (factor f (c - e)) = v).
    { rewrite Pv. rewrite L. rewrite fmul_step by lia. rewrite S. rewrite fmul_step by lia. rewrite S. rewrite fmul_step by lia. rewrite S. reflexivity. }
    rewrite R. split; [exact Hv|]. split; [auto|]. split; [auto|]. lia.
  - assert (Nv : is_nan f v) by exact L. rewrite (fmul_nan nan v) by exact Nv. rewrite (fmul_nan nan (nan v _)) by apply HN. rewrite fmul_nan by apply HN. split; [apply HN|]. split; [intros _; apply HN|]. split; [intros Q; unfold is_inf in Q; lia | lia].
Qed.
End S.
