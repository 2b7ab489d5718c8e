(** Trunc, Ceil, Floor on each target. *)
From Coq Require Import ZArith Bool Lia.
From Verif Require Import Word Word_Proofs Float_Spec Float_Model Float_Proofs Float_Conv Float_F64 Float_More Rounding_Model Rounding_Spec Rounding_Core Rounding_Proofs Rounding_Ops.
Open Scope Z_scope.
Arguments Z.pow : simpl never.
Arguments Z.mul : simpl never.
Arguments R : simpl never.

Lemma land_high_w : forall w b n, 0 <= n <= w -> 0 <= b < 2 ^ w -> Z.land b (2 ^ w - 2 ^ n) = b / 2 ^ n * 2 ^ n.
Proof.
  intros w b n Hn Hb. apply Z.bits_inj'. intros k Hk. rewrite Z.land_spec.
  assert (P : 0 < 2 ^ n) by (apply pow2_gt0; lia).
  replace (2 ^ w - 2 ^ n) with ((2 ^ (w - n) - 1) * 2 ^ n).
  2:{ rewrite Z.mul_sub_distr_r, <- Z.pow_add_r by lia. replace (w - n + n) with w by lia. lia. }
  destruct (Z.lt_ge_cases k n).
  - rewrite !Z.mul_pow2_bits_low by lia. apply andb_false_r.
  - rewrite !Z.mul_pow2_bits by lia. rewrite <- shiftr_div by lia. rewrite Z.shiftr_spec by lia. replace (k - n + n) with k by lia.
    destruct (Z.lt_ge_cases k w).
    + rewrite Z.sub_1_r. rewrite <- Z.ones_equiv, Z.ones_spec_low by lia. apply andb_true_r.
    + rewrite (testbit_small b w k) by lia. reflexivity.
Qed.
Section T.
Context (f : fmt) (F : float_type f).
Notation M := (mbits f).
Notation V := (mag_value f).
Notation S := (2 ^ (ebits f + mbits f)).
Let O : fmt_ok f := ft_ok f F.

(** casts of values up to B *)
Lemma cast_le : forall w v B, is_pattern f v -> V (magnitude f v) <= B * 2 ^ 1074 -> B * 2 ^ 1074 < V (inf_mag f) -> B <= 2 ^ (w - 1) - 1 ->
  let t := V (magnitude f v) / 2 ^ 1074 in cast f true w v = Some (sg (neg0 f v) t) /\ is_trunc (value f v) (sg (neg0 f v) t) /\ 0 <= t <= B.
Proof.
  intros w v B Hv HV HB Hw t. destruct (pat_mk f F v Hv) as [E Hm]. assert (Hf : magnitude f v < inf_mag f) by (apply V_lt_inf; auto; lia). pose proof (V_nonneg f O (magnitude f v) ltac:(lia)) as V0. pose proof u_pos as U.
  assert (Ht : 0 <= t <= B). { unfold t. split; [apply Z.div_pos; lia|]. apply Z.div_le_upper_bound; lia. }
  assert (Es : sg (negative f v) t = sg (neg0 f v) t). { unfold neg0. destruct (negative f v); cbn [andb]; auto. destruct (Z.ltb_spec 0 (V (magnitude f v))); auto. cbn [sg]. assert (EV0 : V (magnitude f v) = 0) by lia. unfold t. rewrite EV0. reflexivity. }
  split; [|split; auto].
  - rewrite <- Es. rewrite E at 1. apply cast_mk; auto; [lia|]. fold t. unfold lowest, highest. destruct (negative f v); cbn [sg]; lia.
  - rewrite (value_neg0 f F) by lia. apply is_trunc_sg. lia.
Qed.
Lemma zero_rounds : forall v n (rnd : Z -> Z -> Prop), is_pattern f v -> magnitude f v < inf_mag f -> rnd (value f v) 0 -> rounds rnd f v (mk f n 0).
Proof.
  intros v n rnd Hv Hf H. pose proof (inf_S f F) as IS. destruct (mk_facts f F n 0 ltac:(lia)) as (A & B & C). apply rounds_val with 0; auto; [lia|]. rewrite (value_mk f F), V_0 by (auto; lia). destruct n; reflexivity.
Qed.
Lemma fneg_zero : fneg f (fzero f) = mk f true 0.
Proof. destruct F as [-> | ->]; vm_compute; reflexivity. Qed.
Lemma trunc_steps : forall v, is_pattern f v -> V (magnitude f v) <= 2 ^ M * 2 ^ 1074 -> exists t, cast f true (wd f) v = Some t /\ is_trunc (value f v) t /\ Z.abs t <= 2 ^ M.
Proof.
  intros v Hv H. pose proof (PM f F) as PM0. destruct (cast_le (wd f) v (2 ^ M) Hv H ltac:(apply K_inf; auto; lia) (wd_M f F)) as (A & B & C). eexists. split; [exact A|]. split; auto. apply sg_bound; auto.
Qed.
Lemma emu_trunc_ok : forall v, is_pattern f v -> exists r, emu_trunc f v = Some r /\ rounds is_trunc f v r.
Proof.
  intros v Hv. unfold emu_trunc. rewrite (fle_mend f F) by auto. destruct (Z.leb_spec (V (magnitude f v)) (2 ^ M * 2 ^ 1074)) as [L|L]; cbn [negb]; [|exists v; split; auto; apply rounds_large; auto using keeps_trunc; lia].
  assert (Hf : magnitude f v < inf_mag f) by (apply (fin_small f F); auto). destruct (trunc_steps v Hv L) as (t & A & B & C). rewrite A. cbn [bind]. destruct (Z.eqb_spec t 0).
  - subst t. eexists. split; [reflexivity|]. destruct (flt f v (fzero f)); [rewrite fneg_zero | unfold fzero]; apply zero_rounds; auto.
  - eexists. split; [reflexivity|]. destruct (value_of_int f F t C) as (D1 & D2 & _ & D3). apply rounds_val with t; auto.
Qed.
Lemma scalar_trunc_ok : forall v, is_pattern f v -> exists r, scalar_trunc f v = Some r /\ rounds is_trunc f v r.
Proof.
  intros v Hv. unfold scalar_trunc. rewrite (fle_mend f F) by auto. destruct (Z.leb_spec (V (magnitude f v)) (2 ^ M * 2 ^ 1074)) as [L|L]; cbn [negb]; [|exists v; split; auto; apply rounds_large; auto using keeps_trunc; lia].
  assert (Hf : magnitude f v < inf_mag f) by (apply (fin_small f F); auto). destruct (trunc_steps v Hv L) as (t & A & B & C). rewrite A. cbn [bind]. destruct (Z.eqb_spec t 0).
  - subst t. eexists. split; [reflexivity|]. unfold fzero. rewrite copy_sign_zero by (auto; pose proof (S_pos f F); lia). apply zero_rounds; auto.
  - eexists. split; [reflexivity|]. destruct (value_of_int f F t C) as (D1 & D2 & _ & D3). apply rounds_val with t; auto.
Qed.
(** an integer part, with its float *)
Lemma sse2_steps : forall junk v, is_pattern f v -> V (magnitude f v) < 2 ^ M * 2 ^ 1074 -> magnitude f v < inf_mag f /\ exists t, convert_in_range f junk v = t /\ is_trunc (value f v) t /\ Z.abs t < 2 ^ M /\
  is_pattern f (of_int f t) /\ magnitude f (of_int f t) < inf_mag f /\ value f (of_int f t) = t * 2 ^ 1074.
Proof.
  intros junk v Hv L. split; [apply (fin_small f F); auto; lia|]. unfold convert_in_range. pose proof (PM f F) as PM0. destruct (cast_le (wd f) v (2 ^ M) Hv ltac:(lia) ltac:(apply K_inf; auto; lia) (wd_M f F)) as (A & B & C). rewrite A. eexists. split; [reflexivity|]. split; auto.
  assert (D : Z.abs (sg (neg0 f v) (V (magnitude f v) / 2 ^ 1074)) < 2 ^ M). { assert (V (magnitude f v) / 2 ^ 1074 < 2 ^ M) by (apply Z.div_lt_upper_bound; [apply u_pos | lia]). destruct (neg0 f v); cbn [sg]; lia. }
  split; auto. destruct (value_of_int f F (sg (neg0 f v) (V (magnitude f v) / 2 ^ 1074)) ltac:(lia)) as (D1 & D2 & _ & D3). auto.
Qed.
Lemma trunc_sign : forall v t, is_trunc v t -> (v <= 0 -> t <= 0) /\ (0 <= v -> 0 <= t).
Proof. intros v t [H1 H2]. unfold is_floor, is_ceil in *. rewrite one_unit in *. pose proof u_pos as U. revert H1 H2 U. generalize (2 ^ 1074). intros. split; intros; [specialize (H2 H) | specialize (H1 H)]; nia. Qed.
Lemma sse2_trunc_ok : forall junk v, is_pattern f v -> rounds is_trunc f v (sse2_trunc f junk v).
Proof.
  intros junk v Hv. unfold sse2_trunc, use_int. rewrite (flt_mend f F) by auto. destruct (Z.ltb_spec (V (magnitude f v)) (2 ^ M * 2 ^ 1074)) as [L|L]; [|apply rounds_large; auto using keeps_trunc].
  destruct (sse2_steps junk v Hv L) as (Hf & t & E & Ht & Hb & A1 & A2 & A3). rewrite E. destruct (classify_ok f (of_int f t) (ft_hwy f F) A1) as (_ & _ & _ & _ & _ & C). destruct (C v Hv) as (C1 & C2 & C3). apply rounds_val with t; auto; [lia|].
  rewrite value_sg, C2, C3. destruct (trunc_sign _ _ Ht) as [T1 T2]. destruct (of_int_small f F t ltac:(lia)) as (I1 & I2 & I3). pose proof (inf_S f F) as IS. rewrite I1. destruct (mk_facts f F (t <? 0) (ieee_round f (Z.abs t * 2 ^ 1074)) ltac:(lia)) as (_ & _ & ->). rewrite I3.
  destruct (pat_mk f F v Hv) as [_ Hm]. pose proof (V_nonneg f O (magnitude f v) ltac:(lia)). rewrite value_sg in T1, T2. destruct (negative f v); cbn [sg] in *; [specialize (T1 ltac:(lia)) | specialize (T2 ltac:(lia))]; lia.
Qed.
Lemma fadd_int : forall nan x y, Z.abs x <= 2 ^ M -> Z.abs y <= 2 ^ M -> Z.abs (x + y) <= 2 ^ M ->
  let r := fadd f nan (of_int f x) (of_int f y) in is_pattern f r /\ magnitude f r < inf_mag f /\ value f r = (x + y) * 2 ^ 1074.
Proof.
  intros nan x y Hx Hy Hs r. destruct (value_of_int f F x Hx) as (A1 & A2 & _ & A3). destruct (value_of_int f F y Hy) as (B1 & B2 & _ & B3). pose proof u_pos as U. pose proof (inf_S f F) as IS.
  destruct (fadd_fin f nan (of_int f x) (of_int f y) A2 B2) as (n & E & N1 & N2). rewrite A3, B3 in *. replace (x * 2 ^ 1074 + y * 2 ^ 1074) with ((x + y) * 2 ^ 1074) in * by ring.
  destruct (of_int_small f F (x + y) Hs) as (I1 & I2 & I3). unfold r. rewrite E. rewrite Z.abs_mul, (Z.abs_eq (2 ^ 1074)) by lia. destruct (mk_facts f F n (ieee_round f (Z.abs (x + y) * 2 ^ 1074)) ltac:(lia)) as (C1 & C2 & C3).
  split; auto. split; [lia|]. rewrite (value_mk f F), I3 by lia. destruct (Z_lt_le_dec (x + y) 0); [rewrite (N1 ltac:(nia)); cbn [sg]; lia|]. destruct (Z.eq_dec (x + y) 0) as [->|]; [destruct n; reflexivity|]. rewrite (N2 ltac:(nia)). cbn [sg]. lia.
Qed.
Lemma fneg_int : forall z, Z.abs z <= 2 ^ M -> z <> 0 -> fneg f (of_int f z) = of_int f (- z).
Proof.
  intros z Hz N. destruct (of_int_small f F z Hz) as (I1 & I2 & _). destruct (of_int_small f F (- z) ltac:(lia)) as (J1 & J2 & _). rewrite Z.abs_opp in *. pose proof (inf_S f F) as IS. rewrite J1.
  destruct (value_of_int f F z Hz) as (A1 & _ & A2 & _). destruct (fneg_fin f F (of_int f z) A1) as (B1 & B2 & B3 & _). destruct (mk_facts f F (- z <? 0) (ieee_round f (Z.abs z * 2 ^ 1074)) ltac:(lia)) as (C1 & C2 & C3).
  destruct (mk_facts f F (z <? 0) (ieee_round f (Z.abs z * 2 ^ 1074)) ltac:(lia)) as (D1 & D2 & D3). apply (pat_eq f F); auto; rewrite ?B2, ?B3, ?C2, ?C3, ?I1, ?D2, ?D3; auto. destruct (Z.ltb_spec z 0), (Z.ltb_spec (- z) 0); auto; lia.
Qed.
(** subtracting 0.0 or -1.0 *)
Lemma fsub_mask : forall nan t (b : bool), Z.abs t < 2 ^ M ->
  let r := fsub f nan (of_int f t) (of_int f (if b then -1 else 0)) in is_pattern f r /\ magnitude f r < inf_mag f /\ value f r = (if b then t + 1 else t) * 2 ^ 1074.
Proof.
  intros nan t b Ht r. pose proof (PM f F) as PM0. unfold r, fsub. destruct b.
  - rewrite fneg_int by lia. apply (fadd_int nan t 1); lia.
  - rewrite of_int_0 by auto. pose proof (fneg_zero) as Z0. change (fzero f) with 0 in Z0. rewrite Z0. destruct (value_of_int f F t ltac:(lia)) as (A1 & A2 & _ & A3). pose proof (inf_S f F) as IS. destruct (mk_facts f F true 0 ltac:(lia)) as (B1 & B2 & B3).
    destruct (fadd_fin f nan (of_int f t) (mk f true 0) A2 ltac:(lia)) as (n & E & N1 & N2). rewrite E. rewrite (value_mk f F), V_0, A3 in * by (auto; lia). cbn [sg] in *. rewrite Z.add_0_r in *. pose proof u_pos as U. rewrite Z.abs_mul, (Z.abs_eq (2 ^ 1074)) by lia.
    destruct (of_int_small f F t ltac:(lia)) as (I1 & I2 & I3). destruct (mk_facts f F n (ieee_round f (Z.abs t * 2 ^ 1074)) ltac:(lia)) as (C1 & C2 & C3). split; auto. split; [lia|]. rewrite (value_mk f F), I3 by lia.
    destruct (Z_lt_le_dec t 0); [rewrite (N1 ltac:(nia)); cbn [sg]; lia|]. destruct (Z.eq_dec t 0) as [->|]; [destruct n; reflexivity|]. rewrite (N2 ltac:(nia)). cbn [sg]. lia.
Qed.
Lemma ceil_of_trunc : forall v t, is_trunc v t -> is_ceil v (if t * 2 ^ 1074 <? v then t + 1 else t).
Proof.
  intros v t [H1 H2]. unfold is_floor, is_ceil in *. rewrite one_unit in *. pose proof u_pos as U. revert H1 H2 U. generalize (2 ^ 1074). intros u H1 H2 U. destruct (Z_le_gt_dec 0 v); [specialize (H1 ltac:(lia)) | specialize (H2 ltac:(lia))]; destruct (Z.ltb_spec (t * u) v); nia.
Qed.
Lemma floor_of_trunc : forall v t, is_trunc v t -> is_floor v (if v <? t * 2 ^ 1074 then t - 1 else t).
Proof.
  intros v t [H1 H2]. unfold is_floor, is_ceil in *. rewrite one_unit in *. pose proof u_pos as U. revert H1 H2 U. generalize (2 ^ 1074). intros u H1 H2 U. destruct (Z_le_gt_dec 0 v); [specialize (H1 ltac:(lia)) | specialize (H2 ltac:(lia))]; destruct (Z.ltb_spec v (t * u)); nia.
Qed.
Lemma sse2_ceil_ok : forall nan junk v, is_pattern f v -> rounds is_ceil f v (sse2_ceil f nan junk v).
Proof.
  intros nan junk v Hv. unfold sse2_ceil, use_int. rewrite (flt_mend f F) by auto. destruct (Z.ltb_spec (V (magnitude f v)) (2 ^ M * 2 ^ 1074)) as [L|L]; [|apply rounds_large; auto using keeps_ceil].
  destruct (sse2_steps junk v Hv L) as (Hf & t & E & Ht & Hb & A1 & A2 & A3). rewrite E. rewrite flt_fin by auto. rewrite A3. destruct (fsub_mask nan t (t * 2 ^ 1074 <? value f v) Hb) as (B1 & B2 & B3).
  apply rounds_val with (if t * 2 ^ 1074 <? value f v then t + 1 else t); auto. apply ceil_of_trunc; auto.
Qed.
Lemma sse2_floor_ok : forall nan junk v, is_pattern f v -> rounds is_floor f v (sse2_floor f nan junk v).
Proof.
  intros nan junk v Hv. unfold sse2_floor, use_int. rewrite (flt_mend f F) by auto. destruct (Z.ltb_spec (V (magnitude f v)) (2 ^ M * 2 ^ 1074)) as [L|L]; [|apply rounds_large; auto using keeps_floor].
  destruct (sse2_steps junk v Hv L) as (Hf & t & E & Ht & Hb & A1 & A2 & A3). rewrite E. rewrite flt_fin by auto. rewrite A3. pose proof (PM f F) as PM0.
  destruct (fadd_int nan t (if value f v <? t * 2 ^ 1074 then -1 else 0)) as (B1 & B2 & B3); [lia | destruct (value f v <? t * 2 ^ 1074); lia | destruct (value f v <? t * 2 ^ 1074); lia |].
  apply rounds_val with (t + (if value f v <? t * 2 ^ 1074 then -1 else 0)); auto. pose proof (floor_of_trunc _ _ Ht) as H. destruct (value f v <? t * 2 ^ 1074); [exact H | rewrite Z.add_0_r; exact H].
Qed.
End T.
