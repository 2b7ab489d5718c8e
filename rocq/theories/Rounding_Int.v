(** Conversions to integers; DemoteTo from double to float. *)
From Coq Require Import ZArith Bool Lia.
From Verif Require Import Word Word_Proofs Float_Spec Float_Model Float_Proofs Float_Conv Float_F64 Float_More Rounding_Model Rounding_Spec Rounding_Core Rounding_Proofs Rounding_Ops Rounding_Ops2 Rounding_Bits.
Open Scope Z_scope.
Arguments Z.pow : simpl never.
Arguments Z.mul : simpl never.
Arguments R : simpl never.
Lemma clamp_id : forall lo hi x, lo <= x <= hi -> clamp lo hi x = x.
Proof. intros lo hi x H. unfold clamp. destruct (Z.ltb_spec x lo), (Z.ltb_spec hi x); lia. Qed.
Lemma clamp_hi : forall lo hi x, lo <= hi -> hi <= x -> clamp lo hi x = hi.
Proof. intros lo hi x H1 H2. unfold clamp. destruct (Z.ltb_spec x lo), (Z.ltb_spec hi x); lia. Qed.
Lemma clamp_lo : forall lo hi x, lo <= hi -> x <= lo -> clamp lo hi x = lo.
Proof. intros lo hi x H1 H2. unfold clamp. destruct (Z.ltb_spec x lo), (Z.ltb_spec hi x); lia. Qed.
Section I.
Context (f : fmt) (F : float_type f).
Notation M := (mbits f).
Notation E := (ebits f).
Notation V := (mag_value f).
Notation S := (2 ^ (ebits f + mbits f)).
Let O : fmt_ok f := ft_ok f F.
Lemma low_high : forall sgn w, 1 <= w -> lowest sgn w <= 0 <= highest sgn w.
Proof. intros sgn w Hw. unfold lowest, highest. assert (0 < 2 ^ (w - 1)) by (apply pow_pos; lia). assert (0 < 2 ^ w) by (apply pow_pos; lia). destruct sgn; lia. Qed.
Lemma wd_pos : 1 <= wd f. Proof. destruct F as [-> | ->]; vm_compute; discriminate. Qed.
Lemma wd_split : 2 ^ (wd f - 1) = S. Proof. unfold wd, fwidth. f_equal. lia. Qed.

(** NearestInt *)
Lemma limit_facts : magnitude f (of_int f (highest true (wd f))) < inf_mag f /\ value f (of_int f (highest true (wd f))) = 2 ^ (wd f - 1) * 2 ^ 1074 /\ 2 ^ (wd f - 1) * 2 ^ 1074 < V (inf_mag f).
Proof. destruct F as [-> | ->]; vm_compute; repeat split. Qed.
Lemma near_small_ok : forall nan w v B, is_pattern f v -> V (magnitude f v) < 2 ^ M * 2 ^ 1074 -> V (magnitude f v) <= B * 2 ^ 1074 -> 1 <= B <= 2 ^ M -> B <= 2 ^ (w - 1) - 1 ->
  exists r, nearest_small f nan w v = Some r /\ is_nearest (value f v) r /\ Z.abs r <= B.
Proof.
  intros nan w v B Hv H1 H2 H3 H4. destruct (pat_mk f F v Hv) as [_ Hm]. destruct (near_core f F nan w v B Hv H1 H2 H3 H4) as (q & Eq & Hq & Hq0 & EN). unfold nearest_small. rewrite Eq. cbn [bind].
  destruct (near_mag_ok (V (magnitude f v)) ltac:(apply V_nonneg; auto; lia)) as [N1 N2]. rewrite EN in N1. apply (is_nearest_sg (neg0 f v)) in N1. rewrite <- (value_neg0 f F) in N1 by lia. rewrite (sign_bit_eq f F) by auto.
  replace (sg (neg0 f v) q =? 0) with (q =? 0). 2:{ destruct (neg0 f v); cbn [sg]; auto. destruct (Z.eqb_spec q 0), (Z.eqb_spec (- q) 0); auto; lia. }
  destruct (Z.eqb_spec q 0) as [Q0|Q0].
  - exists 0. split; auto. split; [|lia]. destruct (neg0 f v); exact N1.
  - specialize (Hq0 Q0). assert (Hn : negative f v = neg0 f v). { unfold neg0. rewrite (proj2 (Z.ltb_lt _ _) Hq0). destruct (negative f v); reflexivity. } rewrite Hn.
    destruct (tie f nan v (sg (neg0 f v) q)); (eexists; split; [reflexivity|]).
    + replace (sg (neg0 f v) q - (if neg0 f v then -1 else 1)) with (sg (neg0 f v) (q - 1)) by (destruct (neg0 f v); cbn [sg]; lia). split; auto. apply sg_bound; lia.
    + split; auto. apply sg_bound; lia.
Qed.
Lemma abs_of_int : forall a n, 0 <= a -> a = n * 2 ^ 1074 -> 0 <= n. Proof. intros a n H1 H2. pose proof u_pos. nia. Qed.
Lemma nearest_int_ok : forall nan v, is_pattern f v -> ~ is_nan f v -> (finite f v -> value f v <> 2 ^ (wd f - 1) * unit) ->
  exists r, nearest_int f nan v = Some r /\ converts is_nearest f (- 2 ^ (wd f - 1)) (2 ^ (wd f - 1) - 1) v r.
Proof.
  intros nan v Hv Hn Hx. destruct (pat_mk f F v Hv) as [Ev Hm]. pose proof (V_nonneg f O (magnitude f v) ltac:(lia)) as V0. unfold nearest_int. rewrite (flt_mend f F), (sign_bit_eq f F) by auto. pose proof (PM f F) as PM0. pose proof (wd_M f F) as WM. pose proof u_pos as U.
  destruct limit_facts as (L1 & L2 & L3). set (W := 2 ^ (wd f - 1)) in *. unfold highest, lowest. fold W. unfold highest in L1, L2, L3. fold W in L1, L2. unfold converts, is_inf, finite in *. unfold is_nan in Hn.
  destruct (Z.ltb_spec (V (magnitude f v)) (2 ^ M * 2 ^ 1074)) as [L|L]; cbn [negb].
  - assert (Hf : magnitude f v < inf_mag f) by (apply (fin_small f F); auto; lia). destruct (near_small_ok nan (wd f) v (2 ^ M) Hv L ltac:(lia) ltac:(lia) WM) as (r & A1 & A2 & A3). exists r. split; auto. split; [intros; lia|]. intros _. exists r. split; auto. rewrite clamp_id; auto. fold W in WM. lia.
  - destruct (large_int f F (magnitude f v) ltac:(lia) L) as (n & EV). rewrite one_unit in EV. assert (Hn0 : 0 <= n) by nia. rewrite (fle_abs f F) by (auto; lia). rewrite L2.
    assert (Eval : value f v = sg (negative f v) n * unit) by (rewrite value_sg, EV, one_unit; destruct (negative f v); cbn [sg]; ring). destruct (exact_ok (sg (negative f v) n)) as (_ & _ & _ & K). rewrite <- Eval in K.
    destruct (Z.leb_spec (V (magnitude f v)) (W * 2 ^ 1074)) as [L4|L4]; cbn [negb].
    + assert (Hf : magnitude f v < inf_mag f) by (apply V_lt_inf; auto; lia). assert (Hn1 : n <= W) by nia. specialize (Hx Hf). rewrite Eval in Hx.
      assert (HB : - W <= sg (negative f v) n <= W - 1). { destruct (negative f v); cbn [sg] in *; [lia|]. destruct (Z.eq_dec n W); [subst n; lia | lia]. }
      exists (sg (negative f v) n). split. { pose proof (cast_mk f F true (wd f) (negative f v) (magnitude f v) ltac:(lia)) as CM. cbv zeta in CM. rewrite EV, Z.div_mul in CM by lia. rewrite <- Ev in CM. apply CM. unfold lowest, highest. fold W. exact HB. }
      split; [intros; lia|]. intros _. exists (sg (negative f v) n). split; auto. rewrite clamp_id; auto.
    + assert (Hn1 : W < n) by nia. eexists. split; [reflexivity|]. split; auto. intros _. exists (sg (negative f v) n). split; auto. destruct (negative f v); cbn [sg]; [rewrite clamp_lo | rewrite clamp_hi]; auto; lia.
Qed.
(** float to integer casts with saturation *)
Lemma V_lt_pow : forall v e, is_pattern f v -> 0 <= e -> fld f v - bias f < e -> V (magnitude f v) < 2 ^ e * 2 ^ 1074.
Proof.
  intros v e Hv He H. destruct (Z_lt_le_dec (fld f v - bias f) 0) as [L|L]; [pose proof (V_lt_1 f F v Hv L); assert (0 < 2 ^ e) by (apply pow_pos; lia); pose proof u_pos; nia|].
  destruct (pat_mk f F v Hv) as [_ Hm]. destruct (fld_man f F v ltac:(lia)) as (A & B & C). destruct (ft_M f F) as [HM Hs]. pose proof (bias_pos f F). rewrite (V_fields f v) by (auto; lia). assert (P : 0 < 2 ^ (1074 + (fld f v - bias f) - M)) by (apply pow_pos; lia).
  apply Z.lt_le_trans with (2 * 2 ^ M * 2 ^ (1074 + (fld f v - bias f) - M)); [nia|]. replace (2 * 2 ^ M) with (2 ^ (1 + M)) by (rewrite Z.pow_add_r by lia; reflexivity). rewrite <- !Z.pow_add_r by lia. apply Z.pow_le_mono_r; lia.
Qed.
Lemma V_ge_pow : forall v e, is_pattern f v -> 0 <= e <= fld f v - bias f -> 2 ^ e * 2 ^ 1074 <= V (magnitude f v).
Proof.
  intros v e Hv He. destruct (pat_mk f F v Hv) as [_ Hm]. destruct (fld_man f F v ltac:(lia)) as (A & B & C). destruct (ft_M f F) as [HM Hs]. pose proof (bias_pos f F). rewrite (V_fields f v) by (auto; lia). assert (P : 0 < 2 ^ (1074 + (fld f v - bias f) - M)) by (apply pow_pos; lia).
  apply Z.le_trans with (2 ^ M * 2 ^ (1074 + (fld f v - bias f) - M)); [|nia]. rewrite <- !Z.pow_add_r by lia. apply Z.pow_le_mono_r; lia.
Qed.
Lemma in_range_eq : forall sgn w v, is_pattern f v -> 1 <= w <= 64 -> in_range f sgn w v = (sgn || negb (negative f v)) && (fld f v <? bias f + w - (if sgn then 1 else 0)).
Proof.
  intros sgn w v Hv Hw. destruct (pat_mk f F v Hv) as [Ev Hm]. destruct (fld_man f F v ltac:(lia)) as (A & B & C). pose proof (fld_lt f F v Hv) as FL. pose proof (PM f F) as PM0. destruct O as (O1 & O2 & _).
  assert (Hb : (2 ^ E - 1) / 2 = bias f /\ bias f + 64 < 2 ^ E - 1) by (destruct F as [-> | ->]; vm_compute; split; reflexivity). destruct Hb as [Hb1 Hb2].
  unfold in_range, min_out_of_range. rewrite Hb1. rewrite Z.min_l by (destruct sgn; lia). destruct sgn; cbn [orb andb].
  - f_equal. rewrite (abs_mk f F) by auto. unfold mk. rewrite Z.add_0_l. rewrite shiftr_div by lia. reflexivity.
  - rewrite shiftr_div by lia. rewrite Ev at 1. unfold mk. destruct (negative f v); cbn [negb andb].
    + apply Z.ltb_ge. rewrite (SE f F). rewrite Z.div_add_l by lia. fold (fld f v). lia.
    + rewrite Z.add_0_l. reflexivity.
Qed.
Lemma from_bits_eq : forall sgn w (n : bool), 1 <= w -> from_bits sgn w (highest sgn w + (if n then 1 else 0)) = if n then lowest sgn w else highest sgn w.
Proof.
  intros sgn w n Hw. unfold from_bits, highest, lowest, wrap. assert (P : 0 < 2 ^ (w - 1)) by (apply pow_pos; lia). assert (E2 : 2 ^ w = 2 * 2 ^ (w - 1)) by (replace w with (1 + (w - 1)) at 1 by lia; rewrite Z.pow_add_r by lia; reflexivity). rewrite E2.
  destruct sgn, n; cbn [andb].
  - rewrite Z.mod_small by lia. rewrite (proj2 (Z.leb_le _ _)) by lia. lia.
  - rewrite Z.mod_small by lia. destruct (Z.leb_spec (2 ^ (w - 1)) (2 ^ (w - 1) - 1 + 0)); lia.
  - replace (2 * 2 ^ (w - 1) - 1 + 1) with (2 * 2 ^ (w - 1)) by lia. apply Z.mod_same. lia.
  - rewrite Z.mod_small by lia. lia.
Qed.
Lemma trunc_ge : forall v t e, is_trunc v t -> 2 ^ e * 2 ^ 1074 <= v -> 2 ^ e <= t.
Proof.
  intros v t e [H1 _] H. unfold is_floor in H1. rewrite one_unit in *. pose proof u_pos as U. destruct (Z_le_gt_dec 0 e) as [P|P]; [assert (0 < 2 ^ e) by (apply pow_pos; lia) | rewrite (Z.pow_neg_r 2 e) in * by lia]; specialize (H1 ltac:(nia)); nia.
Qed.
Lemma trunc_opp : forall v t, is_trunc v t -> is_trunc (- v) (- t).
Proof. intros v t [H1 H2]. unfold is_trunc, is_floor, is_ceil in *. split; intros; [specialize (H2 ltac:(lia)) | specialize (H1 ltac:(lia))]; nia. Qed.
Lemma cast_f2i_ok : forall sgn w v, is_pattern f v -> 1 < w <= 64 -> exists r, cast_f2i f sgn w v = Some r /\ (~ is_nan f v -> converts is_trunc f (lowest sgn w) (highest sgn w) v r).
Proof.
  intros sgn w v Hv Hw. destruct (pat_mk f F v Hv) as [Ev Hm]. pose proof (V_nonneg f O (magnitude f v) ltac:(lia)) as V0. pose proof (inf_S f F) as IS. pose proof u_pos as U. unfold cast_f2i. rewrite in_range_eq by (auto; lia). rewrite (sign_bit_eq f F) by auto.
  set (e := w - (if sgn then 1 else 0)). assert (He : 0 <= e) by (unfold e; destruct sgn; lia). assert (EH : highest sgn w = 2 ^ e - 1) by (unfold highest, e; destruct sgn; f_equal; f_equal; lia). assert (Pe : 0 < 2 ^ e) by (apply pow_pos; lia).
  assert (EL : sgn = true -> lowest sgn w = - 2 ^ e) by (intros ->; unfold lowest, e; reflexivity). assert (EL0 : sgn = false -> lowest sgn w = 0) by (intros ->; reflexivity).
  assert (LH : lowest sgn w <= 0 <= highest sgn w) by (apply low_high; lia). unfold converts, is_inf, finite.
  set (t := V (magnitude f v) / 2 ^ 1074). pose proof (is_trunc_sg (negative f v) (V (magnitude f v)) V0) as HT. fold t in HT. rewrite <- value_sg in HT. assert (T0 : 0 <= t) by (apply Z.div_pos; lia).
  destruct (Z.ltb_spec (fld f v) (bias f + w - (if sgn then 1 else 0))) as [L|L]; [destruct (sgn || negb (negative f v)) eqn:Eb; cbn [andb] | rewrite andb_false_r].
  - assert (HV : V (magnitude f v) < 2 ^ e * 2 ^ 1074) by (apply V_lt_pow; auto; unfold e; lia). assert (T1 : t < 2 ^ e) by (apply Z.div_lt_upper_bound; lia).
    assert (Hf : magnitude f v < inf_mag f). { apply V_lt_inf; auto. assert (2 ^ 64 * 2 ^ 1074 < V (inf_mag f)) by (destruct F as [-> | ->]; vm_compute; reflexivity). assert (2 ^ e <= 2 ^ 64) by (apply Z.pow_le_mono_r; unfold e; destruct sgn; lia). nia. }
    assert (HB : lowest sgn w <= sg (negative f v) t <= highest sgn w). { destruct sgn; cbn [orb] in Eb; [specialize (EL eq_refl); destruct (negative f v); cbn [sg]; lia|]. destruct (negative f v); [discriminate|]. cbn [sg]. lia. }
    exists (sg (negative f v) t). split; [rewrite Ev at 1; apply cast_mk; auto; lia|]. intros _. split; [intros; lia|]. intros _. exists (sg (negative f v) t). split; auto. rewrite clamp_id; auto.
  - exists (lowest sgn w). rewrite from_bits_eq by lia. destruct sgn; [discriminate|]. destruct (negative f v); [|discriminate]. split; auto. intros _. split; auto. intros _. exists (sg true t). split; auto. rewrite EL0 by auto. rewrite clamp_lo; auto; cbn [sg]; lia.
  - exists (if negative f v then lowest sgn w else highest sgn w). rewrite from_bits_eq by lia. split; auto. intros _. split; auto. intros _. exists (sg (negative f v) t). split; auto.
    assert (HV : 2 ^ e * 2 ^ 1074 <= V (magnitude f v)) by (apply V_ge_pow; auto; unfold e; lia). assert (T1 : 2 ^ e <= t) by (apply Z.div_le_lower_bound; lia).
    destruct (negative f v); cbn [sg]; [rewrite clamp_lo | rewrite clamp_hi]; auto; try lia. destruct sgn; [specialize (EL eq_refl) | specialize (EL0 eq_refl)]; lia.
Qed.
(** ConvertInRangeTo and so on: where the result is the rounded value itself *)
Lemma cast_in_range_ok : forall sgn w v n, is_pattern f v -> 1 < w <= 64 -> finite f v -> is_trunc (value f v) n -> lowest sgn w <= n <= highest sgn w -> (sgn = false -> negative f v = false) -> cast_in_range_f2i f sgn w v = Some n.
Proof.
  intros sgn w v n Hv Hw Hf HT Hb Hs. destruct (cast_f2i_ok sgn w v Hv Hw) as (r & A & B). unfold cast_f2i, cast_in_range_f2i in *. assert (Hnn : ~ is_nan f v) by (unfold is_nan, finite in *; lia). destruct (B Hnn) as [_ B2]. destruct (B2 Hf) as (n' & T' & Er).
  assert (n' = n). { unfold is_trunc, is_floor, is_ceil in *. pose proof u_pos as U. rewrite one_unit in *. destruct HT as [H1 H2], T' as [H3 H4]. destruct (Z_le_gt_dec 0 (value f v)); [specialize (H1 ltac:(lia)); specialize (H3 ltac:(lia)) | specialize (H2 ltac:(lia)); specialize (H4 ltac:(lia))]; nia. }
  subst n'. rewrite clamp_id in Er by auto. subst r. destruct (in_range f sgn w v) eqn:Ei; auto. f_equal. injection A as A. rewrite from_bits_eq in A by lia. rewrite (sign_bit_eq f F) in A by auto. rewrite in_range_eq in Ei by (auto; lia).
  destruct (pat_mk f F v Hv) as [Ev Hm]. destruct (negative f v) eqn:En; auto. exfalso. cbn [negb] in Ei. rewrite orb_true_r in Ei. cbn [andb] in Ei. apply Z.ltb_ge in Ei.
  assert (G : 2 ^ (w - (if sgn then 1 else 0)) * 2 ^ 1074 <= V (magnitude f v)) by (apply V_ge_pow; auto; destruct sgn; lia). rewrite value_sg, En in HT. cbn [sg] in HT. apply (trunc_ge _ _ _ HT) in G. unfold highest in *. destruct sgn; [|rewrite Z.sub_0_r in G]; lia.
Qed.
(** CeilInt and FloorInt *)
Lemma from_bits_id : forall x, - 2 ^ (wd f - 1) <= x <= 2 ^ (wd f - 1) - 1 -> from_bits true (wd f) x = x.
Proof.
  intros x Hx. unfold from_bits. rewrite wd_split in *. pose proof (wd_S f F) as WS. unfold wrap. rewrite WS. cbn [andb]. destruct (Z_le_gt_dec 0 x).
  - rewrite Z.mod_small by lia. destruct (Z.leb_spec S x); lia.
  - rewrite <- (Z.mod_add x 1) by lia. rewrite Z.mod_small by lia. destruct (Z.leb_spec S (x + 1 * (2 * S))); lia.
Qed.
Lemma int_steps : forall conv v, is_pattern f v -> ~ is_nan f v -> converts is_trunc f (- 2 ^ (wd f - 1)) (2 ^ (wd f - 1) - 1) v (conv v) ->
  if use_int f v then finite f v /\ is_trunc (value f v) (conv v) /\ Z.abs (conv v) < 2 ^ M else
    (is_inf f v -> conv v = if negative f v then - 2 ^ (wd f - 1) else 2 ^ (wd f - 1) - 1) /\ (finite f v -> exists n, value f v = n * unit /\ conv v = clamp (- 2 ^ (wd f - 1)) (2 ^ (wd f - 1) - 1) n).
Proof.
  intros conv v Hv Hn [C1 C2]. unfold use_int. rewrite (flt_mend f F) by auto. destruct (pat_mk f F v Hv) as [_ Hm]. pose proof (PM f F) as PM0. pose proof (wd_M f F) as WM. pose proof (V_nonneg f O (magnitude f v) ltac:(lia)) as V0. pose proof u_pos as U.
  assert (UQ : forall a b, is_trunc (value f v) a -> is_trunc (value f v) b -> a = b). { intros a b [H1 H2] [H3 H4]. unfold is_floor, is_ceil in *. rewrite one_unit in *. destruct (Z_le_gt_dec 0 (value f v)); [specialize (H1 ltac:(lia)); specialize (H3 ltac:(lia)) | specialize (H2 ltac:(lia)); specialize (H4 ltac:(lia))]; nia. }
  destruct (Z.ltb_spec (V (magnitude f v)) (2 ^ M * 2 ^ 1074)) as [L|L].
  - assert (Hf : magnitude f v < inf_mag f) by (apply (fin_small f F); auto; lia). split; auto. destruct (C2 Hf) as (n & T & Ec). pose proof (is_trunc_sg (negative f v) _ V0) as T2. rewrite <- value_sg in T2. pose proof (UQ _ _ T T2) as En.
    assert (V (magnitude f v) / 2 ^ 1074 < 2 ^ M) by (apply Z.div_lt_upper_bound; lia). assert (0 <= V (magnitude f v) / 2 ^ 1074) by (apply Z.div_pos; lia). assert (Z.abs n < 2 ^ M) by (rewrite En; destruct (negative f v); cbn [sg]; lia). rewrite Ec, clamp_id by lia. auto.
  - split; auto. intros Hf. destruct (C2 Hf) as (n & T & Ec). exists n. split; auto. destruct (large_int f F _ (proj1 Hm) L) as (k & Ek). assert (Ev : value f v = sg (negative f v) k * unit) by (rewrite value_sg, Ek; destruct (negative f v); cbn [sg]; ring). destruct (exact_ok (sg (negative f v) k)) as (_ & _ & K & _). rewrite <- Ev in K. rewrite (UQ _ _ T K). exact Ev.
Qed.
Lemma sse2_ceil_int_ok : forall conv v, is_pattern f v -> ~ is_nan f v -> converts is_trunc f (- 2 ^ (wd f - 1)) (2 ^ (wd f - 1) - 1) v (conv v) ->
  converts is_ceil f (- 2 ^ (wd f - 1)) (2 ^ (wd f - 1) - 1) v (sse2_ceil_int f conv v).
Proof.
  intros conv v Hv Hn HC. pose proof (int_steps conv v Hv Hn HC) as H. unfold sse2_ceil_int. pose proof (wd_M f F) as WM. pose proof (PM f F) as PM0. destruct (use_int f v) eqn:EU; cbn [andb].
  - destruct H as (Hf & T & B). destruct (value_of_int f F (conv v) ltac:(lia)) as (A1 & A2 & _ & A3). rewrite flt_fin, A3 by auto. pose proof (ceil_of_trunc _ _ T) as CT. rewrite from_bits_id by (destruct (conv v * 2 ^ 1074 <? value f v); lia).
    unfold converts, is_inf, finite in *. split; [intros; lia|]. intros _. eexists. split; [exact CT|]. rewrite clamp_id; destruct (conv v * 2 ^ 1074 <? value f v); lia.
  - destruct H as [H1 H2]. destruct HC as [HC1 HC2]. rewrite Z.sub_0_r. assert (HB : finite f v \/ is_inf f v) by (unfold finite, is_inf, is_nan in *; lia).
    assert (- 2 ^ (wd f - 1) <= conv v <= 2 ^ (wd f - 1) - 1). { destruct HB as [HB|HB]; [destruct (H2 HB) as (n & _ & ->); unfold clamp; destruct (Z.ltb_spec n (- 2 ^ (wd f - 1))), (Z.ltb_spec (2 ^ (wd f - 1) - 1) n); lia | rewrite (H1 HB); destruct (negative f v); lia]. }
    rewrite from_bits_id by auto. split; auto. intros Hf. destruct (H2 Hf) as (n & E1 & E2). exists n. split; auto. rewrite E1. apply keeps_ceil.
Qed.
Lemma sse2_floor_int_ok : forall conv v, is_pattern f v -> ~ is_nan f v -> converts is_trunc f (- 2 ^ (wd f - 1)) (2 ^ (wd f - 1) - 1) v (conv v) ->
  converts is_floor f (- 2 ^ (wd f - 1)) (2 ^ (wd f - 1) - 1) v (sse2_floor_int f conv v).
Proof.
  intros conv v Hv Hn HC. pose proof (int_steps conv v Hv Hn HC) as H. unfold sse2_floor_int. pose proof (wd_M f F) as WM. pose proof (PM f F) as PM0. destruct (use_int f v) eqn:EU; cbn [andb].
  - destruct H as (Hf & T & B). destruct (value_of_int f F (conv v) ltac:(lia)) as (A1 & A2 & _ & A3). rewrite flt_fin, A3 by auto. pose proof (floor_of_trunc _ _ T) as CT. rewrite from_bits_id by (destruct (value f v <? conv v * 2 ^ 1074); lia).
    unfold converts, is_inf, finite in *. split; [intros; lia|]. intros _. eexists. split; [exact CT|]. rewrite clamp_id; destruct (value f v <? conv v * 2 ^ 1074); lia.
  - destruct H as [H1 H2]. destruct HC as [HC1 HC2]. rewrite Z.add_0_r. assert (HB : finite f v \/ is_inf f v) by (unfold finite, is_inf, is_nan in *; lia).
    assert (- 2 ^ (wd f - 1) <= conv v <= 2 ^ (wd f - 1) - 1). { destruct HB as [HB|HB]; [destruct (H2 HB) as (n & _ & ->); unfold clamp; destruct (Z.ltb_spec n (- 2 ^ (wd f - 1))), (Z.ltb_spec (2 ^ (wd f - 1) - 1) n); lia | rewrite (H1 HB); destruct (negative f v); lia]. }
    rewrite from_bits_id by auto. split; auto. intros Hf. destruct (H2 Hf) as (n & E1 & E2). exists n. split; auto. rewrite E1. apply keeps_floor.
Qed.
End I.
(** DemoteToNearestInt *)
Lemma demote_nearest_ok : forall nan v, is_pattern binary64 v -> ~ is_nan binary64 v -> (finite binary64 v -> ~ (- (2 ^ 32 - 1) * unit < 2 * value binary64 v /\ value binary64 v < - (2 ^ 31 - 1) * unit)) ->
  exists r, demote_to_nearest_int binary64 nan v = Some r /\ converts is_nearest binary64 (- 2 ^ 31) (2 ^ 31 - 1) v r.
Proof.
  intros nan v Hv Hn Hx. assert (F : float_type binary64) by (right; reflexivity). set (f := binary64) in *. destruct (pat_mk f F v Hv) as [Ev Hm]. pose proof (V_nonneg f ok64 (magnitude f v) ltac:(lia)) as V0. pose proof u_pos as U. unfold demote_to_nearest_int. rewrite (sign_bit_eq f F) by auto.
  change (highest true 32) with (2 ^ 31 - 1) in *. change (lowest true 32) with (- 2 ^ 31). assert (HB : 2 ^ 31 - 1 <= 2 ^ mbits f) by (vm_compute; discriminate). destruct (value_of_int f F (2 ^ 31 - 1)) as (A1 & A2 & _ & A3); [rewrite Z.abs_eq; lia|].
  assert (A4 : value f (of_int f (2 ^ 31 - 1)) < mag_value f (inf_mag f)) by (rewrite A3; apply K_inf; auto; lia). rewrite (fle_abs f F) by (auto; lia). rewrite A3. unfold converts, is_inf, finite, is_nan in *. set (a := mag_value f (magnitude f v)) in *. destruct (Z.leb_spec a ((2 ^ 31 - 1) * 2 ^ 1074)) as [L|L]; cbn [negb].
  - assert (L' : a < 2 ^ mbits f * 2 ^ 1074). { assert (2 ^ 31 - 1 < 2 ^ mbits f) by (vm_compute; reflexivity). nia. }
    destruct (near_small_ok f F nan 32 v (2 ^ 31 - 1) Hv L' L ltac:(lia) ltac:(lia)) as (r & B1 & B2 & B3). exists r. split; auto. assert (magnitude f v < inf_mag f) by (apply (fin_small f F); auto; lia). split; [intros; lia|]. intros _. exists r. split; auto. rewrite clamp_id; auto. lia.
  - eexists. split; [reflexivity|]. split; auto. intros Hf. specialize (Hx Hf). destruct (near_mag_ok a V0) as [N1 N2]. exists (sg (negative f v) (near_mag a)). rewrite value_sg in *. fold a in Hx |- *. split; [apply is_nearest_sg; auto|]. unfold is_nearest in N1. rewrite one_unit in *.
    destruct (negative f v); cbn [sg] in *.
    + symmetry. apply clamp_lo; [lia|]. assert (2 * a >= (2 ^ 32 - 1) * 2 ^ 1074) by lia. destruct (Z_le_gt_dec (2 ^ 31) (near_mag a)); [lia|]. exfalso. set (m := near_mag a) in *. change (2 ^ 32 - 1) with 4294967295 in *. change (2 ^ 31) with 2147483648 in *.
      destruct N1 as [N1 | [N1 N3]]; [nia|]. assert (m = 2147483647) by nia. rewrite H0 in N3. discriminate.
    + symmetry. apply clamp_hi; [lia|]. set (m := near_mag a) in *. change (2 ^ 31) with 2147483648 in *. destruct N1 as [N1 | [N1 N3]]; nia.
Qed.
(** DemoteTo from double to float *)
Lemma demote_f64_f32_ok : forall nan b, (forall b, is_nan binary64 b -> 0 < nan b < 2 ^ 23) -> is_pattern binary64 b -> narrows binary64 binary32 b (demote_f64_f32 nan b).
Proof.
  intros nan b Hnan Hb. assert (F : float_type binary64) by (right; reflexivity). assert (F32 : float_type binary32) by (left; reflexivity). destruct (pat_mk binary64 F b Hb) as [Ev Hm]. unfold demote_f64_f32. rewrite (sign_bit_eq binary64 F) by auto. rewrite (abs_mk binary64 F) by auto.
  destruct (mk_facts binary64 F false (magnitude binary64 b) Hm) as (A1 & A2 & A3). rewrite (value_mk binary64 F) by auto. cbn [sg]. assert (E0 : mk binary64 false (magnitude binary64 b) = magnitude binary64 b) by reflexivity. rewrite E0. clear A1 A2 A3 E0.
  destruct (classify_ok binary64 b (ft_hwy _ F) Hb) as (_ & CI & _). set (H := inf_mag binary32 - 1) in *. set (x := magnitude binary64 b) in *. set (n := negative binary64 b) in *.
  assert (HH : 0 <= H < 2 ^ 31 /\ mag_value binary32 H < mag_value binary64 (inf_mag binary64)) by (vm_compute; repeat split; discriminate). destruct HH as [H1 H2].
  assert (SM : forall m, (if n then 2 ^ 31 + m else m) = mk binary32 n m) by (intros; unfold mk; destruct n; reflexivity).
  assert (S32 : 2 ^ (ebits binary32 + mbits binary32) = 2 ^ 31) by reflexivity. assert (S64 : 2 ^ (ebits binary64 + mbits binary64) = 2 ^ 63) by reflexivity.
  destruct (scalar_is_inf binary64 b || (inf_mag binary64 >=? x) && (mag_value binary32 H <? mag_value binary64 x)) eqn:Ec.
  - rewrite SM. destruct (mk_facts binary32 F32 n H ltac:(rewrite S32; lia)) as (B1 & B2 & B3). assert (HX : x <= inf_mag binary64 /\ mag_value binary32 H < mag_value binary64 x).
    { apply orb_prop in Ec. destruct Ec as [Ec|Ec]. - apply CI in Ec. unfold is_inf in Ec. fold x in Ec. rewrite Ec. lia. - apply andb_prop in Ec. destruct Ec as [G1 G2]. apply Z.geb_le in G1. apply Z.ltb_lt in G2. lia. }
    unfold narrows, finite, is_nan. fold H x n. rewrite B2, B3. split; auto. split; auto. split; [lia|]. split; [unfold H; lia|]. split; [lia|]. auto.
  - apply orb_false_elim in Ec. destruct Ec as [Ec1 Ec2]. assert (NI : x <> inf_mag binary64) by (intros E1; rewrite (proj2 CI E1) in Ec1; discriminate).
    destruct (f32_of_f64_eq nan (if n then 1 else 0) x ltac:(destruct n; auto) Hm Hnan) as (c & C1 & C2 & C3 & C4 & C5). assert (Eb : b = (if n then 1 else 0) * 2 ^ 63 + x) by (rewrite Ev; unfold mk; rewrite S64; fold n x; destruct n; lia).
    rewrite <- Eb in C1. assert (Er : f32_of_f64 nan b = mk binary32 n c) by (rewrite C1; unfold mk; rewrite S32; destruct n; lia). rewrite Er. destruct (mk_facts binary32 F32 n c C2) as (B1 & B2 & B3).
    unfold narrows, finite, is_nan. fold H x n. rewrite B2, B3. split; auto. split; auto. split; auto.
    assert (G : x <= inf_mag binary64 -> mag_value binary64 x <= mag_value binary32 H). { intros Hx. assert (G1 : (inf_mag binary64 >=? x) = true) by (apply Z.geb_le; lia). rewrite G1 in Ec2. cbn [andb] in Ec2. apply Z.ltb_ge in Ec2. exact Ec2. }
    pose proof (V_nonneg binary64 ok64 x ltac:(lia)) as V0.
    assert (N : x < inf_mag binary64 -> nearest_even binary32 (mag_value binary64 x) c) by (intros Hx; rewrite (C5 Hx); apply ieee_round_nearest; [apply ok32 | auto]).
    split; [|split].
    + intros Hx. assert (Hlt : x < inf_mag binary64) by lia. pose proof (nearest_le binary32 (mag_value binary64 x) c H ok32 (N Hlt) ltac:(unfold H in *; lia) (G ltac:(lia))) as NL. destruct (Z_lt_le_dec c (inf_mag binary32)); auto. pose proof (V_mono_lt binary32 ok32 H (inf_mag binary32) ltac:(lia) ltac:(unfold H; lia)). pose proof (V_mono binary32 ok32 (inf_mag binary32) c ltac:(unfold H in *; lia) l). lia.
    + intros Hf _. auto.
    + intros Hx Hg. assert (x <= inf_mag binary64) by lia. specialize (G H0). lia.
Qed.
