(** Floating point to integers on x86: truncation with saturation. *)
From Coq Require Import ZArith Bool Lia.
From Verif Require Import Word Word_Proofs Float_Spec Float_Model Float_Proofs Float_Conv Float_F64 Float_More Rounding_Model Rounding_Spec Rounding_Core Rounding_Proofs Rounding_Bits Rounding_Int
  Pow2_Spec Pow2_Model Pow2_Round Shift_Spec Shift_Proofs Cmp_Model Cmp_Proofs X86Conv_Model X86Conv_Int X86Conv_Odd.
Open Scope Z_scope.
Ltac Zify.zify_post_hook ::= idtac.
Arguments Z.pow : simpl never.
Arguments Z.mul : simpl never.
Arguments R : simpl never.
Arguments mag_value : simpl never.

Section T.
Context (f : fmt) (F : float_type f).
Notation M := (mbits f).
Notation V := (mag_value f).
Let O : fmt_ok f := ft_ok f F.
Definition Tm (m : Z) : Z := V m / 2 ^ 1074.
Definition T (v : Z) : Z := sg (negative f v) (Tm (magnitude f v)).
Lemma Vn v : is_pattern f v -> 0 <= V (magnitude f v).
Proof. intros H. destruct (pat_mk f F v H) as [_ B]. apply V_nonneg; [exact O|lia]. Qed.
Lemma Tm_nonneg v : is_pattern f v -> 0 <= Tm (magnitude f v).
Proof. intros H. apply Z.div_pos; [now apply Vn|apply u_pos]. Qed.
Lemma T_trunc v : is_pattern f v -> is_trunc (value f v) (T v).
Proof.
  intros H. pose proof (Vn v H) as P. pose proof u_pos as U. rewrite value_sg. unfold T, Tm. set (a := V (magnitude f v)) in *. clearbody a.
  assert (I : is_trunc a (a / 2 ^ 1074)).
  { pose proof (Z.div_mod a (2 ^ 1074) ltac:(lia)) as D. pose proof (Z.mod_pos_bound a (2 ^ 1074) U) as B. unfold is_trunc, is_floor, is_ceil, unit. set (u := 2 ^ 1074) in *. clearbody u. set (q := a / u) in *. set (r := a mod u) in *. clearbody q r.
    split; intros; [nia|]. assert (a = 0) by lia. assert (q = 0) by nia. subst q. nia. }
  destruct (negative f v); cbn [sg]; [now apply trunc_opp|exact I].
Qed.
Lemma trunc_unique a n n' : is_trunc a n -> is_trunc a n' -> n = n'.
Proof.
  intros [A1 A2] [B1 B2]. pose proof u_pos as U. unfold is_floor, is_ceil, unit in *. set (u := 2 ^ 1074) in *. clearbody u. destruct (Z_le_gt_dec 0 a) as [P|P].
  - specialize (A1 P). specialize (B1 P). clear A2 B2. nia.
  - specialize (A2 ltac:(lia)). specialize (B2 ltac:(lia)). clear A1 B1. nia.
Qed.
Lemma T_nan_free v : is_pattern f v -> ~ is_nan f v -> magnitude f v <= inf_mag f.
Proof. unfold is_nan. lia. Qed.
Lemma T_inf v : is_pattern f v -> is_inf f v -> 2 ^ 100 <= Tm (magnitude f v).
Proof. intros H E. unfold is_inf in E. unfold Tm. rewrite E. pose proof (inf_100 f F). apply Z.div_le_lower_bound; [apply u_pos|]. lia. Qed.
Lemma conv_clamp lo hi v r : is_pattern f v -> - 2 ^ 99 <= lo <= hi -> hi <= 2 ^ 99 -> r = clamp lo hi (T v) -> converts is_trunc f lo hi v r.
Proof.
  intros H Hlo Hhi ->. split.
  - intros I. pose proof (T_inf v H I) as B. unfold T. destruct (negative f v); cbn [sg]; [apply clamp_lo|apply clamp_hi]; lia.
  - intros _. exists (T v). split; [now apply T_trunc|reflexivity].
Qed.
Lemma T_range v n : is_pattern f v -> is_trunc (value f v) n -> T v = n.
Proof. intros H I. apply (trunc_unique (value f v)); [now apply T_trunc|exact I]. Qed.
(** comparisons with positive integers *)
Lemma T_le v z : is_pattern f v -> 0 < z -> (z * 2 ^ 1074 <=? value f v) = (z <=? T v).
Proof.
  intros H Hz. pose proof (Vn v H) as P. pose proof u_pos as U. rewrite value_sg. unfold T, Tm. set (a := V (magnitude f v)) in *. clearbody a.
  pose proof (Z.div_mod a (2 ^ 1074) ltac:(lia)) as D. pose proof (Z.mod_pos_bound a (2 ^ 1074) U) as B. set (u := 2 ^ 1074) in *. clearbody u. set (q := a / u) in *. set (r := a mod u) in *. clearbody q r.
  assert (0 <= q) by nia. destruct (negative f v); cbn [sg].
  - rewrite !(proj2 (Z.leb_gt _ _)); [reflexivity|lia|nia].
  - destruct (Z.leb_spec (z * u) a), (Z.leb_spec z q); try reflexivity; exfalso; nia.
Qed.
Lemma T_lt v z : is_pattern f v -> 0 < z -> (value f v <? z * 2 ^ 1074) = (T v <? z).
Proof. intros H Hz. pose proof (T_le v z H Hz) as E. rewrite !Z.leb_antisym in E. apply (f_equal negb) in E. rewrite !negb_involutive in E. exact E. Qed.
Lemma fle_c c z v : is_pattern f v -> ~ is_nan f v -> holds f c z -> 0 < z -> fle f c v = (z <=? T v).
Proof.
  intros H N (C1 & C2 & C3 & _) Hz. unfold fle, not_nan, is_nan in *. rewrite !(proj2 (Z.leb_le _ (inf_mag f))) by lia. cbn [andb]. rewrite C3. now apply T_le.
Qed.
Lemma flt_c c z v : is_pattern f v -> ~ is_nan f v -> holds f c z -> 0 < z -> flt f v c = (T v <? z).
Proof.
  intros H N (C1 & C2 & C3 & _) Hz. unfold flt, not_nan, is_nan in *. rewrite !(proj2 (Z.leb_le _ (inf_mag f))) by lia. cbn [andb]. rewrite C3. now apply T_lt.
Qed.
Lemma T_holds c z : holds f c z -> T c = z.
Proof.
  intros (C1 & C2 & C3 & _). apply T_range; [exact C1|]. rewrite C3. pose proof u_pos. unfold is_trunc, is_floor, is_ceil, unit. set (u := 2 ^ 1074) in *. clearbody u. split; intros; nia.
Qed.
(** CVTT *)
Lemma cvtt_eq w v : is_pattern f v -> ~ is_nan f v -> 0 < w <= 64 -> cvtt f w v = if (- 2 ^ (w - 1) <=? T v) && (T v <=? 2 ^ (w - 1) - 1) then wrap w (T v) else 2 ^ (w - 1).
Proof.
  intros H N Hw. unfold cvtt. rewrite value_sg, quot_sg by (apply u_pos || now apply Vn). fold (Tm (magnitude f v)). fold (T v). unfold is_fin. destruct (Z.ltb_spec (magnitude f v) (inf_mag f)) as [L|L]; [reflexivity|]. cbn [andb].
  assert (I : is_inf f v) by (unfold is_inf, is_nan in *; lia). pose proof (T_inf v H I) as B. assert (2 ^ (w - 1) <= 2 ^ 63) by (apply Z.pow_le_mono_r; lia). assert (0 < 2 ^ (w - 1)) by (apply pow_pos; lia).
  assert (E : (- 2 ^ (w - 1) <=? T v) && (T v <=? 2 ^ (w - 1) - 1) = false); [|rewrite E; reflexivity]. unfold T. apply andb_false_iff. destruct (negative f v); cbn [sg]; [left|right]; apply Z.leb_gt; lia.
Qed.
Lemma cvtt_in w v : is_pattern f v -> ~ is_nan f v -> 0 < w <= 64 -> - 2 ^ (w - 1) <= T v <= 2 ^ (w - 1) - 1 -> cvtt f w v = wrap w (T v).
Proof. intros H N Hw B. rewrite cvtt_eq by assumption. rewrite !(proj2 (Z.leb_le _ _)) by lia. reflexivity. Qed.
Lemma cvtt_out w v : is_pattern f v -> ~ is_nan f v -> 0 < w <= 64 -> (T v < - 2 ^ (w - 1) \/ 2 ^ (w - 1) - 1 < T v) -> cvtt f w v = 2 ^ (w - 1).
Proof.
  intros H N Hw B. rewrite cvtt_eq by assumption. assert (E : (- 2 ^ (w - 1) <=? T v) && (T v <=? 2 ^ (w - 1) - 1) = false); [|rewrite E; reflexivity]. apply andb_false_iff. destruct B; [left|right]; apply Z.leb_gt; lia.
Qed.
Lemma signed_min w : 0 < w -> lane w (2 ^ (w - 1)) /\ signed w (2 ^ (w - 1)) = - 2 ^ (w - 1).
Proof.
  intros Hw. assert (E : 2 ^ w = 2 * 2 ^ (w - 1)) by (rewrite <- Z.pow_succ_r by lia; f_equal; lia). assert (0 < 2 ^ (w - 1)) by (apply pow_pos; lia). unfold lane, signed. destruct (Z.ltb_spec (2 ^ (w - 1)) (2 ^ (w - 1))); lia.
Qed.
Lemma signed_max w : 0 < w -> lane w (2 ^ (w - 1) - 1) /\ signed w (2 ^ (w - 1) - 1) = 2 ^ (w - 1) - 1.
Proof.
  intros Hw. assert (E : 2 ^ w = 2 * 2 ^ (w - 1)) by (rewrite <- Z.pow_succ_r by lia; f_equal; lia). assert (0 < 2 ^ (w - 1)) by (apply pow_pos; lia). unfold lane, signed. destruct (Z.ltb_spec (2 ^ (w - 1) - 1) (2 ^ (w - 1))); lia.
Qed.
Lemma pow_repr w : 1 < w <= 64 -> repr f (2 ^ (w - 1)).
Proof.
  intros Hw. replace (2 ^ (w - 1)) with (1 * 2 ^ (w - 1)) by lia. apply repr_pow; [lia| |].
  - split; [lia|]. apply Z.pow_gt_1; [lia|]. destruct (ft_M f F). lia.
  - rewrite Z.mul_1_l. apply Z.pow_le_mono_r; lia.
Qed.
Lemma to_signed_clamp w v : is_pattern f v -> ~ is_nan f v -> 1 < w <= 64 -> lane w (to_signed f w v) /\ signed w (to_signed f w v) = clamp (- 2 ^ (w - 1)) (2 ^ (w - 1) - 1) (T v).
Proof.
  intros H N Hw. assert (P : 0 < 2 ^ (w - 1)) by (apply pow_pos; lia). pose proof (of_int_holds f F (2 ^ (w - 1)) (pow_repr w Hw)) as C. unfold to_signed. rewrite (fle_c _ _ v H N C P).
  destruct (Z.leb_spec (2 ^ (w - 1)) (T v)) as [G|G].
  - rewrite clamp_hi by lia. apply signed_max. lia.
  - destruct (Z_lt_le_dec (T v) (- 2 ^ (w - 1))) as [L|L].
    + rewrite cvtt_out by (assumption || lia). rewrite clamp_lo by lia. apply signed_min. lia.
    + rewrite cvtt_in by (assumption || lia). rewrite clamp_id by lia. apply signed_wrap; lia.
Qed.
Theorem to_signed_ok w v : is_pattern f v -> ~ is_nan f v -> 1 < w <= 64 -> lane w (to_signed f w v) /\ converts is_trunc f (- 2 ^ (w - 1)) (2 ^ (w - 1) - 1) v (signed w (to_signed f w v)).
Proof.
  intros H N Hw. destruct (to_signed_clamp w v H N Hw) as [L E]. split; [exact L|]. assert (P : 0 < 2 ^ (w - 1)) by (apply pow_pos; lia). assert (2 ^ (w - 1) <= 2 ^ 63) by (apply Z.pow_le_mono_r; lia).
  apply conv_clamp; [exact H|lia|lia|exact E].
Qed.
Theorem cvtt_constant_eq w v : is_pattern f v -> 1 < w <= 64 -> cvtt_constant f w v = cvtt f w v.
Proof.
  intros H Hw. assert (P : 0 < 2 ^ (w - 1)) by (apply pow_pos; lia). pose proof (of_int_holds f F (2 ^ (w - 1)) (pow_repr w Hw)) as C. unfold cvtt_constant.
  destruct (pat_mk f F v H) as [_ Hm]. destruct (mk_facts f F false (magnitude f v) Hm) as (A1 & A2 & A3). rewrite abs_mk by assumption. rewrite value_sg, quot_sg by (apply u_pos || now apply Vn). fold (Tm (magnitude f v)). fold (T v).
  destruct (Z_lt_le_dec (inf_mag f) (magnitude f v)) as [N|N].
  - unfold flt, not_nan. rewrite A3. rewrite (proj2 (Z.leb_gt (magnitude f v) _)) by lia. cbn [andb]. unfold cvtt, is_fin. rewrite (proj2 (Z.ltb_ge _ _)) by lia. reflexivity.
  - assert (Nn : ~ is_nan f v) by (unfold is_nan; lia). assert (Na : ~ is_nan f (mk f false (magnitude f v))) by (unfold is_nan; lia). rewrite (flt_c _ _ _ A1 Na C P). unfold T at 1. rewrite A2, A3. cbn [sg].
    pose proof (Tm_nonneg v H) as Pt. destruct (Z.ltb_spec (Tm (magnitude f v)) (2 ^ (w - 1))) as [L|L].
    + rewrite cvtt_in; [reflexivity|assumption|assumption|lia|]. unfold T. destruct (negative f v); cbn [sg]; lia.
    + destruct (Z.eq_dec (T v) (- 2 ^ (w - 1))) as [E|E].
      * rewrite cvtt_in by (assumption || lia). rewrite E. unfold wrap. replace (- 2 ^ (w - 1)) with (2 ^ (w - 1) + (-1) * 2 ^ w) by (replace (2 ^ w) with (2 * 2 ^ (w - 1)) by (rewrite <- Z.pow_succ_r by lia; f_equal; lia); lia).
        rewrite Z.mod_add by (apply Z.pow_nonzero; lia). symmetry. apply Z.mod_small. split; [lia|]. apply Z.pow_lt_mono_r; lia.
      * rewrite cvtt_out; [reflexivity|assumption|assumption|lia|]. unfold T in *. destruct (negative f v); cbn [sg] in *; lia.
Qed.
Lemma Tm_lt v e : is_pattern f v -> 0 <= e -> fld f v - bias f < e -> Tm (magnitude f v) < 2 ^ e.
Proof. intros H He L. apply Z.div_lt_upper_bound; [apply u_pos|]. rewrite Z.mul_comm. now apply (V_lt_pow f F). Qed.
Lemma Tm_ge v e : is_pattern f v -> 0 <= e <= fld f v - bias f -> 2 ^ e <= Tm (magnitude f v).
Proof. intros H He. apply Z.div_le_lower_bound; [apply u_pos|]. rewrite Z.mul_comm. now apply (V_ge_pow f F). Qed.
Lemma Tm_int v : is_pattern f v -> bias f + M <= fld f v -> Tm (magnitude f v) = (2 ^ M + man f v) * 2 ^ (fld f v - bias f - M).
Proof.
  intros H L. pose proof (bias_pos f F). destruct (ft_M f F) as [B _]. unfold Tm. rewrite (V_fields f) by (assumption || lia). replace (1074 + (fld f v - bias f) - M) with (fld f v - bias f - M + 1074) by lia.
  rewrite Z.pow_add_r by lia. rewrite Z.mul_assoc. apply Z.div_mul. pose proof u_pos. lia.
Qed.
Lemma zero_if_neg_T v : is_pattern f v -> is_pattern f (zero_if_neg f v) /\ negative f (zero_if_neg f v) = false /\ T (zero_if_neg f v) = Z.max 0 (T v) /\ magnitude f (zero_if_neg f v) <= magnitude f v /\ zero_if_neg f v < 2 ^ (ebits f + M).
Proof.
  intros H. unfold zero_if_neg. rewrite (msb_of f F) by assumption. pose proof (Tm_nonneg v H) as P. destruct (pat_mk f F v H) as [Em Hm]. destruct (fzero_facts f F) as (_ & A1 & A2 & A3 & _).
  destruct (negative f v) eqn:E.
  - split; [exact A1|]. assert (N0 : negative f 0 = false) by (unfold negative; apply Z.leb_gt; apply pow_pos; destruct O; lia). split; [exact N0|].
    split; [|split; [lia|apply pow_pos; destruct O; lia]]. unfold T at 1. rewrite N0, A2. unfold T. rewrite E. cbn [sg]. unfold Tm at 1. assert (V0 : V 0 = 0) by (unfold value in A3; rewrite A2, N0 in A3; exact A3). rewrite V0, Z.div_0_l by (pose proof u_pos; lia). lia.
  - split; [exact H|]. split; [exact E|]. split; [unfold T; rewrite E; cbn [sg]; lia|]. split; [lia|]. rewrite Em. unfold mk. lia.
Qed.
(** a float given as sum *)
Lemma fsub_exact nan a b : is_pattern f a -> is_pattern f b -> magnitude f a < inf_mag f -> magnitude f b < inf_mag f -> R f (Z.abs (value f a - value f b)) = Z.abs (value f a - value f b) -> Z.abs (value f a - value f b) < V (inf_mag f) ->
  is_pattern f (fsub f nan a b) /\ magnitude f (fsub f nan a b) < inf_mag f /\ value f (fsub f nan a b) = value f a - value f b.
Proof.
  intros Ha Hb Fa Fb E L. destruct (fneg_fin f F b Hb) as (N1 & N2 & N3 & N4). unfold fsub. assert (Q := fadd_fin f nan a (fneg f b) Fa ltac:(lia)). cbv zeta in Q. rewrite N4, Z.add_opp_r in Q. destruct Q as (n & -> & S1 & S2).
  set (s := value f a - value f b) in *. clearbody s. pose proof (inf_S f F) as IS.
  assert (B : 0 <= ieee_round f (Z.abs s) < inf_mag f) by (apply (round_fin f F _ (Z.abs s)); [lia|exact E|exact L]).
  destruct (mk_facts f F n _ ltac:(split; [apply B|lia])) as (A1 & A2 & A3). split; [exact A1|]. split; [lia|]. rewrite value_mk by (exact F || lia). unfold R in E. rewrite E. destruct n; cbn [sg]; lia.
Qed.
End T.
