(** EMU128/SCALAR Ceil and Floor, which work on the bits; conversions to integers. *)
From Coq Require Import ZArith Bool Lia.
From Verif Require Import Word Word_Proofs Float_Spec Float_Model Float_Proofs Float_Conv Float_F64 Float_More Rounding_Model Rounding_Spec Rounding_Core Rounding_Proofs Rounding_Ops Rounding_Ops2.
Open Scope Z_scope.
Arguments Z.pow : simpl never.
Arguments Z.mul : simpl never.
Arguments R : simpl never.
Section B.
Context (f : fmt) (F : float_type f).
Notation M := (mbits f).
Notation E := (ebits f).
Notation V := (mag_value f).
Notation S := (2 ^ (ebits f + mbits f)).
Let O : fmt_ok f := ft_ok f F.
Definition fld (v : Z) : Z := magnitude f v / 2 ^ M.
Definition man (v : Z) : Z := magnitude f v mod 2 ^ M.
Lemma fld_man : forall v, 0 <= magnitude f v -> magnitude f v = fld v * 2 ^ M + man v /\ 0 <= fld v /\ 0 <= man v < 2 ^ M.
Proof. intros v H. pose proof (PM f F). unfold fld, man. pose proof (Z.div_mod (magnitude f v) (2 ^ M) ltac:(lia)). pose proof (Z.mod_pos_bound (magnitude f v) (2 ^ M) ltac:(lia)). split; [lia|]. split; auto. apply Z.div_pos; lia. Qed.
Lemma SE : S = 2 ^ E * 2 ^ M. Proof. destruct O as (?&?&?). apply Z.pow_add_r; lia. Qed.
Lemma fld_lt : forall v, is_pattern f v -> fld v < 2 ^ E.
Proof. intros v Hv. destruct (pat_mk f F v Hv) as [_ Hm]. unfold fld. apply Z.div_lt_upper_bound; [apply (PM f F)|]. rewrite SE in Hm. lia. Qed.
Lemma field_eq : forall v, is_pattern f v -> field f v = fld v.
Proof.
  intros v Hv. destruct (pat_mk f F v Hv) as [E0 Hm]. pose proof (fld_lt v Hv). destruct (fld_man v ltac:(lia)) as (A & B & C). pose proof (PM f F) as PM0. destruct O as (O1 & O2 & _). unfold field. rewrite land_ones' by lia. rewrite shiftr_div by lia. rewrite E0 at 1. unfold mk. rewrite SE, A.
  destruct (negative f v).
  - replace (2 ^ E * 2 ^ M + (fld v * 2 ^ M + man v)) with ((2 ^ E + fld v) * 2 ^ M + man v) by ring. rewrite Z.div_add_l, (Z.div_small (man v)) by lia. replace (2 ^ E + fld v + 0) with (fld v + 1 * 2 ^ E) by ring. rewrite Z.mod_add by lia. apply Z.mod_small. lia.
  - rewrite Z.add_0_l, Z.div_add_l, (Z.div_small (man v)) by lia. rewrite Z.add_0_r. apply Z.mod_small. lia.
Qed.
Lemma kbias_eq : kbias f = bias f. Proof. destruct F as [-> | ->]; vm_compute; reflexivity. Qed.
Lemma bias_pos : M < bias f. Proof. destruct F as [-> | ->]; vm_compute; reflexivity. Qed.
(** the value, from the fields *)
Lemma V_fields : forall v, is_pattern f v -> 0 < fld v -> V (magnitude f v) = (2 ^ M + man v) * 2 ^ (1074 + (fld v - bias f) - M).
Proof.
  intros v Hv H. unfold mag_value. fold (fld v) (man v). destruct (Z.eqb_spec (fld v) 0); [lia|]. f_equal. f_equal. lia.
Qed.
Lemma V_fields0 : forall v, is_pattern f v -> fld v = 0 -> V (magnitude f v) = man v * 2 ^ (1074 + (1 - bias f) - M).
Proof. intros v Hv H. unfold mag_value. fold (fld v) (man v). rewrite H. cbn [Z.eqb]. f_equal. f_equal. lia. Qed.
Lemma s0_bias : s0 f = 1075 - bias f - M. Proof. unfold s0. lia. Qed.
Lemma V_lt_1 : forall v, is_pattern f v -> fld v - bias f < 0 -> V (magnitude f v) < 2 ^ 1074.
Proof.
  intros v Hv H. destruct (pat_mk f F v Hv) as [_ Hm]. destruct (fld_man v ltac:(lia)) as (A & B & C). destruct (ft_M f F) as [HM Hs]. pose proof (proj2 (proj2 O)) as S0. pose proof s0_bias as SB. pose proof (PM f F) as PM0.
  destruct (Z.eq_dec (fld v) 0) as [E0|E0].
  - rewrite V_fields0 by auto. assert (P : 0 < 2 ^ (1074 + (1 - bias f) - M)) by (apply pow_pos; lia). apply Z.lt_le_trans with (2 ^ M * 2 ^ (1074 + (1 - bias f) - M)); [nia|]. rewrite <- Z.pow_add_r by lia. apply Z.pow_le_mono_r; pose proof bias_pos; lia.
  - rewrite V_fields by (auto; lia). assert (P : 0 < 2 ^ (1074 + (fld v - bias f) - M)) by (apply pow_pos; lia). apply Z.lt_le_trans with (2 * 2 ^ M * 2 ^ (1074 + (fld v - bias f) - M)); [nia|]. replace (2 * 2 ^ M) with (2 ^ (1 + M)) by (rewrite Z.pow_add_r by lia; reflexivity).
    rewrite <- Z.pow_add_r by lia. apply Z.pow_le_mono_r; lia.
Qed.
Lemma V_ge_K : forall v, is_pattern f v -> M <= fld v - bias f -> 2 ^ M * 2 ^ 1074 <= V (magnitude f v).
Proof.
  intros v Hv H. destruct (pat_mk f F v Hv) as [_ Hm]. destruct (fld_man v ltac:(lia)) as (A & B & C). pose proof bias_pos. destruct (ft_M f F). rewrite V_fields by (auto; lia). pose proof (PM f F). apply Z.mul_le_mono_nonneg; try lia. apply Z.pow_le_mono_r; lia.
Qed.
(** the middle case: s fraction bits *)
Lemma middle : forall v, is_pattern f v -> 0 <= fld v - bias f < M -> let s := M - (fld v - bias f) in
  0 < s <= M /\ magnitude f v < inf_mag f /\ V (magnitude f v) = (2 ^ M + man v) * 2 ^ (1074 - s) /\
  mantissa_mask f (fld v - bias f) = 2 ^ s - 1 /\ Z.shiftr (2 ^ M - 1 + 1) (fld v - bias f) = 2 ^ s /\ 2 ^ 1074 = 2 ^ s * 2 ^ (1074 - s) /\ 2 ^ M = 2 ^ s * 2 ^ (M - s) /\
  Z.land v (2 ^ s - 1) = man v mod 2 ^ s /\
  forall k, 2 ^ M <= k <= 2 * 2 ^ M -> let m := (fld v - 1) * 2 ^ M + k in 0 <= m < inf_mag f /\ V m = k * 2 ^ (1074 - s).
Proof.
  intros v Hv He s. destruct (pat_mk f F v Hv) as [E0 Hm]. destruct (fld_man v ltac:(lia)) as (A & B & C). destruct (ft_M f F) as [HM Hs]. pose proof (PM f F) as PM0. pose proof bias_pos as BP. pose proof s0_bias as SB. pose proof (proj2 (proj2 O)) as S0.
  assert (Hs1 : 0 < s <= M) by (unfold s; lia). assert (Ps : 0 < 2 ^ s) by (apply pow_pos; lia). assert (EMs : 2 ^ M = 2 ^ s * 2 ^ (M - s)) by (rewrite <- Z.pow_add_r by lia; f_equal; lia).
  assert (G : forall k, 2 ^ M <= k <= 2 * 2 ^ M -> let m := (fld v - 1) * 2 ^ M + k in 0 <= m < inf_mag f /\ V m = k * 2 ^ (1074 - s)).
  { intros k Hk m. assert (V m = k * 2 ^ (1074 - s)). { unfold m. rewrite V_grid by (auto; lia). f_equal. f_equal. unfold s. lia. }
    split; auto. assert (0 <= m) by (unfold m; nia). split; auto. destruct (Z_lt_le_dec m (inf_mag f)); auto. exfalso. pose proof (inf_S f F). pose proof (V_mono f O (inf_mag f) m ltac:(lia) l) as VM. pose proof (K_inf f F (2 * 2 ^ M) ltac:(lia)) as KI. rewrite H in VM.
    assert (2 ^ (1074 - s) <= 2 ^ 1074) by (apply Z.pow_le_mono_r; lia). assert (0 < 2 ^ (1074 - s)) by (apply pow_pos; lia). nia. }
  split; auto. split. { destruct (G (2 ^ M + man v) ltac:(lia)) as [G1 _]. lia. }
  split. { rewrite V_fields by (auto; lia). f_equal. f_equal. unfold s. lia. }
  assert (Hd : 2 ^ M / 2 ^ (fld v - bias f) = 2 ^ s). { assert (0 < 2 ^ (fld v - bias f)) by (apply pow_pos; lia). replace (2 ^ M) with (2 ^ s * 2 ^ (fld v - bias f)) by (rewrite <- Z.pow_add_r by lia; f_equal; unfold s; lia). apply Z.div_mul. lia. }
  split. { unfold mantissa_mask. rewrite shiftr_div by lia. assert (P2 : 0 < 2 ^ (fld v - bias f)) by (apply pow_pos; lia). symmetry. apply Z.div_unique with (2 ^ (fld v - bias f) - 1); [lia|]. replace (2 ^ M) with (2 ^ s * 2 ^ (fld v - bias f)) by (rewrite <- Z.pow_add_r by lia; f_equal; unfold s; lia). ring. }
  split. { replace (2 ^ M - 1 + 1) with (2 ^ M) by lia. rewrite shiftr_div by lia. exact Hd. }
  split. { rewrite <- Z.pow_add_r by lia. f_equal. lia. }
  split; auto. split; [|exact G]. rewrite land_ones' by lia. rewrite E0 at 1. unfold mk. rewrite A. replace ((if negative f v then S else 0) + (fld v * 2 ^ M + man v)) with (man v + ((if negative f v then 2 ^ E else 0) + fld v) * 2 ^ (M - s) * 2 ^ s).
  - apply Z.mod_add. lia.
  - rewrite SE, EMs. destruct (negative f v); ring.
Qed.
Lemma wd_S : 2 ^ wd f = 2 * S. Proof. apply (fmt_facts f (ft_hwy f F)). Qed.
Lemma clear_fraction_eq : forall v (away : bool), is_pattern f v -> 0 <= fld v - bias f < M -> let s := M - (fld v - bias f) in
  let k := ((2 ^ M + man v) / 2 ^ s + (if away then 1 else 0)) * 2 ^ s in
  clear_fraction f away (fld v - bias f) v = mk f (negative f v) ((fld v - 1) * 2 ^ M + k) /\ 2 ^ M <= k <= 2 * 2 ^ M.
Proof.
  intros v away Hv He s k. destruct (middle v Hv He) as (H1 & H2 & H3 & H4 & H5 & H6 & H7 & H8 & H9). fold s in H1, H2, H3, H4, H5, H6, H7, H8, H9. destruct (pat_mk f F v Hv) as [E0 Hm]. destruct (fld_man v ltac:(lia)) as (A & B & C). pose proof (PM f F) as PM0.
  assert (Ps : 0 < 2 ^ s) by (apply pow_pos; lia). assert (Pd : 0 < 2 ^ (M - s)) by (apply pow_pos; lia). pose proof (inf_S f F) as IS. pose proof wd_S as WS.
  set (q := (2 ^ M + man v) / 2 ^ s) in *. assert (Hq : q * 2 ^ s <= 2 ^ M + man v < (q + 1) * 2 ^ s). { pose proof (Z.div_mod (2 ^ M + man v) (2 ^ s) ltac:(lia)). pose proof (Z.mod_pos_bound (2 ^ M + man v) (2 ^ s) ltac:(lia)). unfold q. lia. }
  assert (Hk : 2 ^ M <= k <= 2 * 2 ^ M). { unfold k. assert (2 ^ (M - s) <= q < 2 * 2 ^ (M - s)) by (split; [apply Z.div_le_lower_bound; lia | apply Z.div_lt_upper_bound; lia]). rewrite H7. revert H Ps. clear. generalize (2 ^ (M - s)) as d. generalize (2 ^ s) as u. intros. destruct away; nia. }
  split; auto. destruct (H9 k Hk) as [G1 _]. set (m := (fld v - 1) * 2 ^ M + k) in *.
  unfold clear_fraction. rewrite H4, H5. assert (HF : wd f = fwidth f) by reflexivity. assert (Hw : s <= wd f) by (rewrite HF; unfold fwidth; destruct O as (?&?&?); lia).
  assert (N : bit_not (wd f) (2 ^ s - 1) = 2 ^ wd f - 2 ^ s). { unfold bit_not, Z.lnot, wrap. replace (Z.pred (- (2 ^ s - 1))) with (2 ^ wd f - 2 ^ s + (-1) * 2 ^ wd f) by lia. rewrite Z.mod_add by lia. apply Z.mod_small. assert (2 ^ s <= 2 ^ wd f) by (apply Z.pow_le_mono_r; lia). lia. }
  rewrite N. set (b := (if away then wrap (wd f) (v + 2 ^ s) else v)).
  assert (Eb : b = v + (if away then 2 ^ s else 0) /\ 0 <= b < 2 ^ wd f).
  { assert (Hmx : magnitude f v + 2 ^ s < S). { destruct (H9 (2 * 2 ^ M) ltac:(lia)) as [G2 _]. assert (2 ^ s <= 2 ^ M) by (apply Z.pow_le_mono_r; lia). assert ((fld v - 1) * 2 ^ M + 2 * 2 ^ M + 2 ^ M < S); [|lia].
      assert (inf_mag f + 2 ^ M <= S) by (unfold inf_mag; rewrite SE; nia). lia. }
    assert (0 <= v + 2 ^ s < 2 ^ wd f). { rewrite E0. unfold mk. destruct (negative f v); lia. }
    unfold b. destruct away; [rewrite wrap_small by lia; lia|]. unfold is_pattern in Hv. rewrite <- HF in Hv. lia. }
  destruct Eb as [Eb Hb]. rewrite land_high_w by lia. unfold mk, m. set (Q := (if negative f v then 2 ^ E * 2 ^ (M - s) else 0) + (fld v - 1) * 2 ^ (M - s) + q + (if away then 1 else 0)).
  assert (EQ : b / 2 ^ s = Q).
  { symmetry. apply Z.div_unique with ((2 ^ M + man v) - q * 2 ^ s); [left; lia|]. rewrite Eb, E0 at 1. unfold mk. rewrite SE, A. unfold Q. rewrite H7. destruct (negative f v), away; ring. }
  rewrite EQ. unfold Q, k. rewrite SE, H7. destruct (negative f v), away; ring.
Qed.

Lemma man_mod_int : forall v s, 0 < s <= M -> man v mod 2 ^ s = (2 ^ M + man v) mod 2 ^ s.
Proof.
  intros v s Hs. assert (Ps : 0 < 2 ^ s) by (apply pow_pos; lia). replace (2 ^ M) with (2 ^ (M - s) * 2 ^ s) by (rewrite <- Z.pow_add_r by lia; f_equal; lia). rewrite Z.add_comm, Z.mod_add by lia. reflexivity.
Qed.
Lemma middle_ok : forall v (away : bool), is_pattern f v -> 0 <= fld v - bias f < M ->
  let r := if Z.land v (mantissa_mask f (fld v - bias f)) =? 0 then v else clear_fraction f away (fld v - bias f) v in
  magnitude f v < inf_mag f /\ is_pattern f r /\ magnitude f r < inf_mag f /\ exists n, value f r = n * 2 ^ 1074 /\
   (if away then (if negative f v then is_floor else is_ceil) (value f v) n else is_trunc (value f v) n).
Proof.
  intros v away Hv He r. destruct (middle v Hv He) as (H1 & H2 & H3 & H4 & H5 & H6 & H7 & H8 & H9). destruct (clear_fraction_eq v away Hv He) as (C1 & C2). set (s := M - (fld v - bias f)) in *. unfold r. rewrite H4, H8. clear r H4 H5 H8.
  assert (Ps : 0 < 2 ^ s) by (apply pow_pos; lia). pose proof (Z.div_mod (2 ^ M + man v) (2 ^ s) ltac:(lia)) as D1. pose proof (Z.mod_pos_bound (2 ^ M + man v) (2 ^ s) ltac:(lia)) as D2. rewrite man_mod_int by auto. set (q := (2 ^ M + man v) / 2 ^ s) in *.
  split; auto. assert (Pu : 0 < 2 ^ (1074 - s)) by (apply pow_pos; destruct (ft_M f F); lia). destruct (exact_ok q) as (K1 & K2 & K3 & K4). destruct (exact_ok (- q)) as (L1 & L2 & L3 & L4).
  destruct (Z.eqb_spec ((2 ^ M + man v) mod 2 ^ s) 0) as [Z0|Z0].
  - split; auto. split; auto. assert (EV : V (magnitude f v) = q * unit). { rewrite H3, one_unit, H6. rewrite D1, Z0. ring. }
    exists (sg (negative f v) q). assert (Ev : value f v = sg (negative f v) q * unit) by (rewrite value_sg, EV; destruct (negative f v); cbn [sg]; ring). split; [exact Ev|]. rewrite Ev. destruct away, (negative f v); cbn [sg]; assumption.
  - rewrite C1. set (k := (q + (if away then 1 else 0)) * 2 ^ s) in *. destruct (H9 k C2) as [G1 G2]. set (m := (fld v - 1) * 2 ^ M + k) in *. pose proof (inf_S f F) as IS. destruct (mk_facts f F (negative f v) m ltac:(lia)) as (A1 & A2 & A3).
    split; auto. split; [lia|]. exists (sg (negative f v) (q + (if away then 1 else 0))). rewrite (value_mk f F), G2 by lia. split. { rewrite H6. unfold k. destruct (negative f v); cbn [sg]; ring. }
    rewrite value_sg, H3. unfold is_trunc, is_floor, is_ceil. rewrite one_unit, H6. set (a := 2 ^ M + man v) in *. assert (Hq0 : 0 <= q). { unfold q. apply Z.div_pos; auto. pose proof (PM f F). destruct (pat_mk f F v Hv) as [_ Hm]. destruct (fld_man v ltac:(lia)) as (_ & _ & C). unfold a. lia. } clearbody a q. clear - D1 D2 Z0 Ps Pu Hq0. revert Ps Pu D1 D2 Z0. generalize (2 ^ s) as d, (2 ^ (1074 - s)) as u. intros d u Ps Pu D1 D2 Z0.
    set (r := a mod d) in *. assert (Hr : 0 < r < d) by lia. clearbody r. clear D2 Z0. subst a. rewrite Z.mul_assoc. assert (0 < r * u < d * u) by nia. destruct away, (negative f v); cbn [sg]; [split; nia | split; nia | |]; (assert (0 <= d * q * u) by nia; split; intros; [split; nia | split; nia]).
Qed.
Lemma value_fld : forall v, is_pattern f v -> magnitude f v < inf_mag f -> flt f v (fzero f) = (value f v <? 0) /\ flt f (fzero f) v = (0 <? value f v).
Proof.
  intros v Hv Hf. destruct (fzero_facts f F) as (Z0 & _ & Z1 & Z2 & _). pose proof (inf_S f F). rewrite !flt_fin by (rewrite ?Z0; lia). rewrite Z0, Z2. auto.
Qed.
Lemma emu_ceil_ok : forall v, is_pattern f v -> rounds is_ceil f v (emu_ceil f v).
Proof.
  intros v Hv. unfold emu_ceil. rewrite field_eq, kbias_eq by auto. destruct (pat_mk f F v Hv) as [_ Hm]. pose proof (inf_S f F) as IS. destruct (Z.leb_spec M (fld v - bias f)) as [L|L]; [apply (rounds_large f F); auto; [apply keeps_ceil | apply V_ge_K; auto]|].
  pose proof (V_nonneg f O (magnitude f v) ltac:(lia)) as V0. destruct (Z.ltb_spec (fld v - bias f) 0) as [L2|L2].
  - pose proof (V_lt_1 v Hv L2) as V1. assert (Hf : magnitude f v < inf_mag f) by (apply (fin_small f F); auto; pose proof (PM f F); nia). destruct (value_fld v Hv Hf) as [_ ->]. assert (Hb : - 2 ^ 1074 < value f v < 2 ^ 1074) by (rewrite value_sg; destruct (negative f v); cbn [sg]; lia).
    destruct (Z.ltb_spec 0 (value f v)).
    + pose proof (PM f F). destruct (value_of_int f F 1 ltac:(lia)) as (A1 & A2 & _ & A3). apply rounds_val with 1; auto. unfold is_ceil. rewrite one_unit. lia.
    + apply zero_rounds; auto. unfold is_ceil. rewrite one_unit. lia.
  - set (positive := flt f (fzero f) v). destruct (middle_ok v positive Hv ltac:(lia)) as (Hf & A1 & A2 & n & A3 & A4). apply rounds_val with n; auto. unfold positive in A4. destruct (value_fld v Hv Hf) as [_ E1]. rewrite E1 in A4. rewrite value_sg in *. destruct (Z.ltb_spec 0 (sg (negative f v) (V (magnitude f v)))); destruct (negative f v) eqn:En; cbn [sg] in *; try lia; auto; apply A4; lia.
Qed.
Lemma emu_floor_ok : forall v, is_pattern f v -> rounds is_floor f v (emu_floor f v).
Proof.
  intros v Hv. unfold emu_floor. rewrite field_eq, kbias_eq by auto. destruct (pat_mk f F v Hv) as [_ Hm]. pose proof (inf_S f F) as IS. destruct (Z.leb_spec M (fld v - bias f)) as [L|L]; [apply (rounds_large f F); auto; [apply keeps_floor | apply V_ge_K; auto]|].
  pose proof (V_nonneg f O (magnitude f v) ltac:(lia)) as V0. destruct (Z.ltb_spec (fld v - bias f) 0) as [L2|L2].
  - pose proof (V_lt_1 v Hv L2) as V1. assert (Hf : magnitude f v < inf_mag f) by (apply (fin_small f F); auto; pose proof (PM f F); nia). destruct (value_fld v Hv Hf) as [-> _]. assert (Hb : - 2 ^ 1074 < value f v < 2 ^ 1074) by (rewrite value_sg; destruct (negative f v); cbn [sg]; lia).
    destruct (Z.ltb_spec (value f v) 0).
    + pose proof (PM f F). destruct (value_of_int f F (-1) ltac:(lia)) as (A1 & A2 & _ & A3). apply rounds_val with (-1); auto. unfold is_floor. rewrite one_unit. lia.
    + apply zero_rounds; auto. unfold is_floor. rewrite one_unit. lia.
  - set (ng := flt f v (fzero f)). destruct (middle_ok v ng Hv ltac:(lia)) as (Hf & A1 & A2 & n & A3 & A4). apply rounds_val with n; auto. unfold ng in A4. destruct (value_fld v Hv Hf) as [E1 _]. rewrite E1 in A4. rewrite value_sg in *. destruct (Z.ltb_spec (sg (negative f v) (V (magnitude f v))) 0); destruct (negative f v) eqn:En; cbn [sg] in *; try lia; auto; apply A4; lia.
Qed.
End B.
