(** Round, NearestInt, DemoteToNearestInt: the steps of the code. *)
From Coq Require Import ZArith Bool Lia.
From Verif Require Import Word Word_Proofs Float_Spec Float_Model Float_Proofs Float_Conv Float_F64 Float_More Rounding_Model Rounding_Spec Rounding_Core.
Open Scope Z_scope.
Arguments Z.pow : simpl never.
Arguments Z.mul : simpl never.
Arguments R : simpl never.

Definition sg (n : bool) (x : Z) : Z := if n then - x else x.
Section P.
Context (f : fmt) (F : float_type f).
Notation M := (mbits f).
Notation V := (mag_value f).
Notation S := (2 ^ (ebits f + mbits f)).
Let O : fmt_ok f := ft_ok f F.
Lemma S_pos : 0 < S. Proof. destruct O as (?&?&?). apply pow_pos; lia. Qed.
Lemma inf_S : 0 < inf_mag f < S. Proof. split; [pose proof (inf_pos f O); pose proof (pm_pos f O); lia | apply fmt_facts, ft_hwy, F]. Qed.
Lemma mk_facts : forall n x, 0 <= x < S -> is_pattern f (mk f n x) /\ negative f (mk f n x) = n /\ magnitude f (mk f n x) = x.
Proof.
  intros n x Hx. pose proof (pat_make f (if n then 1 else 0) x O ltac:(destruct n; auto) Hx) as H. unfold mk. destruct n; cbn [Z.eqb Pos.eqb] in H; [rewrite Z.mul_1_l in H | rewrite Z.mul_0_l in H]; exact H.
Qed.
Lemma pat_mk : forall b, is_pattern f b -> b = mk f (negative f b) (magnitude f b) /\ 0 <= magnitude f b < S.
Proof.
  intros b Hb. destruct (pat_split f b O Hb) as (s & Hs & E & Hn & Hm). split; auto. rewrite Hn. unfold mk. destruct Hs; subst s; cbn [Z.eqb Pos.eqb]; lia.
Qed.
Lemma pat_eq : forall a b, is_pattern f a -> is_pattern f b -> negative f a = negative f b -> magnitude f a = magnitude f b -> a = b.
Proof. intros a b Ha Hb H1 H2. rewrite (proj1 (pat_mk a Ha)), (proj1 (pat_mk b Hb)), H1, H2. reflexivity. Qed.
Lemma value_mk : forall n x, 0 <= x < S -> value f (mk f n x) = sg n (V x).
Proof. intros n x Hx. destruct (mk_facts n x Hx) as (_ & H1 & H2). unfold value. rewrite H1, H2. reflexivity. Qed.
Lemma value_sg : forall b, value f b = sg (negative f b) (V (magnitude f b)).
Proof. reflexivity. Qed.
Lemma abs_mk : forall b, is_pattern f b -> scalar_abs f b = mk f false (magnitude f b).
Proof.
  intros b Hb. destruct (classify_ok f b (ft_hwy f F) Hb) as (_ & _ & _ & _ & (A1 & A2 & A3) & _). destruct (mk_facts false (magnitude f b) (proj2 (pat_mk b Hb))) as (B1 & B2 & B3).
  apply pat_eq; congruence.
Qed.
Lemma sign_bit_eq : forall b, is_pattern f b -> scalar_sign_bit f b = negative f b.
Proof. intros b Hb. apply (classify_ok f b (ft_hwy f F) Hb). Qed.
Lemma V_lt_inf : forall x, 0 <= x < S -> V x < V (inf_mag f) -> x < inf_mag f.
Proof. intros x Hx H. destruct (Z_lt_le_dec x (inf_mag f)); auto. pose proof inf_S. pose proof (V_mono f O (inf_mag f) x ltac:(lia) l). lia. Qed.
Lemma V_le_inf : forall x, 0 <= x < S -> V x <= V (inf_mag f) -> x <= inf_mag f.
Proof. intros x Hx H. destruct (Z_le_gt_dec x (inf_mag f)); auto. pose proof inf_S. pose proof (V_mono_lt f O (inf_mag f) x ltac:(lia) ltac:(lia)). lia. Qed.
Lemma one_unit : unit = 2 ^ 1074. Proof. reflexivity. Qed.
Lemma K_inf : forall n, 0 <= n <= 2 * 2 ^ M -> n * 2 ^ 1074 < V (inf_mag f).
Proof.
  intros n Hn. pose proof (ft_inf f F). assert (E : 2 ^ (M + 2) = 4 * 2 ^ M) by (rewrite Z.pow_add_r by (destruct (ft_M f F); lia); lia). rewrite E in H.
  assert (0 < 2 ^ M) by (apply pow_pos; destruct (ft_M f F); lia). assert (P : 0 < 2 ^ 1074) by (apply pow_pos; lia). revert H P. generalize (2 ^ 1074) as u. intros. nia.
Qed.
Lemma round_fin : forall v B, 0 <= v <= B -> R f B = B -> B < V (inf_mag f) -> 0 <= ieee_round f v < inf_mag f.
Proof.
  intros v B Hv HB Hi. pose proof (ieee_round_range f O v ltac:(lia)) as Hr. split; [lia|]. pose proof inf_S. apply V_lt_inf; [lia|]. pose proof (R_le f F v B Hv HB). unfold R in *. lia.
Qed.
Lemma of_int_small : forall z, Z.abs z <= 2 ^ M -> let r := ieee_round f (Z.abs z * 2 ^ 1074) in of_int f z = mk f (z <? 0) r /\ 0 <= r < inf_mag f /\ V r = Z.abs z * 2 ^ 1074.
Proof.
  intros z Hz r. assert (P : 0 < 2 ^ 1074) by (apply pow_pos; lia). split; [reflexivity|]. split; [|apply R_int; auto; lia].
  apply (round_fin _ (Z.abs z * 2 ^ 1074)); [nia | apply R_int; auto; lia | apply K_inf; lia].
Qed.
Lemma value_of_int : forall z, Z.abs z <= 2 ^ M -> is_pattern f (of_int f z) /\ magnitude f (of_int f z) < inf_mag f /\ negative f (of_int f z) = (z <? 0) /\ value f (of_int f z) = z * 2 ^ 1074.
Proof.
  intros z Hz. destruct (of_int_small z Hz) as (E & Hr & HV). pose proof inf_S. rewrite E. destruct (mk_facts (z <? 0) (ieee_round f (Z.abs z * 2 ^ 1074)) ltac:(lia)) as (A & B & C). rewrite B, C, value_mk, HV by lia.
  split; auto. split; [lia|]. split; auto. unfold sg. destruct (Z.ltb_spec z 0); lia.
Qed.
Lemma PM : 0 < 2 ^ M. Proof. apply pow_pos. destruct (ft_M f F); lia. Qed.
Lemma mend_facts : is_pattern f (mantissa_end f) /\ magnitude f (mantissa_end f) < inf_mag f /\ value f (mantissa_end f) = 2 ^ M * 2 ^ 1074.
Proof. pose proof PM. destruct (value_of_int (2 ^ M) ltac:(lia)) as (A & B & _ & C). auto. Qed.
Lemma half_facts : is_pattern f (half f) /\ magnitude f (half f) < inf_mag f /\ value f (half f) = 2 ^ 1073 /\
  is_pattern f (mhalf f) /\ magnitude f (mhalf f) < inf_mag f /\ value f (mhalf f) = - 2 ^ 1073.
Proof. destruct F as [-> | ->]; (split; [split; vm_compute; [discriminate | reflexivity] | split; [vm_compute; reflexivity | split; [vm_compute; reflexivity | split; [split; vm_compute; [discriminate | reflexivity] | split; vm_compute; reflexivity]]]]). Qed.
Lemma fzero_facts : fzero f = 0 /\ is_pattern f 0 /\ magnitude f 0 = 0 /\ value f 0 = 0 /\ is_pattern f (mzero f) /\ magnitude f (mzero f) = 0 /\ value f (mzero f) = 0.
Proof.
  pose proof S_pos. assert (E : fzero f = 0) by reflexivity. destruct (mk_facts false 0 ltac:(lia)) as (A & B & C). destruct (mk_facts true 0 ltac:(lia)) as (A' & B' & C'). fold (fzero f) in A, B, C. fold (mzero f) in A', B', C'.
  rewrite E in *. split; [reflexivity|]. split; auto. split; auto. split; [unfold value; rewrite B, C; apply V_0; auto|]. split; auto. split; auto. unfold value. rewrite B', C', V_0; auto.
Qed.
Lemma flt_abs : forall v c, is_pattern f v -> magnitude f c <= inf_mag f -> value f c <= V (inf_mag f) -> flt f (scalar_abs f v) c = (V (magnitude f v) <? value f c).
Proof.
  intros v c Hv Hc Hc2. rewrite abs_mk by auto. destruct (pat_mk v Hv) as [_ Hm]. destruct (mk_facts false (magnitude f v) Hm) as (A & B & C). unfold flt, not_nan. rewrite C, value_mk by auto. cbn [sg].
  rewrite (proj2 (Z.leb_le _ _) Hc). destruct (Z.ltb_spec (V (magnitude f v)) (value f c)); [|rewrite andb_false_r; reflexivity].
  rewrite (proj2 (Z.leb_le _ _)); [reflexivity|]. apply V_le_inf; lia.
Qed.
Lemma fle_abs : forall v c, is_pattern f v -> magnitude f c <= inf_mag f -> value f c < V (inf_mag f) -> fle f (scalar_abs f v) c = (V (magnitude f v) <=? value f c).
Proof.
  intros v c Hv Hc Hc2. rewrite abs_mk by auto. destruct (pat_mk v Hv) as [_ Hm]. destruct (mk_facts false (magnitude f v) Hm) as (A & B & C). unfold fle, not_nan. rewrite C, value_mk by auto. cbn [sg].
  rewrite (proj2 (Z.leb_le _ _) Hc). destruct (Z.leb_spec (V (magnitude f v)) (value f c)); [|rewrite andb_false_r; reflexivity].
  rewrite (proj2 (Z.leb_le _ _)); [reflexivity|]. apply V_le_inf; lia.
Qed.
Lemma flt_mend : forall v, is_pattern f v -> flt f (scalar_abs f v) (mantissa_end f) = (V (magnitude f v) <? 2 ^ M * 2 ^ 1074).
Proof. intros v Hv. destruct mend_facts as (A & B & C). pose proof PM. rewrite flt_abs; auto; [rewrite C; auto | lia | rewrite C; apply Z.lt_le_incl, K_inf; lia]. Qed.
Lemma fle_mend : forall v, is_pattern f v -> fle f (scalar_abs f v) (mantissa_end f) = (V (magnitude f v) <=? 2 ^ M * 2 ^ 1074).
Proof. intros v Hv. destruct mend_facts as (A & B & C). pose proof PM. rewrite fle_abs; auto; [rewrite C; auto | lia | rewrite C; apply K_inf; lia]. Qed.
(** a finite pattern and its sign, ignoring the sign of zero *)
Lemma flt_fin : forall a b, magnitude f a < inf_mag f -> magnitude f b < inf_mag f -> flt f a b = (value f a <? value f b).
Proof. intros a b Ha Hb. unfold flt, not_nan. rewrite !(proj2 (Z.leb_le _ _)) by lia. reflexivity. Qed.
Lemma feq_fin : forall a b, magnitude f a < inf_mag f -> magnitude f b < inf_mag f -> feq f a b = (value f a =? value f b).
Proof. intros a b Ha Hb. unfold feq, not_nan. rewrite !(proj2 (Z.leb_le _ _)) by lia. reflexivity. Qed.
Lemma fneg_fin : forall a, is_pattern f a -> is_pattern f (fneg f a) /\ magnitude f (fneg f a) = magnitude f a /\ negative f (fneg f a) = negb (negative f a) /\ value f (fneg f a) = - value f a.
Proof.
  intros a Ha. destruct (pat_mk a Ha) as [E Hm]. assert (En : fneg f a = mk f (negb (negative f a)) (magnitude f a)). { unfold fneg, mk in *. revert E. destruct (negative f a); cbn [negb]; intros E; lia. }
  destruct (mk_facts (negb (negative f a)) (magnitude f a) Hm) as (A & B & C). rewrite En. split; auto. split; auto. split; auto. rewrite value_mk by auto. rewrite value_sg. destruct (negative f a); cbn [negb sg]; lia.
Qed.
Lemma fadd_fin : forall nan a b, magnitude f a < inf_mag f -> magnitude f b < inf_mag f -> let s := value f a + value f b in
  exists n, fadd f nan a b = mk f n (ieee_round f (Z.abs s)) /\ (s < 0 -> n = true) /\ (0 < s -> n = false).
Proof.
  intros nan a b Ha Hb s. unfold fadd, is_fin. rewrite !(proj2 (Z.ltb_lt _ _)) by lia. cbn [andb]. fold s. eexists. split; [reflexivity|].
  split; intros Hs; destruct (Z.eqb_spec s 0); try lia; apply Z.ltb_lt || apply Z.ltb_ge; lia.
Qed.
Lemma quot_sg : forall n a c, 0 < c -> 0 <= a -> Z.quot (sg n a) c = sg n (a / c).
Proof. intros n a c Hc Ha. destruct n; cbn [sg]; [rewrite Z.quot_opp_l by lia|]; rewrite Z.quot_div_nonneg by lia; reflexivity. Qed.
Lemma cast_mk : forall sgn w n r, 0 <= r < inf_mag f -> let t := sg n (V r / 2 ^ 1074) in lowest sgn w <= t <= highest sgn w -> cast f sgn w (mk f n r) = Some t.
Proof.
  intros sgn w n r Hr t Ht. pose proof inf_S. destruct (mk_facts n r ltac:(lia)) as (A & B & C). unfold cast, is_fin. rewrite C, (proj2 (Z.ltb_lt _ _)) by lia. rewrite value_mk by lia.
  unfold one. rewrite quot_sg by (try apply V_nonneg; auto; try lia; apply pow_pos; lia). fold t. rewrite !(proj2 (Z.leb_le _ _)) by lia. reflexivity.
Qed.

Lemma is_nearest_sg : forall n a m, is_nearest a m -> is_nearest (sg n a) (sg n m).
Proof.
  intros [] a m; cbn [sg]; auto. unfold is_nearest. replace (- a - - m * unit) with (- (a - m * unit)) by ring. rewrite Z.abs_opp, Z.even_opp. auto.
Qed.
(** what the code rounds |v| to *)
Definition near_mag (a : Z) : Z := let n := nearest_up a in if Z.odd n && (Z.abs (n * 2 ^ 1074 - a) =? 2 ^ 1073) then n - 1 else n.
Lemma near_mag_ok : forall a, 0 <= a -> is_nearest a (near_mag a) /\ 0 <= near_mag a <= nearest_up a.
Proof.
  intros a Ha. destruct (nearest_up_bounds a Ha) as (N0 & N1 & N2). unfold near_mag, is_nearest, unit. rewrite one_half in *. revert N0 N1 N2. generalize (nearest_up a) as n. assert (P : 0 < 2 ^ 1073) by (apply pow_pos; lia). revert P. generalize (2 ^ 1073) as h.
  intros h P n N0 N1 N2. destruct (Z.odd n) eqn:Eo; cbn [andb].
  - destruct (Z.eqb_spec (Z.abs (n * (2 * h) - a)) h).
    + split; [right; split; [nia|]; rewrite Z.even_sub, <- Z.negb_odd, Eo; reflexivity | split; [|lia]]. destruct (Z.eq_dec n 0); [subst; discriminate | lia].
    + split; [left; nia | lia].
  - split; [|lia]. destruct (Z_lt_le_dec (2 * Z.abs (a - n * (2 * h))) (2 * h)); [left; lia | right; split; [nia|]]. rewrite <- Z.negb_odd, Eo. reflexivity.
Qed.
Definition neg0 (v : Z) : bool := negative f v && (0 <? V (magnitude f v)).
Lemma neg0_flt : forall v, magnitude f v < inf_mag f -> 0 <= magnitude f v -> flt f v (fzero f) = neg0 v.
Proof.
  intros v Hv H0. destruct fzero_facts as (E & _ & A & B & _). rewrite flt_fin; auto; [|rewrite E, A; pose proof inf_S; lia]. rewrite E, B, value_sg. unfold neg0.
  pose proof (V_nonneg f O (magnitude f v) H0). destruct (negative f v); cbn [sg andb]; destruct (Z.ltb_spec 0 (V (magnitude f v))); destruct (Z.ltb_spec (V (magnitude f v)) 0); try lia;
  try (apply Z.ltb_lt; lia); try (apply Z.ltb_ge; lia).
Qed.
Lemma value_neg0 : forall v, 0 <= magnitude f v -> value f v = sg (neg0 v) (V (magnitude f v)).
Proof.
  intros v H0. rewrite value_sg. unfold neg0. pose proof (V_nonneg f O (magnitude f v) H0). destruct (negative f v); cbn [sg andb]; auto. destruct (Z.ltb_spec 0 (V (magnitude f v))); cbn [sg]; auto. lia.
Qed.
Lemma fadd_bias : forall nan v, is_pattern f v -> magnitude f v < inf_mag f -> fadd f nan v (bias_of f v) = mk f (neg0 v) (ieee_round f (V (magnitude f v) + 2 ^ 1073)).
Proof.
  intros nan v Hv Hf. destruct (pat_mk v Hv) as [_ Hm]. destruct half_facts as (A1 & A2 & A3 & B1 & B2 & B3). pose proof (V_nonneg f O (magnitude f v) ltac:(lia)). assert (P : 0 < 2 ^ 1073) by (apply pow_pos; lia).
  assert (E : magnitude f (bias_of f v) < inf_mag f /\ value f (bias_of f v) = sg (neg0 v) (2 ^ 1073)).
  { unfold bias_of. rewrite neg0_flt by lia. destruct (neg0 v); cbn [sg]; auto. }
  destruct E as [E1 E2]. destruct (fadd_fin nan v (bias_of f v) Hf E1) as (n & E & Hn1 & Hn2). rewrite E. rewrite E2, (value_neg0 v) in * by lia.
  destruct (neg0 v) eqn:En; cbn [sg] in *.
  - rewrite (Hn1 ltac:(lia)). f_equal. f_equal. lia.
  - rewrite (Hn2 ltac:(lia)). f_equal. f_equal. lia.
Qed.
Lemma tie_eq : forall nan v n, is_pattern f v -> magnitude f v < inf_mag f -> 1 <= n <= 2 ^ M -> V (magnitude f v) < 2 ^ M * 2 ^ 1074 -> 0 < V (magnitude f v) ->
  tie f nan v (sg (neg0 v) n) = Z.odd n && (R f (Z.abs (n * 2 ^ 1074 - V (magnitude f v))) =? 2 ^ 1073).
Proof.
  intros nan v n Hv Hf Hn HV H0. destruct (pat_mk v Hv) as [_ Hm]. destruct half_facts as (A1 & A2 & A3 & _). pose proof PM as PM0. set (a := V (magnitude f v)) in *. pose proof inf_S as IS. assert (P : 0 < 2 ^ 1074) by (apply pow_pos; lia).
  unfold tie. f_equal. { destruct (neg0 v); cbn [sg]; auto. apply Z.odd_opp. }
  destruct (value_of_int (sg (neg0 v) n)) as (B1 & B2 & B3 & B4). { destruct (neg0 v); cbn [sg]; lia. }
  destruct (fneg_fin v Hv) as (C1 & C2 & C3 & C4). unfold fsub. destruct (fadd_fin nan (of_int f (sg (neg0 v) n)) (fneg f v) B2 ltac:(lia)) as (s & E & _). rewrite E. clear E.
  rewrite B4, C4, (value_neg0 v) by lia. fold a. replace (Z.abs (sg (neg0 v) n * 2 ^ 1074 + - sg (neg0 v) a)) with (Z.abs (n * 2 ^ 1074 - a)) by (destruct (neg0 v); cbn [sg]; lia).
  assert (D : 0 <= ieee_round f (Z.abs (n * 2 ^ 1074 - a)) < inf_mag f). { apply round_fin with (2 ^ M * 2 ^ 1074); [split; [lia|]; nia | apply R_int; auto; lia | apply K_inf; lia]. }
  destruct (mk_facts s (ieee_round f (Z.abs (n * 2 ^ 1074 - a))) ltac:(lia)) as (G1 & G2 & G3). rewrite abs_mk, G3 by auto. destruct (mk_facts false (ieee_round f (Z.abs (n * 2 ^ 1074 - a))) ltac:(lia)) as (G1' & G2' & G3').
  rewrite feq_fin; [|lia | auto]. rewrite A3, value_mk by lia. reflexivity.
Qed.
(** the common steps; B bounds |v| *)
Lemma near_core : forall nan w v B, is_pattern f v -> V (magnitude f v) < 2 ^ M * 2 ^ 1074 -> V (magnitude f v) <= B * 2 ^ 1074 -> 1 <= B <= 2 ^ M -> B <= 2 ^ (w - 1) - 1 ->
  exists q, cast f true w (fadd f nan v (bias_of f v)) = Some (sg (neg0 v) q) /\ 0 <= q <= B /\ (q <> 0 -> 0 < V (magnitude f v)) /\
    near_mag (V (magnitude f v)) = (if q =? 0 then 0 else if tie f nan v (sg (neg0 v) q) then q - 1 else q).
Proof.
  intros nan w v B Hv HK HB HB1 HBw. destruct (pat_mk v Hv) as [_ Hm]. pose proof PM as PM0. pose proof inf_S as IS. assert (P : 0 < 2 ^ 1073) by (apply pow_pos; lia). set (a := V (magnitude f v)) in *. assert (Ha : 0 <= a) by (apply V_nonneg; auto; lia).
  assert (Hf : magnitude f v < inf_mag f). { apply V_lt_inf; [lia|]. fold a. eapply Z.lt_trans; [exact HK | apply K_inf; lia]. }
  rewrite fadd_bias by auto. fold a. set (r := ieee_round f (a + 2 ^ 1073)).
  assert (Hr : 0 <= r < inf_mag f). { apply round_fin with ((2 * 2 ^ M) * 2 ^ 1074); [| |apply K_inf; lia]. rewrite one_half in *. nia. replace (2 * 2 ^ M * 2 ^ 1074) with (2 ^ M * 2 ^ 1075). apply R_exact; auto. split; [lia|]. apply Z.pow_lt_mono_r; destruct (ft_M f F); lia. destruct (ft_M f F); lia.
    rewrite (Z.pow_add_r 2 (M)) by (destruct (ft_M f F); lia). change 1075 with (1 + 1074). rewrite Z.pow_add_r by lia. nia. change 1075 with (1 + 1074). rewrite (Z.pow_add_r 2 1 1074) by lia. change (2 ^ 1) with 2. ring. }
  assert (RE : R f (a + 2 ^ 1073) = V r) by reflexivity.
  assert (Q : exists q, V r / 2 ^ 1074 = q /\ 0 <= q <= B /\ (q <> 0 -> 0 < a) /\ near_mag a = (if q =? 0 then 0 else if tie f nan v (sg (neg0 v) q) then q - 1 else q)).
  { destruct (Z_lt_le_dec a (2 ^ 1073)) as [L|L].
    - destruct (small_case f F (magnitude f v) ltac:(lia) L) as [S1 S2]. fold a in S1, S2. rewrite RE in S2.
      assert (E0 : near_mag a = 0) by (unfold near_mag; rewrite S1; reflexivity). rewrite E0. destruct S2 as [S2 | [S2 S3]].
      + exists 0. split; [apply Z.div_small; split; auto; apply V_nonneg; auto; lia|]. split; [lia|]. split; [lia|]. reflexivity.
      + assert (0 < a). { destruct (Z_lt_le_dec 0 a); auto. assert (a = 0) by lia. rewrite H in RE. replace (0 + 2 ^ 1073) with (1 * 2 ^ 1073) in RE by lia. rewrite R_exact in RE; auto; [rewrite one_half in S2; lia | | destruct (ft_M f F); lia |].
          split; [lia|]. change 1 with (2 ^ 0) at 1. apply Z.pow_lt_mono_r; destruct (ft_M f F); lia. rewrite one_half. assert (0 < 2 ^ (M + 2)) by (apply pow_pos; destruct (ft_M f F); lia). nia. }
        exists 1. split; [rewrite S2; apply Z.div_same; lia|]. split; [lia|]. split; [auto|]. change (1 =? 0) with false. cbv iota. rewrite tie_eq; auto; [|lia]. fold a. rewrite Z.mul_1_l, Z.abs_eq by (rewrite one_half; lia). rewrite S3. rewrite Z.eqb_refl. reflexivity.
    - destruct (large_case f F (magnitude f v) ltac:(lia) (conj L HK)) as (L1 & L2 & L3 & L4). fold a in L1, L2, L3, L4. rewrite RE in L1. exists (nearest_up a).
      assert (Hq : V r / 2 ^ 1074 = nearest_up a). { symmetry. apply Z.div_unique with (V r - 2 ^ 1074 * nearest_up a); lia. }
      split; auto. split. { split; [lia|]. destruct (nearest_up_bounds a Ha) as (_ & N1 & _). rewrite one_half in *. nia. } split; [lia|].
      destruct (Z.eqb_spec (nearest_up a) 0); [lia|]. rewrite tie_eq; auto; try lia. fold a. rewrite L4. reflexivity. }
  destruct Q as (q & Q1 & Q2 & Q3 & Q4). exists q. split; [|auto]. rewrite cast_mk; auto; rewrite Q1; auto. unfold lowest, highest. destruct (neg0 v); cbn [sg]; lia.
Qed.
End P.
