(** Round, Trunc, Ceil, Floor and the conversions to integers meet their specification. *)
From Coq Require Import ZArith Bool Lia.
From Verif Require Import Word Word_Proofs Float_Spec Float_Model Float_Proofs Float_Conv Float_F64 Float_More Rounding_Model Rounding_Spec Rounding_Core Rounding_Proofs.
Open Scope Z_scope.
Arguments Z.pow : simpl never.
Arguments Z.mul : simpl never.
Arguments R : simpl never.

Section Q.
Context (f : fmt) (F : float_type f).
Notation M := (mbits f).
Notation V := (mag_value f).
Notation S := (2 ^ (ebits f + mbits f)).
Let O : fmt_ok f := ft_ok f F.
Lemma u_pos : 0 < 2 ^ 1074. Proof. apply pow_pos; lia. Qed.
Lemma exact_ok : forall n, is_floor (n * unit) n /\ is_ceil (n * unit) n /\ is_trunc (n * unit) n /\ is_nearest (n * unit) n.
Proof.
  intros n. unfold is_trunc, is_floor, is_ceil, is_nearest. rewrite one_unit. pose proof u_pos as P. revert P. generalize (2 ^ 1074). intros u P.
  assert (n * u < (n + 1) * u) by nia. assert ((n - 1) * u < n * u) by nia. split; [lia|]. split; [lia|]. split; [split; intros; lia|]. left. rewrite Z.sub_diag. cbn [Z.abs]. lia.
Qed.
Lemma is_trunc_sg : forall s a, 0 <= a -> is_trunc (sg s a) (sg s (a / 2 ^ 1074)).
Proof.
  intros s a Ha. unfold is_trunc, is_floor, is_ceil. rewrite one_unit. pose proof u_pos as P. revert P. generalize (2 ^ 1074). intros u P.
  pose proof (Z.div_mod a u ltac:(lia)). pose proof (Z.mod_pos_bound a u ltac:(lia)). assert (0 <= a / u) by (apply Z.div_pos; lia). set (q := a / u) in *. destruct s; cbn [sg]; split; intros; nia.
Qed.
(** large values are integers *)
Lemma large_int : forall x, 0 <= x -> 2 ^ M * 2 ^ 1074 <= V x -> exists n, V x = n * unit.
Proof.
  intros x Hx H. destruct (sig_exp_of f x O Hx) as (t & j & _ & Ht & Hj & _ & EV). destruct (ft_M f F) as [HM Hs]. pose proof (proj2 (proj2 O)) as S0. rewrite EV in *.
  assert (Hp : 1074 <= t + s0 f). { destruct (Z_le_gt_dec 1074 (t + s0 f)); auto. exfalso. assert (2 ^ (t + s0 f) <= 2 ^ 1073) by (apply Z.pow_le_mono_r; lia). rewrite one_half in H. assert (0 < 2 ^ M) by (apply pow_pos; lia). assert (0 < 2 ^ 1073) by (apply pow_pos; lia). assert (0 < 2 ^ (t + s0 f)) by (apply pow_pos; lia). nia. }
  exists (j * 2 ^ (t + s0 f - 1074)). rewrite one_unit, <- Z.mul_assoc, <- Z.pow_add_r by lia. f_equal. f_equal. lia.
Qed.
Lemma value_int : forall v n, V (magnitude f v) = n * unit -> exists m, value f v = m * unit.
Proof. intros v n E. rewrite value_sg, E. exists (sg (negative f v) n). destruct (negative f v); cbn [sg]; lia. Qed.
(** a rule for rounding that fixes integers *)
Definition keeps (rnd : Z -> Z -> Prop) : Prop := forall n, rnd (n * unit) n.
Lemma rounds_self : forall rnd v n, keeps rnd -> is_pattern f v -> (magnitude f v < inf_mag f -> V (magnitude f v) = n * unit) -> rounds rnd f v v.
Proof.
  intros rnd v n K Hv H. unfold rounds, finite. split; auto. split; auto. split; auto. intros Hf. split; auto. destruct (value_int v n (H Hf)) as (m & E). exists m. split; auto. rewrite E. apply K.
Qed.
Lemma rounds_large : forall rnd v, keeps rnd -> is_pattern f v -> 2 ^ M * 2 ^ 1074 <= V (magnitude f v) -> rounds rnd f v v.
Proof. intros rnd v K Hv H. destruct (large_int _ (proj1 (proj2 (pat_mk f F v Hv))) H) as (n & E). apply rounds_self with n; auto. Qed.
Lemma rounds_val : forall (rnd : Z -> Z -> Prop) v r n, is_pattern f r -> magnitude f v < inf_mag f -> magnitude f r < inf_mag f -> value f r = n * 2 ^ 1074 -> rnd (value f v) n -> rounds rnd f v r.
Proof.
  intros rnd v r n Hr Hv Hr2 E H. unfold rounds, is_nan, is_inf, finite. split; auto. split; [intros; lia|]. split; [intros; lia|]. intros _. split; auto. exists n. auto.
Qed.
Lemma keeps_nearest : keeps is_nearest. Proof. intros n. destruct (exact_ok n) as (? & ? & ? & ?). assumption. Qed.
Lemma keeps_trunc : keeps is_trunc. Proof. intros n. destruct (exact_ok n) as (? & ? & ? & ?). assumption. Qed.
Lemma keeps_ceil : keeps is_ceil. Proof. intros n. destruct (exact_ok n) as (? & ? & ? & ?). assumption. Qed.
Lemma keeps_floor : keeps is_floor. Proof. intros n. destruct (exact_ok n) as (? & ? & ? & ?). assumption. Qed.
Lemma fin_small : forall v, is_pattern f v -> V (magnitude f v) <= 2 ^ M * 2 ^ 1074 -> magnitude f v < inf_mag f.
Proof. intros v Hv H. destruct (pat_mk f F v Hv) as [_ Hm]. apply V_lt_inf; auto. eapply Z.le_lt_trans; [exact H|]. apply K_inf; auto. pose proof (PM f F). lia. Qed.
Lemma wd_M : 2 ^ M <= 2 ^ (wd f - 1) - 1.
Proof. destruct F as [-> | ->]; vm_compute; discriminate. Qed.
Lemma copy_sign_zero : forall m v, is_pattern f v -> 0 <= m < S -> copy_sign_to_abs f (mk f false m) v = mk f (negative f v) m.
Proof.
  intros m v Hv Hm. destruct (pat_mk f F v Hv) as [E _]. destruct (fmt_facts f (ft_hwy f F)) as (_ & _ & _ & _ & F4 & _). destruct (classify_ok f (mk f false m) (ft_hwy f F)) as (_ & _ & _ & _ & _ & C). apply (mk_facts f F); auto.
  destruct (C v Hv) as (C1 & C2 & C3). clear C. assert (EE : copy_sign_to_abs f (mk f false m) v = scalar_copy_sign f (mk f false m) v).
  { unfold copy_sign_to_abs, scalar_copy_sign. rewrite (Z.land_comm (sign_mask f) v). f_equal. destruct (mk_facts f F false m Hm) as (A & B & D). pose proof (abs_mk f F _ A) as H. unfold scalar_abs in H. rewrite H, D. reflexivity. }
  rewrite EE. destruct (mk_facts f F false m Hm) as (A & B & D). destruct (mk_facts f F (negative f v) m Hm) as (A' & B' & D'). apply (pat_eq f F); congruence.
Qed.

(** Round *)
Lemma of_int_0 : of_int f 0 = 0. Proof. destruct F as [-> | ->]; vm_compute; reflexivity. Qed.
Lemma sg_bound : forall s m B, 0 <= m <= B -> Z.abs (sg s m) <= B. Proof. intros [] m B; cbn [sg]; lia. Qed.
Lemma emu_round_ok : forall nan v, is_pattern f v -> exists r, emu_round f nan v = Some r /\ rounds is_nearest f v r.
Proof.
  intros nan v Hv. destruct (pat_mk f F v Hv) as [_ Hm]. unfold emu_round. rewrite (flt_mend f F) by auto. destruct (Z.ltb_spec (V (magnitude f v)) (2 ^ M * 2 ^ 1074)) as [L|L]; cbn [negb]; [|exists v; split; auto; apply rounds_large; auto using keeps_nearest].
  assert (Hf : magnitude f v < inf_mag f) by (apply fin_small; auto; lia). pose proof (PM f F) as PM0. destruct (near_core f F nan (wd f) v (2 ^ M) Hv L ltac:(lia) ltac:(lia) wd_M) as (q & E & Hq & Hq0 & EN).
  rewrite E. cbn [bind]. rewrite (neg0_flt f F) by lia. destruct (near_mag_ok (V (magnitude f v)) ltac:(apply V_nonneg; auto; lia)) as [N1 N2]. rewrite EN in N1. apply (is_nearest_sg (neg0 f v)) in N1. rewrite <- (value_neg0 f F) in N1 by lia.
  replace (sg (neg0 f v) q =? 0) with (q =? 0). 2:{ destruct (neg0 f v); cbn [sg]; auto. destruct (Z.eqb_spec q 0), (Z.eqb_spec (- q) 0); auto; lia. }
  destruct (Z.eqb_spec q 0) as [Q0|Q0].
  - exists 0. split. { f_equal. destruct (fzero_facts f F) as (Z0 & _). rewrite Z0. destruct (neg0 f v); auto. apply of_int_0. }
    destruct (fzero_facts f F) as (_ & Z1 & Z2 & Z3 & _). apply rounds_val with 0; auto; [rewrite Z2; pose proof (inf_S f F); lia|]. replace 0 with (sg (neg0 f v) 0) by (destruct (neg0 f v); reflexivity). exact N1.
  - assert (G : forall z, z = sg (neg0 f v) (if tie f nan v (sg (neg0 f v) q) then q - 1 else q) -> exists r, Some (of_int f z) = Some r /\ rounds is_nearest f v r).
    { intros z ->. eexists. split; [reflexivity|]. destruct (value_of_int f F (sg (neg0 f v) (if tie f nan v (sg (neg0 f v) q) then q - 1 else q))) as (A & B & _ & D); [apply sg_bound; destruct (tie f nan v (sg (neg0 f v) q)); lia|]. apply rounds_val with (sg (neg0 f v) (if tie f nan v (sg (neg0 f v) q) then q - 1 else q)); auto. }
    destruct (tie f nan v (sg (neg0 f v) q)); apply G; auto. destruct (neg0 f v); cbn [sg]; lia.
Qed.
Lemma scalar_round_ok : forall nan v, is_pattern f v -> exists r, scalar_round f nan v = Some r /\ rounds is_nearest f v r.
Proof.
  intros nan v Hv. destruct (pat_mk f F v Hv) as [_ Hm]. unfold scalar_round. rewrite (flt_mend f F) by auto. destruct (Z.ltb_spec (V (magnitude f v)) (2 ^ M * 2 ^ 1074)) as [L|L]; cbn [negb]; [|exists v; split; auto; apply rounds_large; auto using keeps_nearest].
  assert (Hf : magnitude f v < inf_mag f) by (apply fin_small; auto; lia). pose proof (PM f F) as PM0. destruct (near_core f F nan (wd f) v (2 ^ M) Hv L ltac:(lia) ltac:(lia) wd_M) as (q & E & Hq & Hq0 & EN).
  rewrite E. cbn [bind]. rewrite (neg0_flt f F) by lia. destruct (near_mag_ok (V (magnitude f v)) ltac:(apply V_nonneg; auto; lia)) as [N1 N2]. rewrite EN in N1. apply (is_nearest_sg (neg0 f v)) in N1. rewrite <- (value_neg0 f F) in N1 by lia.
  replace (sg (neg0 f v) q =? 0) with (q =? 0). 2:{ destruct (neg0 f v); cbn [sg]; auto. destruct (Z.eqb_spec q 0), (Z.eqb_spec (- q) 0); auto; lia. }
  pose proof (inf_S f F) as IS. destruct (Z.eqb_spec q 0) as [Q0|Q0].
  - eexists. split; [reflexivity|]. unfold fzero. rewrite copy_sign_zero by (auto; lia). destruct (mk_facts f F (negative f v) 0 ltac:(lia)) as (A & B & D). apply rounds_val with 0; auto; [lia | rewrite (value_mk f F), V_0 by (auto; lia); destruct (negative f v); reflexivity |].
    replace 0 with (sg (neg0 f v) 0) by (destruct (neg0 f v); reflexivity). exact N1.
  - cbv zeta. eexists. split; [reflexivity|]. set (z := sg (neg0 f v) q - (if tie f nan v (sg (neg0 f v) q) then if neg0 f v then -1 else 1 else 0)).
    assert (Ez : z = sg (neg0 f v) (if tie f nan v (sg (neg0 f v) q) then q - 1 else q)) by (unfold z; destruct (tie f nan v (sg (neg0 f v) q)), (neg0 f v); cbn [sg]; lia).
    destruct (value_of_int f F z) as (A & B & _ & D). { rewrite Ez. apply sg_bound. destruct (tie f nan v (sg (neg0 f v) q)); lia. }
    apply rounds_val with z; auto. rewrite Ez. exact N1.
Qed.
(** rounding by adding a large value *)
Lemma round_big : forall v, 2 ^ M * 2 ^ 1074 <= v < 2 * 2 ^ M * 2 ^ 1074 -> exists m, R f v = m * 2 ^ 1074 /\ is_nearest v m /\ 2 ^ M <= m <= 2 * 2 ^ M.
Proof.
  intros v Hv. destruct (ft_M f F) as [HM Hs]. pose proof (proj2 (proj2 O)) as S0. pose proof (PM f F) as PM0. pose proof u_pos as U.
  set (u := 2 ^ (1074 - s0 f + s0 f)). assert (Eu : u = 2 ^ 1074) by (unfold u; f_equal; lia).
  set (k := v / u). assert (Hk : k * u <= v < (k + 1) * u). { pose proof (Z.div_mod v u ltac:(lia)). pose proof (Z.mod_pos_bound v u ltac:(lia)). unfold k. lia. }
  assert (Hk2 : 2 ^ M <= k < 2 * 2 ^ M). { unfold k. rewrite Eu. split; [apply Z.div_le_lower_bound; lia | apply Z.div_lt_upper_bound; lia]. }
  set (up := (u <? 2 * (v - k * u)) || ((u =? 2 * (v - k * u)) && Z.odd k)). exists (if up then k + 1 else k).
  assert (G : V ((1074 - s0 f) * 2 ^ M + (if up then k + 1 else k)) = (if up then k + 1 else k) * u) by (apply V_grid; auto; destruct up; lia).
  assert (N : nearest_even f v ((1074 - s0 f) * 2 ^ M + (if up then k + 1 else k))).
  { apply (nearest_grid f O v (1074 - s0 f) k); try lia.
    - assert (E : V ((1074 - s0 f) * 2 ^ M + k) = k * u) by (apply V_grid; auto; lia). assert (V ((1074 - s0 f) * 2 ^ M + k) < V (inf_mag f)). { rewrite E, Eu. apply K_inf; auto; lia. }
      destruct (Z_lt_le_dec ((1074 - s0 f) * 2 ^ M + k) (inf_mag f)); auto. pose proof (inf_S f F). pose proof (V_mono f O (inf_mag f) ((1074 - s0 f) * 2 ^ M + k) ltac:(lia) l). lia.
    - fold u. unfold up. rewrite <- Z.negb_odd. destruct (Z.ltb_spec u (2 * (v - k * u))); cbn [orb]; [right; split; auto|]. destruct (Z.eqb_spec u (2 * (v - k * u))); cbn [andb]; [destruct (Z.odd k); cbn [negb]; [right | left]; split; auto | left; split; auto; left; lia]. }
  split; [unfold R; rewrite (nearest_unique f O v _ _ (ieee_round_nearest f O v ltac:(lia)) N), G, Eu; reflexivity|]. split; [|destruct up; lia].
  unfold is_nearest. rewrite one_unit, <- Eu. revert Hk. unfold up. destruct (Z.ltb_spec u (2 * (v - k * u))); cbn [orb]; intros Hk; [left; nia|]. destruct (Z.eqb_spec u (2 * (v - k * u))); cbn [andb]; [|left; nia].
  destruct (Z.odd k) eqn:Ek; [right; split; [nia|] | right; split; [nia|]]. rewrite Z.even_add, <- Z.negb_odd, Ek. reflexivity. rewrite <- Z.negb_odd, Ek. reflexivity.
Qed.
Lemma even_PM : Z.even (2 ^ M) = true. Proof. apply (pm_even f O). Qed.
Lemma sse2_round_ok : forall nan v, is_pattern f v -> rounds is_nearest f v (sse2_round f nan v).
Proof.
  intros nan v Hv. destruct (pat_mk f F v Hv) as [_ Hm]. unfold sse2_round. rewrite (flt_mend f F) by auto. destruct (Z.ltb_spec (V (magnitude f v)) (2 ^ M * 2 ^ 1074)) as [L|L]; [|apply rounds_large; auto using keeps_nearest].
  assert (Hf : magnitude f v < inf_mag f) by (apply fin_small; auto; lia). pose proof (PM f F) as PM0. pose proof u_pos as U. pose proof (V_nonneg f O (magnitude f v) ltac:(lia)) as V0. pose proof (inf_S f F) as IS.
  destruct (of_int_small f F (2 ^ M) ltac:(lia)) as (E1 & E2 & E3). rewrite Z.abs_eq in * by lia. unfold mantissa_end. rewrite E1. replace (2 ^ M <? 0) with false by (symmetry; apply Z.ltb_ge; lia). set (re := ieee_round f (2 ^ M * 2 ^ 1074)) in *.
  rewrite copy_sign_zero by (auto; lia). destruct (mk_facts f F (negative f v) re ltac:(lia)) as (A1 & A2 & A3).
  set (s := negative f v) in *. set (a := V (magnitude f v)) in *.
  destruct (fadd_fin f nan (mk f s re) v ltac:(lia) Hf) as (n1 & G1 & G2 & G3). rewrite (value_mk f F) in * by lia. rewrite (value_sg f v) in *. fold s a in G1, G2, G3. rewrite E3 in *.
  assert (Gs : n1 = s) by (destruct s; cbn [sg] in *; [apply G2 | apply G3]; lia). subst n1. rewrite G1. replace (Z.abs (sg s (2 ^ M * 2 ^ 1074) + sg s a)) with (2 ^ M * 2 ^ 1074 + a) by (destruct s; cbn [sg]; lia). clear G1 G2 G3.
  destruct (round_big (2 ^ M * 2 ^ 1074 + a) ltac:(lia)) as (m & H1 & H2 & H3). set (ra := ieee_round f (2 ^ M * 2 ^ 1074 + a)) in *. assert (EV : V ra = m * 2 ^ 1074) by exact H1.
  assert (Hra : 0 <= ra < inf_mag f). { split; [apply ieee_round_range; auto; lia|]. apply V_lt_inf; auto; [pose proof (ieee_round_range f O (2 ^ M * 2 ^ 1074 + a) ltac:(lia)); fold ra in H; lia|]. rewrite EV. apply K_inf; auto; lia. }
  destruct (mk_facts f F s ra ltac:(lia)) as (B1 & B2 & B3). destruct (fneg_fin f F (mk f s re) A1) as (C1 & C2 & C3 & C4). unfold fsub.
  destruct (fadd_fin f nan (mk f s ra) (fneg f (mk f s re)) ltac:(lia) ltac:(lia)) as (n2 & G1 & _). rewrite G1. rewrite C4, !(value_mk f F), E3, EV by lia.
  replace (sg s (m * 2 ^ 1074) + - sg s (2 ^ M * 2 ^ 1074)) with (sg s (m - 2 ^ M) * 2 ^ 1074) by (destruct s; cbn [sg]; ring).
  destruct (fadd_fin f nan (mk f s ra) (fneg f (mk f s re)) ltac:(lia) ltac:(lia)) as (n3 & G4 & G5 & G6). rewrite G4 in G1. rewrite C4, !(value_mk f F), E3, EV in * by lia.
  replace (sg s (m * 2 ^ 1074) + - sg s (2 ^ M * 2 ^ 1074)) with (sg s (m - 2 ^ M) * 2 ^ 1074) in * by (destruct s; cbn [sg]; ring).
  set (d := sg s (m - 2 ^ M)) in *. assert (Hd : Z.abs d <= 2 ^ M) by (apply sg_bound; lia).
  replace (Z.abs (d * 2 ^ 1074)) with (Z.abs d * 2 ^ 1074) in * by (rewrite Z.abs_mul; rewrite (Z.abs_eq (2 ^ 1074)) by lia; reflexivity).
  destruct (of_int_small f F d Hd) as (I1 & I2 & I3). set (rd := ieee_round f (Z.abs d * 2 ^ 1074)) in *. rewrite <- G1 in *. destruct (mk_facts f F n3 rd ltac:(lia)) as (D1 & D2 & D3).
  apply rounds_val with d; auto; [lia | |].
  - rewrite (value_mk f F), I3 by lia. destruct (Z_lt_le_dec d 0); [rewrite (G5 ltac:(nia)); cbn [sg]; lia|]. destruct (Z.eq_dec d 0) as [->|]; [destruct n3; reflexivity|]. rewrite (G6 ltac:(nia)). cbn [sg]. lia.
  - rewrite (value_sg f v). fold s a. apply is_nearest_sg. unfold is_nearest in *. replace (a - (m - 2 ^ M) * unit) with (2 ^ M * 2 ^ 1074 + a - m * unit) by (rewrite one_unit; ring). rewrite Z.even_sub, even_PM. destruct (Z.even m); cbn [Bool.eqb]; exact H2.
Qed.
End Q.
