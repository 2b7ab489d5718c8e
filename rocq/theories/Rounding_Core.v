(** The arithmetic core of Round and NearestInt: adding one half and truncating. *)
From Coq Require Import ZArith Bool Lia.
From Verif Require Import Word Word_Proofs Float_Spec Float_Model Float_Proofs Float_Conv Float_F64 Float_More Rounding_Model Rounding_Spec.
Open Scope Z_scope.
Arguments Z.pow : simpl never.
Arguments Z.mul : simpl never.

Lemma ft_ok : forall f, float_type f -> fmt_ok f.
Proof. intros f [-> | ->]; [apply ok32 | apply ok64]. Qed.
Lemma ft_hwy : forall f, float_type f -> hwy_float f.
Proof. intros f [-> | ->]; unfold hwy_float; auto. Qed.
Lemma ft_M : forall f, float_type f -> 10 <= mbits f <= 52 /\ s0 f <= 1000 - mbits f.
Proof. intros f [-> | ->]; vm_compute; repeat split; discriminate. Qed.
Lemma ft_inf : forall f, float_type f -> 2 ^ (mbits f + 2) * 2 ^ 1074 <= mag_value f (inf_mag f).
Proof. intros f [-> | ->]; vm_compute; discriminate. Qed.

Section Core.
Context (f : fmt) (F : float_type f).
Notation M := (mbits f).
Notation V := (mag_value f).
Let O : fmt_ok f := ft_ok f F.
Definition R (v : Z) : Z := mag_value f (ieee_round f v).
Lemma pow_split : forall a b, 0 <= b -> 0 <= a - b -> 2 ^ a = 2 ^ (a - b) * 2 ^ b.
Proof. intros a b Hb Ha. rewrite <- Z.pow_add_r by lia. f_equal. lia. Qed.
Lemma pow_pos : forall a, 0 <= a -> 0 < 2 ^ a.
Proof. intros. apply Z.pow_pos_nonneg; lia. Qed.
Lemma R_exact : forall j p, 0 <= j < 2 ^ (M + 1) -> s0 f <= p -> j * 2 ^ p <= 2 ^ (M + 2) * 2 ^ 1074 -> R (j * 2 ^ p) = j * 2 ^ p.
Proof.
  intros j p Hj Hp Hb. unfold R. apply round_repr; auto; [lia| |].
  - intros Hj0. assert (Z.log2 j < M + 1); [|lia]. apply Z.log2_lt_pow2; lia.
  - eapply Z.le_trans; [exact Hb | apply ft_inf; auto].
Qed.
Lemma R_le : forall v w, 0 <= v <= w -> R w = w -> R v <= w.
Proof.
  intros v w Hv Hw. rewrite <- Hw. unfold R. apply (nearest_le f v); auto; [apply ieee_round_nearest; auto; lia | apply ieee_round_range; auto; lia |]. fold (R w). lia.
Qed.
Lemma R_ge : forall v w, 0 <= w <= v -> R w = w -> w <= R v.
Proof.
  intros v w Hv Hw. rewrite <- Hw. unfold R. apply (nearest_ge f v); auto; [apply ieee_round_nearest; auto; lia | apply ieee_round_range; auto; lia |]. fold (R w). lia.
Qed.
Lemma R_V : forall x, 0 <= x <= inf_mag f -> R (V x) = V x.
Proof. intros x Hx. unfold R. rewrite ieee_round_exact; auto. Qed.
Lemma R_int : forall n, 0 <= n <= 2 ^ M -> R (n * 2 ^ 1074) = n * 2 ^ 1074.
Proof.
  intros n Hn. destruct (ft_M f F). assert (0 < 2 ^ M) by (apply pow_pos; lia). assert (2 ^ (M + 1) = 2 * 2 ^ M) by (rewrite Z.pow_add_r by lia; lia).
  apply R_exact; [lia | lia |]. apply Z.mul_le_mono_nonneg_r; [apply Z.lt_le_incl, pow_pos; lia|]. eapply Z.le_trans; [apply Hn|]. apply Z.pow_le_mono_r; lia.
Qed.

(** fractions in terms of the unit in the last place u = 2^p: 1/2 = c u, 1 = 2 c u, and 2^(M+1) = 2 c d *)
Lemma scale : forall x, 0 <= x -> 2 ^ 1073 <= V x < 2 ^ M * 2 ^ 1074 -> exists j p c d,
  V x = j * 2 ^ p /\ 0 <= j < 2 ^ (M + 1) /\ s0 f <= p <= 1073 /\ 2 ^ 1073 = c * 2 ^ p /\ 2 ^ (M + 1) = 2 * c * d /\ 1 <= c <= 2 ^ M /\ 1 <= d.
Proof.
  intros x Hx [H1 H2]. destruct (sig_exp_of f x O Hx) as (t & j & _ & Ht & Hj & Hj2 & EV). destruct (ft_M f F) as [HM Hs]. pose proof (proj2 (proj2 O)) as S0.
  assert (PM : 0 < 2 ^ M) by (apply pow_pos; lia). assert (E1 : 2 ^ (M + 1) = 2 * 2 ^ M) by (rewrite Z.pow_add_r by lia; lia).
  set (p := t + s0 f) in *. assert (Hp : p <= 1073).
  { destruct (Z.eq_dec t 0) as [->|Nt]; [unfold p; lia|]. assert (2 ^ p < 2 ^ 1074). { specialize (Hj2 ltac:(lia)). assert (0 < 2 ^ p) by (apply pow_pos; lia). rewrite EV in H2. apply Z.mul_lt_mono_pos_l with (2 ^ M); auto. eapply Z.le_lt_trans; [|exact H2]. apply Z.mul_le_mono_nonneg_r; lia. }
    apply Z.pow_lt_mono_r_iff in H; lia. }
  assert (Hp2 : 1073 - M <= p).
  { assert (2 ^ 1073 < 2 ^ (M + 1 + p)). { rewrite EV in H1. rewrite (Z.pow_add_r 2 (M + 1)) by lia. eapply Z.le_lt_trans; [exact H1|]. apply Z.mul_lt_mono_pos_r; [apply pow_pos; lia | lia]. }
    apply Z.pow_lt_mono_r_iff in H; lia. }
  exists j, p, (2 ^ (1073 - p)), (2 ^ (M - (1073 - p))). split; auto. split; [lia|]. split; [lia|]. split; [apply pow_split; lia|].
  split. { rewrite E1, (pow_split M (1073 - p)) by lia. lia. }
  split; [|assert (0 < 2 ^ (M - (1073 - p))) by (apply pow_pos; lia); lia]. split; [assert (0 < 2 ^ (1073 - p)) by (apply pow_pos; lia); lia|]. apply Z.pow_le_mono_r; lia.
Qed.
Definition nearest_up (a : Z) : Z := (a + 2 ^ 1073) / 2 ^ 1074.
Lemma one_half : 2 ^ 1074 = 2 * 2 ^ 1073. Proof. change 1074 with (1 + 1073). rewrite Z.pow_add_r by lia. reflexivity. Qed.
Lemma nearest_up_bounds : forall a, 0 <= a -> 0 <= nearest_up a /\ nearest_up a * 2 ^ 1074 <= a + 2 ^ 1073 < (nearest_up a + 1) * 2 ^ 1074.
Proof.
  intros a Ha. unfold nearest_up. rewrite one_half. assert (H : 0 < 2 ^ 1073) by (apply pow_pos; lia). generalize dependent (2 ^ 1073). intros h Hh.
  pose proof (Z.div_mod (a + h) (2 * h) ltac:(lia)). pose proof (Z.mod_pos_bound (a + h) (2 * h) ltac:(lia)). split; [apply Z.div_pos; lia|]. lia.
Qed.

Lemma large_case : forall x, 0 <= x -> 2 ^ 1073 <= V x < 2 ^ M * 2 ^ 1074 -> let a := V x in let n := nearest_up a in
  n * 2 ^ 1074 <= R (a + 2 ^ 1073) < (n + 1) * 2 ^ 1074 /\ n <= 2 ^ M /\ 1 <= n /\ R (Z.abs (n * 2 ^ 1074 - a)) = Z.abs (n * 2 ^ 1074 - a).
Proof.
  intros x Hx Hb a n. destruct (nearest_up_bounds a ltac:(unfold a; pose proof (pow_pos 1073); lia)) as (N0 & N1 & N2). fold n in N0, N1, N2. fold a in Hb.
  destruct (scale x Hx Hb) as (j & p & c & d & EV & Hj & Hp & Ec & Ed & Hc & Hd). fold a in EV. destruct (ft_M f F) as [HM Hs].
  assert (PM : 0 < 2 ^ M) by (apply pow_pos; lia). assert (E1 : 2 ^ (M + 1) = 2 * 2 ^ M) by (rewrite Z.pow_add_r by lia; lia). assert (E2 : 2 ^ (M + 2) = 4 * 2 ^ M) by (rewrite Z.pow_add_r by lia; lia).
  pose proof (proj2 (proj2 O)) as S0. assert (Pu : 0 < 2 ^ p) by (apply pow_pos; lia).
  pose proof (fun j' H1 H2 => R_exact j' p H1 (proj1 Hp) H2) as RX. pose proof (fun j' H1 H2 => R_exact j' 1073 H1 ltac:(lia) H2) as RH. pose proof R_int as RI.
  pose proof R_le as RL. pose proof R_ge as RG.
  rewrite one_half in *. rewrite Ec in *. rewrite EV in *. set (u := 2 ^ p) in *. clearbody u. clear EV Ec. set (P := 2 ^ M) in *. rewrite E1, E2 in *.
  assert (Hn1 : 1 <= n). { assert (c <= j) by nia. nia. }
  assert (HnP : n <= P). { assert (j * u < P * (2 * (c * u))) by lia. assert (j < 2 * P * c) by nia. assert (2 * n * c <= j + c) by nia. assert (2 * n * c < (2 * P + 1) * c) by nia. nia. }
  assert (Hlo : n * (2 * (c * u)) <= R (j * u + c * u)) by (apply RG; [split; [nia | lia] | apply RI; lia]).
  split; [split; [exact Hlo|] | split; [exact HnP | split; [exact Hn1|]]].
  - destruct (Z_le_gt_dec (2 * c * n) j) as [B|A].
    + assert (n < d) by nia. assert (j + c < 2 * P) by nia. replace (j * u + c * u) with ((j + c) * u) by ring. rewrite RX; [nia | lia | nia].
    + destruct (Z_lt_le_dec n P) as [L|L].
      * apply Z.le_lt_trans with ((2 * n + 1) * (c * u)); [|nia]. apply RL; [nia|]. apply RH; [lia | nia].
      * assert (n = P) by lia. subst n. assert (c * (2 * P - 1) <= j) by nia. assert (c = 1) by nia. subst c. assert (j = 2 * P - 1) by lia. subst j.
        replace ((2 * P - 1) * u + 1 * u) with (P * (2 * (1 * u))) by ring. rewrite RI; nia.
  - replace (n * (2 * (c * u)) - j * u) with ((2 * c * n - j) * u) by ring. rewrite Z.abs_mul, (Z.abs_eq u) by lia. apply RX.
    + assert (2 * c * n <= j + c) by nia. assert (j < 2 * c * (n + 1) - c) by nia. nia.
    + assert (2 * c * n <= j + c) by nia. assert (j < 2 * c * (n + 1) - c) by nia. assert (Z.abs (2 * c * n - j) <= c) by lia. nia.
Qed.
Lemma small_case : forall x, 0 <= x -> V x < 2 ^ 1073 -> let a := V x in
  nearest_up a = 0 /\ (R (a + 2 ^ 1073) < 2 ^ 1074 \/ (R (a + 2 ^ 1073) = 2 ^ 1074 /\ R (2 ^ 1074 - a) = 2 ^ 1073)).
Proof.
  intros x Hx Hb a. assert (P73 : 0 < 2 ^ 1073) by (apply pow_pos; lia). assert (Ha : 0 <= a) by (apply V_nonneg; auto). split.
  { unfold nearest_up. rewrite one_half. apply Z.div_small. fold a in Hb. lia. }
  destruct (ft_M f F) as [HM Hs]. set (xh := ieee_round f (2 ^ 1073)).
  assert (Hxh : V xh = 2 ^ 1073 /\ V (xh - 2) + 2 ^ 1073 = (2 ^ (M + 1) - 1) * 2 ^ (1073 - M) /\ R (2 ^ 1074 - V (xh - 1)) = 2 ^ 1073 /\ 2 <= xh).
  { unfold xh, R. destruct F as [-> | ->]; vm_compute; repeat split; try discriminate. }
  destruct Hxh as (X1 & X2 & X3 & X4).
  assert (Hl : x <= xh - 1). { destruct (Z_le_gt_dec x (xh - 1)); auto. pose proof (V_mono f O xh x ltac:(lia) ltac:(lia)). lia. }
  assert (Hle : R (a + 2 ^ 1073) <= 2 ^ 1074). { apply R_le; [fold a in Hb; rewrite one_half; lia|]. replace (2 ^ 1074) with (1 * 2 ^ 1074) by lia. apply R_int. assert (0 < 2 ^ M) by (apply pow_pos; lia). lia. }
  destruct (Z.eq_dec x (xh - 1)) as [->|N].
  - destruct (Z.eq_dec (R (a + 2 ^ 1073)) (2 ^ 1074)); [right; split; auto | left; lia].
  - left. assert (V x <= V (xh - 2)) by (apply V_mono; auto; lia). apply Z.le_lt_trans with ((2 ^ (M + 1) - 1) * 2 ^ (1073 - M)).
    + apply R_le; [fold a in H; lia|]. apply R_exact; [| lia |].
      * assert (2 <= 2 ^ (M + 1)) by (change 2 with (2 ^ 1) at 1; apply Z.pow_le_mono_r; lia). lia.
      * apply Z.mul_le_mono_nonneg; [| | apply Z.lt_le_incl, pow_pos; lia | apply Z.pow_le_mono_r; lia].
        { assert (2 <= 2 ^ (M + 1)) by (change 2 with (2 ^ 1) at 1; apply Z.pow_le_mono_r; lia). lia. } { assert (2 ^ (M + 1) <= 2 ^ (M + 2)) by (apply Z.pow_le_mono_r; lia). lia. }
    + rewrite (pow_split 1074 (1073 - M)) by lia. apply Z.mul_lt_mono_pos_r; [apply pow_pos; lia|]. replace (1074 - (1073 - M)) with (M + 1) by lia. lia.
Qed.
End Core.
