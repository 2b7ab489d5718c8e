(** Rounding of num * 2^-k. *)
From Coq Require Import ZArith Bool Lia.
From Verif Require Import Word Word_Proofs Float_Spec Float_Model Float_Proofs Float_Conv Float_F64 Float_More Rounding_Model Pow2_Spec Pow2_Model.
Open Scope Z_scope.
Arguments Z.pow : simpl never.
Arguments Z.mul : simpl never.
Section S.
Context (f : fmt) (OK : fmt_ok f) (k : Z) (Hk : 0 <= k).
Notation m := (mbits f).
Notation V := (mag_value f).
Let W (x : Z) : Z := V x * 2 ^ k.
Local Lemma Pk : 0 < 2 ^ k. Proof. apply pow2_gt0; auto. Qed.
Local Lemma W_mono_lt x y : 0 <= x -> x < y -> W x < W y.
Proof. intros. unfold W. pose proof (V_mono_lt f OK x y H H0). pose proof Pk. nia. Qed.
Local Lemma W_mono x y : 0 <= x -> x <= y -> W x <= W y.
Proof. intros. unfold W. pose proof (V_mono f OK x y H H0). pose proof Pk. nia. Qed.
Local Definition wmid2 x := W x + W (x + 1).
Lemma scaled_iff v r : nearest_even_scaled f v k r <->
  0 <= r <= inf_mag f /\
  (0 < r -> wmid2 (r - 1) < 2 * v \/ (wmid2 (r - 1) = 2 * v /\ Z.even r = true)) /\
  (r < inf_mag f -> 2 * v < wmid2 r \/ (2 * v = wmid2 r /\ Z.even r = true)).
Proof.
  unfold nearest_even_scaled, wmid2. change (mag_value f r * 2 ^ k) with (W r). split.
  - intros (Hr & H). split; [exact Hr|]. split.
    + intros Hp. replace (r - 1 + 1) with r by lia.
      specialize (H (r - 1) ltac:(lia) ltac:(lia)). change (mag_value f (r - 1) * 2 ^ k) with (W (r - 1)) in H.
      pose proof (W_mono_lt (r - 1) r ltac:(lia) ltac:(lia)).
      destruct H as [H|[H He]]; [left; lia|right; split; [lia|exact He]].
    + intros Hp. specialize (H (r + 1) ltac:(lia) ltac:(lia)). change (mag_value f (r + 1) * 2 ^ k) with (W (r + 1)) in H.
      pose proof (W_mono_lt r (r + 1) ltac:(lia) ltac:(lia)).
      destruct H as [H|[H He]]; [left; lia|right; split; [lia|exact He]].
  - intros (Hr & Hlo & Hhi). split; [exact Hr|]. intros y Hy Hne. change (mag_value f y * 2 ^ k) with (W y).
    destruct (Z.lt_ge_cases y r) as [L|L].
    + specialize (Hlo ltac:(lia)). replace (r - 1 + 1) with r in Hlo by lia.
      pose proof (W_mono y (r - 1) ltac:(lia) ltac:(lia)).
      pose proof (W_mono_lt (r - 1) r ltac:(lia) ltac:(lia)).
      destruct Hlo as [Hlo|[Hlo He]]; [left; lia|]. destruct (Z.eq_dec y (r - 1)) as [->|]; [right; split; [lia|exact He]|left].
      pose proof (W_mono_lt y (r - 1) ltac:(lia) ltac:(lia)). lia.
    + assert (r < y) by lia. specialize (Hhi ltac:(lia)).
      pose proof (W_mono (r + 1) y ltac:(lia) ltac:(lia)).
      pose proof (W_mono_lt r (r + 1) ltac:(lia) ltac:(lia)).
      destruct Hhi as [Hhi|[Hhi He]]; [left; lia|]. destruct (Z.eq_dec y (r + 1)) as [->|]; [right; split; [lia|exact He]|left].
      pose proof (W_mono_lt (r + 1) y ltac:(lia) ltac:(lia)). lia.
Qed.
Local Lemma wmid2_mono a b : 0 <= a -> a <= b -> wmid2 a <= wmid2 b.
Proof. intros. unfold wmid2. pose proof (W_mono a b). pose proof (W_mono (a+1) (b+1)). lia. Qed.
Lemma scaled_unique v r r' : nearest_even_scaled f v k r -> nearest_even_scaled f v k r' -> r = r'.
Proof.
  rewrite !scaled_iff. intros (R & L & U) (R' & L' & U').
  destruct (Z.lt_trichotomy r r') as [C|[C|C]]; [|exact C|].
  - specialize (U ltac:(lia)). specialize (L' ltac:(lia)).
    pose proof (wmid2_mono r (r' - 1) ltac:(lia) ltac:(lia)).
    destruct (Z.eq_dec r' (r + 1)) as [->|N].
    + replace (r + 1 - 1) with r in L' by lia. rewrite Z.add_1_r, Z.even_succ, <- Z.negb_even in L'.
      destruct U as [|[? Ue]]; destruct L' as [|[? Le]]; try lia. rewrite Ue in Le; discriminate.
    + assert (wmid2 r < wmid2 (r' - 1)).
      { unfold wmid2. pose proof (W_mono_lt r (r' - 1) ltac:(lia) ltac:(lia)).
        pose proof (W_mono (r + 1) (r' - 1 + 1) ltac:(lia) ltac:(lia)). lia. }
      lia.
  - specialize (U' ltac:(lia)). specialize (L ltac:(lia)).
    pose proof (wmid2_mono r' (r - 1) ltac:(lia) ltac:(lia)).
    destruct (Z.eq_dec r (r' + 1)) as [->|N].
    + replace (r' + 1 - 1) with r' in L by lia. rewrite Z.add_1_r, Z.even_succ, <- Z.negb_even in L.
      destruct U' as [|[? Ue]]; destruct L as [|[? Le]]; try lia. rewrite Ue in Le; discriminate.
    + assert (wmid2 r' < wmid2 (r - 1)).
      { unfold wmid2. pose proof (W_mono_lt r' (r - 1) ltac:(lia) ltac:(lia)).
        pose proof (W_mono (r' + 1) (r - 1 + 1) ltac:(lia) ltac:(lia)). lia. }
      lia.
Qed.
Lemma scaled_exact x : 0 <= x <= inf_mag f -> nearest_even_scaled f (V x * 2 ^ k) k x.
Proof.
  intros Hx. rewrite scaled_iff. unfold wmid2. change (V x * 2 ^ k) with (W x). split; [exact Hx|]. split; intros Hp; left.
  - pose proof (W_mono_lt (x - 1) x ltac:(lia) ltac:(lia)). replace (x - 1 + 1) with x by lia. lia.
  - pose proof (W_mono_lt x (x + 1) ltac:(lia) ltac:(lia)). lia.
Qed.
Lemma scaled_big v : V (inf_mag f) * 2 ^ k <= v -> nearest_even_scaled f v k (inf_mag f).
Proof.
  pose proof (inf_pos f OK). pose proof (pm_pos f OK).
  intros Hv. rewrite scaled_iff. unfold wmid2. change (V (inf_mag f) * 2 ^ k) with (W (inf_mag f)) in Hv. split; [lia|]. split; intros Hp; [left|lia].
  pose proof (W_mono_lt (inf_mag f - 1) (inf_mag f) ltac:(lia) ltac:(lia)). replace (inf_mag f - 1 + 1) with (inf_mag f) by lia. lia.
Qed.
(** values below half the smallest subnormal, which is 2^s0 *)
Lemma scaled_tiny v : 0 <= v -> 2 * v < 2 ^ (s0 f + k) -> nearest_even_scaled f v k 0.
Proof.
  pose proof (inf_pos f OK). pose proof (pm_pos f OK). intros Hv0 Hv. rewrite scaled_iff. unfold wmid2. split; [lia|]. split; [lia|]. intros _. left.
  unfold W. rewrite V_0 by auto. assert (E : V (0 + 1) = 2 ^ s0 f). { replace (0 + 1) with (0 * 2 ^ m + 1) by lia. rewrite V_grid by (auto; lia). rewrite Z.add_0_l. lia. }
  rewrite E. destruct OK as (_ & _ & S0). rewrite Z.pow_add_r in Hv by lia. lia.
Qed.
Lemma round_scaled_nearest v : 0 <= v -> nearest_even_scaled f v k (round_scaled f v k).
Proof.
  intros Hv. pose proof (pm_pos f OK) as P. pose proof (inf_pos f OK) as PI. destruct OK as (O1 & O2 & O3).
  unfold round_scaled. fold (s0 f).
  set (s := Z.max (Z.log2 v - k - m) (s0 f)). set (q := v / 2 ^ (s + k)). set (rem := v mod 2 ^ (s + k)).
  set (up := (2 ^ (s + k) <? 2 * rem) || ((2 * rem =? 2 ^ (s + k)) && Z.odd q)).
  assert (Hs : s0 f <= s) by lia. assert (Hs' : 0 <= s + k) by lia.
  assert (U : 0 < 2 ^ (s + k)) by (apply pow2_gt0; lia).
  pose proof (Z.div_mod v (2 ^ (s + k)) ltac:(lia)) as D. pose proof (Z.mod_pos_bound v (2 ^ (s + k)) ltac:(lia)) as B.
  fold q rem in D, B.
  assert (Q0 : 0 <= q) by (apply Z.div_pos; lia).
  assert (Q : q < 2 * 2 ^ m /\ (0 < s - s0 f -> 2 ^ m <= q)).
  { destruct (Z.eq_dec v 0) as [->|Nv].
    - unfold q. rewrite Z.div_0_l by lia. split; [lia|]. intros. unfold s in *. change (Z.log2 0) with 0 in *. lia.
    - pose proof (Z.log2_spec v ltac:(lia)) as L. pose proof (Z.log2_nonneg v).
      split.
      + unfold q. apply Z.div_lt_upper_bound; [lia|].
        replace (2 ^ (s + k) * (2 * 2 ^ m)) with (2 ^ (s + k + 1 + m)).
        * eapply Z.lt_le_trans; [apply L|]. apply Z.pow_le_mono_r; lia.
        * rewrite !Z.pow_add_r by lia. change (2 ^ 1) with 2. ring.
      + intros C. unfold q. apply Z.div_le_lower_bound; [lia|]. rewrite <- Z.pow_add_r by lia.
        eapply Z.le_trans; [|apply L]. apply Z.pow_le_mono_r; lia. }
  set (q' := if up then q + 1 else q). set (t := s - s0 f).
  assert (Es : forall j, V (t * 2 ^ m + j) * 2 ^ k = W (t * 2 ^ m + j)) by reflexivity.
  assert (G : forall j, 0 <= j <= 2 * 2 ^ m -> (0 < t -> 2 ^ m <= j) -> W (t * 2 ^ m + j) = j * 2 ^ (s + k)).
  { intros j Hj Hj2. unfold W. rewrite V_grid by (repeat split; auto; lia). replace (t + s0 f) with s by (unfold t; lia). rewrite <- Z.mul_assoc, <- Z.pow_add_r by lia. reflexivity. }
  assert (Hg : t * 2 ^ m + q < inf_mag f \/ inf_mag f <= t * 2 ^ m + q) by lia.
  assert (N0 : 0 <= t * 2 ^ m) by (unfold t; nia).
  destruct Hg as [Hg|Hg].
  - rewrite Z.min_l by (unfold q'; destruct up; lia).
    rewrite scaled_iff. unfold wmid2.
    assert (V0 : W (t * 2 ^ m + q) = q * 2 ^ (s + k)) by (apply G; unfold t; lia).
    assert (V1 : W (t * 2 ^ m + q + 1) = (q + 1) * 2 ^ (s + k)) by (rewrite <- Z.add_assoc; apply G; unfold t; lia).
    unfold q'. destruct up eqn:Eu; unfold up in Eu.
    + rewrite even_grid by (repeat split; auto). split; [lia|]. split.
      * intros _. replace (t * 2 ^ m + (q + 1) - 1) with (t * 2 ^ m + q) by lia. rewrite V0, V1. rewrite Z.add_1_r, Z.even_succ.
        apply orb_prop in Eu. destruct Eu as [Eu|Eu]; [left; apply Z.ltb_lt in Eu; lia|]. apply andb_prop in Eu. destruct Eu as [Eu Eo]. apply Z.eqb_eq in Eu. right. split; [lia | exact Eo].
      * intros Hp. left. replace (t * 2 ^ m + (q + 1)) with (t * 2 ^ m + q + 1) by lia. pose proof (W_mono_lt (t * 2 ^ m + q + 1) (t * 2 ^ m + q + 1 + 1) ltac:(lia) ltac:(lia)). lia.
    + rewrite even_grid by (repeat split; auto). split; [lia|]. split.
      * intros Hp. left. replace (t * 2 ^ m + q - 1 + 1) with (t * 2 ^ m + q) by lia. pose proof (W_mono_lt (t * 2 ^ m + q - 1) (t * 2 ^ m + q) ltac:(lia) ltac:(lia)). lia.
      * intros _. rewrite V0, V1. apply orb_false_elim in Eu. destruct Eu as [Eu1 Eu2]. apply Z.ltb_ge in Eu1. destruct (Z.eqb_spec (2 * rem) (2 ^ (s + k))); [|left; lia]. cbn [andb] in Eu2. right. split; [lia|]. rewrite <- Z.negb_odd, Eu2. reflexivity.
  - rewrite Z.min_r by (unfold q'; destruct up; lia).
    apply scaled_big. change (V (inf_mag f) * 2 ^ k) with (W (inf_mag f)).
    eapply Z.le_trans; [apply W_mono; [|exact Hg]; lia|].
    rewrite G by (unfold t; lia). lia.
Qed.
End S.
(** changing the scale *)
Lemma scaled_shift f v k j r : 0 <= k -> 0 <= j -> nearest_even_scaled f (v * 2 ^ j) (k + j) r <-> nearest_even_scaled f v k r.
Proof.
  intros Hk Hj. assert (P : 0 < 2 ^ j) by (apply pow2_gt0; auto). unfold nearest_even_scaled.
  assert (E : forall y, Z.abs (v * 2 ^ j - mag_value f y * 2 ^ (k + j)) = Z.abs (v - mag_value f y * 2 ^ k) * 2 ^ j).
  { intros y. rewrite Z.pow_add_r by lia. replace (v * 2 ^ j - mag_value f y * (2 ^ k * 2 ^ j)) with ((v - mag_value f y * 2 ^ k) * 2 ^ j) by ring. rewrite Z.abs_mul, (Z.abs_eq (2 ^ j)) by lia. reflexivity. }
  split; intros [H1 H2]; (split; [exact H1|]); intros y Hy Hne; specialize (H2 y Hy Hne); rewrite !E in *; (destruct H2 as [H2|[H2 H3]]; [left; nia | right; split; [nia | exact H3]]).
Qed.
Lemma scaled_0 f v r : nearest_even_scaled f v 0 r <-> nearest_even f v r.
Proof. unfold nearest_even_scaled, nearest_even. change (2 ^ 0) with 1. split; intros [H1 H2]; (split; [exact H1|]); intros y Hy Hne; specialize (H2 y Hy Hne); rewrite !Z.mul_1_r in *; exact H2. Qed.
