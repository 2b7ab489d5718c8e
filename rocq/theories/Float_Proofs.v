(** Proofs about the float conversions. *)
From Coq Require Import ZArith Bool List Lia.
From Verif Require Import Word Word_Proofs Float_Spec Float_Model.
Local Open Scope Z_scope.

Definition s0 (f : fmt) : Z := 1074 + 1 - bias f - mbits f.
Definition fmt_ok (f : fmt) : Prop := 2 <= ebits f /\ 1 <= mbits f /\ 0 <= s0 f.

Lemma ok16 : fmt_ok binary16. Proof. repeat split; vm_compute; discriminate. Qed.
Lemma okb16 : fmt_ok bfloat16. Proof. repeat split; vm_compute; discriminate. Qed.
Lemma ok32 : fmt_ok binary32. Proof. repeat split; vm_compute; discriminate. Qed.
Lemma ok64 : fmt_ok binary64. Proof. repeat split; vm_compute; discriminate. Qed.

Section Fmt.
Variable f : fmt.
Hypothesis OK : fmt_ok f.
Notation m := (mbits f).
Notation V := (mag_value f).

Lemma pm_pos : 2 <= 2 ^ m.
Proof. destruct OK as (_ & H & _). change 2 with (2 ^ 1) at 1. apply Z.pow_le_mono_r; lia. Qed.
Lemma pm_even : Z.even (2 ^ m) = true.
Proof. destruct OK as (_ & H & _). rewrite Z.even_pow; [reflexivity|lia]. Qed.
Lemma inf_pos : 2 ^ m < inf_mag f.
Proof.
  pose proof pm_pos. unfold inf_mag. destruct OK as (H1 & _ & _).
  assert (2 ^ 2 <= 2 ^ ebits f) by (apply Z.pow_le_mono_r; lia). change (2 ^ 2) with 4 in *. nia.
Qed.

(** Magnitude number [t * 2^m + k], with the significand [k] in units of
    exponent [t]. *)
Lemma V_grid t k : 0 <= t -> 0 <= k <= 2 * 2 ^ m -> (0 < t -> 2 ^ m <= k) ->
  V (t * 2 ^ m + k) = k * 2 ^ (t + s0 f).
Proof.
  intros Ht Hk Hk2. pose proof pm_pos as P.
  unfold mag_value. fold (s0 f).
  assert (C : k < 2 ^ m \/ 2 ^ m <= k < 2 * 2 ^ m \/ k = 2 * 2 ^ m) by lia.
  destruct C as [C|[C|C]].
  - assert (t = 0) by lia. subst t.
    replace (0 * 2 ^ m + k) with k by lia.
    rewrite Z.div_small, Z.mod_small by lia. cbn [Z.eqb]. f_equal.
  - replace ((t * 2 ^ m + k) / 2 ^ m) with (t + 1)
      by (apply Z.div_unique with (k - 2 ^ m); lia).
    replace ((t * 2 ^ m + k) mod 2 ^ m) with (k - 2 ^ m)
      by (apply Z.mod_unique with (t + 1); lia).
    destruct (t + 1 =? 0) eqn:E; [lia|].
    replace (2 ^ m + (k - 2 ^ m)) with k by lia. f_equal. f_equal. unfold s0. lia.
  - subst k.
    replace ((t * 2 ^ m + 2 * 2 ^ m) / 2 ^ m) with (t + 2)
      by (apply Z.div_unique with 0; lia).
    replace ((t * 2 ^ m + 2 * 2 ^ m) mod 2 ^ m) with 0
      by (apply Z.mod_unique with (t + 2); lia).
    destruct (t + 2 =? 0) eqn:E; [lia|].
    replace (1074 + (t + 2) - bias f - m) with (1 + (t + s0 f)) by (unfold s0; lia).
    destruct OK as (_ & _ & Hs). rewrite (Z.pow_add_r 2 1) by lia. change (2 ^ 1) with 2. ring.
Qed.

Lemma grid_of x : 0 <= x -> exists t k, x = t * 2 ^ m + k /\ 0 <= t /\ 0 <= k < 2 * 2 ^ m /\ (0 < t -> 2 ^ m <= k).
Proof.
  intros Hx. pose proof pm_pos as P.
  pose proof (Z.div_mod x (2 ^ m) ltac:(lia)) as D. pose proof (Z.mod_pos_bound x (2 ^ m) ltac:(lia)) as B.
  assert (Q : 0 <= x / 2 ^ m) by (apply Z.div_pos; lia).
  destruct (Z.eq_dec (x / 2 ^ m) 0) as [E|E].
  - exists 0, x. rewrite E in D. lia.
  - exists (x / 2 ^ m - 1), (x mod 2 ^ m + 2 ^ m). nia.
Qed.

Lemma V_step x : 0 <= x -> V x < V (x + 1).
Proof.
  intros Hx. destruct (grid_of x Hx) as (t & k & -> & Ht & Hk & Hk2).
  rewrite <- Z.add_assoc. rewrite !V_grid by lia.
  assert (0 < 2 ^ (t + s0 f)) by (apply pow2_gt0; destruct OK as (_&_&?); lia). nia.
Qed.

Lemma V_mono_lt x y : 0 <= x -> x < y -> V x < V y.
Proof.
  intros Hx Hy. replace y with (x + 1 + (y - x - 1)) by lia.
  assert (Hd : 0 <= y - x - 1) by lia. revert Hd. generalize (y - x - 1). apply natlike_ind.
  - rewrite Z.add_0_r. apply V_step; lia.
  - intros d Hd IH. eapply Z.lt_trans; [exact IH|]. replace (x + 1 + Z.succ d) with (x + 1 + d + 1) by lia.
    apply V_step; lia.
Qed.
Lemma V_mono x y : 0 <= x -> x <= y -> V x <= V y.
Proof. intros. destruct (Z.eq_dec x y); [subst; lia|]. pose proof (V_mono_lt x y); lia. Qed.
Lemma V_inj x y : 0 <= x -> 0 <= y -> V x = V y -> x = y.
Proof.
  intros Hx Hy H. destruct (Z.lt_trichotomy x y) as [L|[L|L]]; [|exact L|].
  - pose proof (V_mono_lt x y); lia.
  - pose proof (V_mono_lt y x); lia.
Qed.
Lemma V_0 : V 0 = 0.
Proof. pose proof pm_pos. pose proof (V_grid 0 0 ltac:(lia) ltac:(lia) ltac:(lia)) as H0. rewrite !Z.mul_0_l in H0. exact H0. Qed.
Lemma V_nonneg x : 0 <= x -> 0 <= V x.
Proof. intros. rewrite <- V_0. apply V_mono; lia. Qed.

(** Nearest-even, in terms of the midpoints of neighbouring magnitudes only. *)
Definition mid2 k := V k + V (k + 1).
Lemma nearest_iff v r : nearest_even f v r <->
  0 <= r <= inf_mag f /\
  (0 < r -> mid2 (r - 1) < 2 * v \/ (mid2 (r - 1) = 2 * v /\ Z.even r = true)) /\
  (r < inf_mag f -> 2 * v < mid2 r \/ (2 * v = mid2 r /\ Z.even r = true)).
Proof.
  unfold nearest_even, mid2. split.
  - intros (Hr & H). split; [exact Hr|]. split.
    + intros Hp. replace (r - 1 + 1) with r by lia.
      specialize (H (r - 1) ltac:(lia) ltac:(lia)).
      pose proof (V_mono_lt (r - 1) r ltac:(lia) ltac:(lia)).
      destruct H as [H|[H He]]; [left; lia|right; split; [lia|exact He]].
    + intros Hp. specialize (H (r + 1) ltac:(lia) ltac:(lia)).
      pose proof (V_mono_lt r (r + 1) ltac:(lia) ltac:(lia)).
      destruct H as [H|[H He]]; [left; lia|right; split; [lia|exact He]].
  - intros (Hr & Hlo & Hhi). split; [exact Hr|]. intros y Hy Hne.
    destruct (Z.lt_ge_cases y r) as [L|L].
    + specialize (Hlo ltac:(lia)). replace (r - 1 + 1) with r in Hlo by lia.
      pose proof (V_mono y (r - 1) ltac:(lia) ltac:(lia)).
      pose proof (V_mono_lt (r - 1) r ltac:(lia) ltac:(lia)).
      destruct Hlo as [Hlo|[Hlo He]]; [left; lia|]. destruct (Z.eq_dec y (r - 1)) as [->|]; [right; split; [lia|exact He]|left].
      pose proof (V_mono_lt y (r - 1) ltac:(lia) ltac:(lia)). lia.
    + assert (r < y) by lia. specialize (Hhi ltac:(lia)).
      pose proof (V_mono (r + 1) y ltac:(lia) ltac:(lia)).
      pose proof (V_mono_lt r (r + 1) ltac:(lia) ltac:(lia)).
      destruct Hhi as [Hhi|[Hhi He]]; [left; lia|]. destruct (Z.eq_dec y (r + 1)) as [->|]; [right; split; [lia|exact He]|left].
      pose proof (V_mono_lt (r + 1) y ltac:(lia) ltac:(lia)). lia.
Qed.

Lemma mid2_mono a b : 0 <= a -> a <= b -> mid2 a <= mid2 b.
Proof. intros. unfold mid2. pose proof (V_mono a b). pose proof (V_mono (a+1) (b+1)). lia. Qed.

Lemma nearest_unique v r r' : nearest_even f v r -> nearest_even f v r' -> r = r'.
Proof.
  rewrite !nearest_iff. intros (R & L & U) (R' & L' & U').
  destruct (Z.lt_trichotomy r r') as [C|[C|C]]; [|exact C|].
  - specialize (U ltac:(lia)). specialize (L' ltac:(lia)).
    pose proof (mid2_mono r (r' - 1) ltac:(lia) ltac:(lia)).
    destruct (Z.eq_dec r' (r + 1)) as [->|N].
    + replace (r + 1 - 1) with r in L' by lia. rewrite Z.add_1_r, Z.even_succ, <- Z.negb_even in L'.
      destruct U as [|[? Ue]]; destruct L' as [|[? Le]]; try lia. rewrite Ue in Le; discriminate.
    + assert (mid2 r < mid2 (r' - 1)).
      { unfold mid2. pose proof (V_mono_lt r (r' - 1) ltac:(lia) ltac:(lia)).
        pose proof (V_mono (r + 1) (r' - 1 + 1) ltac:(lia) ltac:(lia)). lia. }
      lia.
  - specialize (U' ltac:(lia)). specialize (L ltac:(lia)).
    pose proof (mid2_mono r' (r - 1) ltac:(lia) ltac:(lia)).
    destruct (Z.eq_dec r (r' + 1)) as [->|N].
    + replace (r' + 1 - 1) with r' in L by lia. rewrite Z.add_1_r, Z.even_succ, <- Z.negb_even in L.
      destruct U' as [|[? Ue]]; destruct L as [|[? Le]]; try lia. rewrite Ue in Le; discriminate.
    + assert (mid2 r' < mid2 (r - 1)).
      { unfold mid2. pose proof (V_mono_lt r' (r - 1) ltac:(lia) ltac:(lia)).
        pose proof (V_mono (r' + 1) (r - 1 + 1) ltac:(lia) ltac:(lia)). lia. }
      lia.
Qed.

(** The nearest magnitude only depends on how [v] compares to the midpoints. *)
Lemma nearest_same_side v v' r :
  (forall k, 0 <= k < inf_mag f -> (2 * v ?= mid2 k) = (2 * v' ?= mid2 k)) ->
  nearest_even f v r -> nearest_even f v' r.
Proof.
  intros H. rewrite !nearest_iff. intros (R & L & U). split; [exact R|]. split.
  - intros Hp. specialize (L Hp). specialize (H (r - 1) ltac:(lia)).
    destruct (Z.compare_spec (2 * v) (mid2 (r - 1))); destruct (Z.compare_spec (2 * v') (mid2 (r - 1)));
      try discriminate; try (left; lia); destruct L as [L|[L E]]; try lia. right. split; [lia|exact E].
  - intros Hp. specialize (U Hp). specialize (H r ltac:(lia)).
    destruct (Z.compare_spec (2 * v) (mid2 r)); destruct (Z.compare_spec (2 * v') (mid2 r));
      try discriminate; try (left; lia); destruct U as [U|[U E]]; try lia. right. split; [lia|exact E].
Qed.

Lemma even_grid t k : Z.even (t * 2 ^ m + k) = Z.even k.
Proof. rewrite Z.even_add, Z.even_mul, pm_even, orb_true_r. destruct (Z.even k); reflexivity. Qed.

(** Rounding on the grid of one binade. *)
Lemma nearest_grid v t k k' :
  0 <= t -> 0 <= k < 2 * 2 ^ m -> (0 < t -> 2 ^ m <= k) -> t * 2 ^ m + k < inf_mag f ->
  let u := 2 ^ (t + s0 f) in
  k * u <= v < (k + 1) * u ->
  (k' = k /\ (2 * (v - k * u) < u \/ (2 * (v - k * u) = u /\ Z.even k = true)) \/
   k' = k + 1 /\ (u < 2 * (v - k * u) \/ (2 * (v - k * u) = u /\ Z.even k = false))) ->
  nearest_even f v (t * 2 ^ m + k').
Proof.
  intros Ht Hk Hk2 Hi u Hv Hr. rewrite nearest_iff. unfold mid2.
  pose proof pm_pos as P.
  assert (V0 : V (t * 2 ^ m + k) = k * u) by (apply V_grid; lia).
  assert (V1 : V (t * 2 ^ m + k + 1) = (k + 1) * u) by (rewrite <- Z.add_assoc; apply V_grid; lia).
  assert (N : 0 <= t * 2 ^ m) by nia.
  destruct Hr as [[-> Hr]|[-> Hr]].
  - rewrite even_grid. split; [lia|]. split.
    + intros Hp. left. replace (t * 2 ^ m + k - 1 + 1) with (t * 2 ^ m + k) by lia.
      pose proof (V_mono_lt (t * 2 ^ m + k - 1) (t * 2 ^ m + k) ltac:(lia) ltac:(lia)). lia.
    + intros _. rewrite V0, V1. destruct Hr as [Hr|[Hr He]]; [left; lia|right; split; [lia|exact He]].
  - rewrite Z.add_assoc. rewrite <- Z.add_assoc, even_grid, Z.add_assoc. split; [lia|]. split.
    + intros _. replace (t * 2 ^ m + k + 1 - 1) with (t * 2 ^ m + k) by lia. rewrite V0, V1.
      rewrite Z.add_1_r, Z.even_succ, <- Z.negb_even.
      destruct Hr as [Hr|[Hr He]]; [left; lia|right; split; [lia|rewrite He; reflexivity]].
    + intros Hp. left. pose proof (V_mono_lt (t * 2 ^ m + k + 1) (t * 2 ^ m + k + 1 + 1) ltac:(lia) ltac:(lia)).
      lia.
Qed.

Lemma nearest_exact x : 0 <= x <= inf_mag f -> nearest_even f (V x) x.
Proof.
  intros Hx. rewrite nearest_iff. unfold mid2. split; [exact Hx|]. split; intros Hp; left.
  - pose proof (V_mono_lt (x - 1) x ltac:(lia) ltac:(lia)). replace (x - 1 + 1) with x by lia. lia.
  - pose proof (V_mono_lt x (x + 1) ltac:(lia) ltac:(lia)). lia.
Qed.

Lemma nearest_big v : V (inf_mag f) <= v -> nearest_even f v (inf_mag f).
Proof.
  pose proof inf_pos. pose proof pm_pos.
  intros Hv. rewrite nearest_iff. unfold mid2. split; [lia|]. split; intros Hp; [left|lia].
  pose proof (V_mono_lt (inf_mag f - 1) (inf_mag f) ltac:(lia) ltac:(lia)). replace (inf_mag f - 1 + 1) with (inf_mag f) by lia. lia.
Qed.

(** The executable rounding function is correct. *)
Lemma ieee_round_nearest v : 0 <= v -> nearest_even f v (ieee_round f v).
Proof.
  intros Hv. pose proof pm_pos as P. pose proof inf_pos as PI. destruct OK as (O1 & O2 & O3).
  unfold ieee_round. fold (s0 f).
  set (s := Z.max (Z.log2 v - m) (s0 f)). set (q := v / 2 ^ s). set (rem := v mod 2 ^ s).
  set (up := (2 ^ s <? 2 * rem) || ((2 * rem =? 2 ^ s) && Z.odd q)).
  assert (Hs : s0 f <= s) by lia. assert (Hs' : 0 <= s) by lia.
  assert (U : 0 < 2 ^ s) by (apply pow2_gt0; lia).
  pose proof (Z.div_mod v (2 ^ s) ltac:(lia)) as D. pose proof (Z.mod_pos_bound v (2 ^ s) ltac:(lia)) as B.
  fold q rem in D, B.
  assert (Q0 : 0 <= q) by (apply Z.div_pos; lia).
  assert (Q : q < 2 * 2 ^ m /\ (0 < s - s0 f -> 2 ^ m <= q)).
  { destruct (Z.eq_dec v 0) as [->|Nv].
    - unfold q. rewrite Z.div_0_l by lia. split; [lia|]. intros. unfold s in *. change (Z.log2 0) with 0 in *. lia.
    - pose proof (Z.log2_spec v ltac:(lia)) as L. pose proof (Z.log2_nonneg v).
      split.
      + unfold q. apply Z.div_lt_upper_bound; [lia|].
        replace (2 ^ s * (2 * 2 ^ m)) with (2 ^ (s + 1 + m)).
        * eapply Z.lt_le_trans; [apply L|]. apply Z.pow_le_mono_r; lia.
        * rewrite !Z.pow_add_r by lia. change (2 ^ 1) with 2. ring.
      + intros C. unfold q. apply Z.div_le_lower_bound; [lia|]. rewrite <- Z.pow_add_r by lia.
        eapply Z.le_trans; [|apply L]. apply Z.pow_le_mono_r; lia. }
  set (q' := if up then q + 1 else q).
  assert (Hg : (s - s0 f) * 2 ^ m + q < inf_mag f \/ inf_mag f <= (s - s0 f) * 2 ^ m + q) by lia.
  destruct Hg as [Hg|Hg].
  - rewrite Z.min_l by (unfold q'; destruct up; lia).
    apply nearest_grid with (k := q); try lia.
    + replace (s - s0 f + s0 f) with s by lia. lia.
    + replace (s - s0 f + s0 f) with s by lia. unfold q', up.
      replace (v - q * 2 ^ s) with rem by lia. rewrite <- Z.negb_even.
      destruct (Z.ltb_spec (2 ^ s) (2 * rem)); cbn [orb].
      * right. split; [reflexivity|]. left. lia.
      * destruct (Z.eqb_spec (2 * rem) (2 ^ s)); cbn [andb].
        -- destruct (Z.even q) eqn:E; cbn [negb]; [left|right]; (split; [reflexivity|]; right; split; [lia|reflexivity]).
        -- left. split; [reflexivity|]. left. lia.
  - rewrite Z.min_r by (unfold q'; destruct up; lia).
    apply nearest_big.
    eapply Z.le_trans; [apply V_mono; [|exact Hg]; lia|].
    rewrite V_grid by lia. replace (s - s0 f + s0 f) with s by lia. lia.
Qed.

Lemma ieee_round_exact x : 0 <= x <= inf_mag f -> ieee_round f (V x) = x.
Proof.
  intros Hx. apply nearest_unique with (V x).
  - apply ieee_round_nearest. apply V_nonneg; lia.
  - apply nearest_exact; exact Hx.
Qed.

Lemma ieee_round_range v : 0 <= v -> 0 <= ieee_round f v <= inf_mag f.
Proof. intros. apply (ieee_round_nearest v); assumption. Qed.

End Fmt.
