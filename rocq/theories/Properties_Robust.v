(** Property theorems C64-C66: robust statistics (hwy/robust_statistics.h). *)
From Coq Require Import ZArith List Lia Bool Sorting.Permutation Sorting.Sorted Arith.
From Verif Require Import Word Word_Proofs Robust_Model Robust_Spec Robust_Proofs.
Import ListNotations.
Local Open Scope Z_scope.

(** C64.  CountingSort sorts every array in place: a rearrangement in ascending
    order, and its final assertion never fires (below 2^31 values). *)
Theorem C64_counting_sort : forall l, Z.of_nat (length l) < 2 ^ 31 -> exists s, counting_sort l = Some s /\ sorted_of l s.
Proof. intros l _. apply counting_sort_ok. Qed.
Print Assumptions C64_counting_sort.
Example C64_ex : counting_sort [5; 3; 5; 1; 3; 5] = Some [1; 3; 3; 5; 5; 5].
Proof. reflexivity. Qed.

(** counting in an ascending list *)
Lemma count_perm p l s : Permutation l s -> count p l = count p s.
Proof.
  intros H. unfold count. f_equal. induction H as [|x l s H IH|x y l|l s t H1 IH1 H2 IH2]; cbn [filter].
  - reflexivity.
  - destruct (p x); cbn [length]; lia.
  - destruct (p x), (p y); reflexivity.
  - lia.
Qed.
Lemma count_prefix p s k : (k <= length s)%nat -> (forall i a, (i < k)%nat -> nth_error s i = Some a -> p a = true) -> Z.of_nat k <= count p s.
Proof.
  revert k. induction s as [|x s IH]; intros k Hk H; [cbn in *; lia|]. destruct k as [|k]; [unfold count; lia|].
  unfold count. cbn [filter]. rewrite (H 0%nat x ltac:(lia) eq_refl). cbn [length] in *.
  specialize (IH k ltac:(lia) (fun i a Hi E => H (S i) a ltac:(lia) E)). unfold count in IH. lia.
Qed.
Lemma count_suffix p s k : (forall i a, (k <= i)%nat -> nth_error s i = Some a -> p a = true) -> Z.of_nat (length s) - Z.of_nat k <= count p s.
Proof.
  revert k. induction s as [|x s IH]; intros k H; [unfold count; cbn; lia|]. destruct k as [|k].
  - unfold count. cbn [filter]. rewrite (H 0%nat x ltac:(lia) eq_refl). cbn [length]. specialize (IH 0%nat (fun i a Hi E => H (S i) a ltac:(lia) E)). unfold count in IH. lia.
  - specialize (IH k (fun i a Hi E => H (S i) a ltac:(lia) E)). unfold count in *. cbn [filter length]. destruct (p x); cbn [length]; lia.
Qed.

(** C65.  Median: at least half the values are not above and at least half not
    below the result, which lies between two of the values. Missing: types of 32
    or 64 bits with values in the upper half of the type. *)
Theorem C65_median_partial : forall w l, 0 < w -> l <> [] -> values w l -> (w < 32 \/ values (w - 1) l) ->
  exists m, median w l = Some m /\ is_median m l /\ in_hull m l.
Proof.
  intros w l W NE HV HW. unfold median. destruct (Nat.eqb_spec (length l) 0) as [E0|E0]; [destruct l; [congruence|discriminate]|].
  destruct (zsort_ok l) as (P & S). pose proof (Permutation_length P) as PL.
  set (s := zsort l) in *. set (half := Nat.div2 (length l)).
  assert (HI : forall x, In x s -> In x l) by (intros x; apply Permutation_in; now symmetry).
  pose proof (Nat.div2_odd (length l)) as OD. fold half in OD.
  destruct (Nat.odd (length l)) eqn:EO; cbn [Nat.b2n] in OD.
  - destruct (nth_ok s half ltac:(lia)) as (m & Em). exists m. split; [exact Em|]. split.
    + split.
      * rewrite (count_perm _ l s P). pose proof (count_prefix (fun x => x <=? m) s (Datatypes.S half) ltac:(lia)) as C.
        rewrite PL. specialize (C (fun i a Hi Ea => proj2 (Z.leb_le a m) (asc_nth s S i half a m ltac:(lia) Ea Em))). lia.
      * rewrite (count_perm _ l s P). pose proof (count_suffix (fun x => m <=? x) s half) as C.
        specialize (C (fun i a Hi Ea => proj2 (Z.leb_le m a) (asc_nth s S half i m a ltac:(lia) Em Ea))). lia.
    + exists m, m. apply nth_error_In in Em. split; [auto|]. split; [auto|]. lia.
  - destruct (nth_ok s half ltac:(lia)) as (b & Eb). destruct (nth_ok s (half - 1) ltac:(lia)) as (a & Ea). rewrite Eb, Ea.
    assert (AB : a <= b) by (apply (asc_nth s S (half - 1) half); auto; lia).
    assert (Ia : In a l) by (apply HI; now apply nth_error_In in Ea). assert (Ib : In b l) by (apply HI; now apply nth_error_In in Eb).
    pose proof HV as HV'. unfold values in HV'. rewrite Forall_forall in HV'. pose proof (HV' a Ia). pose proof (HV' b Ib).
    assert (EV : avg w b a = (b + a + 1) / 2).
    { apply avg_small; auto. destruct HW as [HW|HW]; [now left|right]. unfold values in HW. rewrite Forall_forall in HW. pose proof (HW a Ia). pose proof (HW b Ib).
      assert (2 ^ w = 2 * 2 ^ (w - 1)) by (rewrite <- Z.pow_succ_r by lia; f_equal; lia). lia. }
    rewrite EV. set (m := (b + a + 1) / 2). exists m. split; [reflexivity|].
    assert (M : a <= m <= b \/ (a = b /\ m = a)).
    { unfold m. destruct (Z.eq_dec a b) as [->|]; [right; split; [reflexivity|]|left].
      - replace (b + b + 1) with (1 + b * 2) by lia. rewrite Z.div_add by lia. reflexivity.
      - split; [apply Z.div_le_lower_bound; lia|]. apply Z.lt_succ_r, Z.div_lt_upper_bound; lia. }
    split.
    + split.
      * rewrite (count_perm _ l s P). pose proof (count_prefix (fun x => x <=? m) s half ltac:(lia)) as C.
        assert (C' : Z.of_nat half <= count (fun x => x <=? m) s); [|lia]. apply C. intros i x Hi Ex. apply Z.leb_le.
        pose proof (asc_nth s S i (half - 1) x a ltac:(lia) Ex Ea). lia.
      * rewrite (count_perm _ l s P). pose proof (count_suffix (fun x => m <=? x) s half) as C.
        assert (C' : Z.of_nat (length s) - Z.of_nat half <= count (fun x => m <=? x) s); [|lia]. apply C. intros i x Hi Ex. apply Z.leb_le.
        pose proof (asc_nth s S half i b x ltac:(lia) Eb Ex). lia.
    + exists a, b. split; [auto|]. split; [auto|]. lia.
Qed.
Print Assumptions C65_median_partial.
Example C65_ex : values 64 [7; 1; 9; 4] /\ values 63 [7; 1; 9; 4] /\ median 64 [7; 1; 9; 4] = Some 6.
Proof. split; [repeat constructor; lia|]. split; [repeat constructor; lia|reflexivity]. Qed.

(** C65 is false for the upper half of 32/64-bit types: the sum wraps, the
    "median" of two equal values is below both. *)
Theorem C65_median_refuted : forall w v, 32 <= w -> 2 ^ (w - 1) <= v < 2 ^ w ->
  exists m, median w [v; v] = Some m /\ m < v /\ ~ is_median m [v; v].
Proof.
  intros w v Hw Hv. assert (E2 : 2 ^ w = 2 * 2 ^ (w - 1)) by (rewrite <- Z.pow_succ_r by lia; f_equal; lia).
  exists (avg w v v). assert (Z0 : zsort [v; v] = [v; v]) by (cbn; destruct (v <=? v); reflexivity).
  split; [unfold median; cbn [length Nat.eqb Nat.div2 Nat.odd Nat.even negb]; rewrite Z0; reflexivity|].
  assert (LT : avg w v v < v).
  { unfold avg. destruct (Z.ltb_spec w 32); [lia|]. unfold wrap. rewrite <- (Z.mod_unique (v + v + 1) (2 ^ w) 1 (v + v + 1 - 2 ^ w)); [|left; lia|lia].
    apply Z.div_lt_upper_bound; lia. }
  split; [exact LT|]. intros (H & _). unfold count in H. cbn [filter length] in H. destruct (Z.leb_spec v (avg w v v)); [lia|]. cbn in H. lia.
Qed.
Print Assumptions C65_median_refuted.

(** MedianAbsoluteDeviation is the median of the absolute deviations, without
    overflow, below half the range of the type (63 bits for 64-bit types). *)
Theorem C65_mad : forall w l med, 0 < w <= 64 -> l <> [] -> values (w - 1) l -> 0 <= med < 2 ^ (w - 1) ->
  exists m, mad w l med = Some m /\ is_median m (map (fun x => Z.abs (x - med)) l).
Proof.
  intros w l med W NE HV HM. unfold mad. destruct (Nat.eqb_spec (length l) 0) as [E0|E0]; [destruct l; [congruence|discriminate]|].
  assert (P63 : 2 ^ (w - 1) <= 2 ^ 63) by (apply Z.pow_le_mono_r; lia).
  assert (E2 : 2 ^ w = 2 * 2 ^ (w - 1)) by (rewrite <- Z.pow_succ_r by lia; f_equal; lia).
  assert (EA : map (fun x => abs_dev w x med) l = map (fun x => Z.abs (x - med)) l).
  { apply map_ext_in. intros x Hx. unfold values in HV. rewrite Forall_forall in HV. specialize (HV x Hx). unfold abs_dev.
    rewrite (swrap_small 64 x), (swrap_small 64 med) by (unfold in_s; lia). rewrite swrap_small by (unfold in_s; lia). apply wrap_small. unfold in_u. lia. }
  rewrite EA.
  assert (V1 : values (w - 1) (map (fun x => Z.abs (x - med)) l)).
  { unfold values in *. rewrite Forall_forall in *. intros y Hy. apply in_map_iff in Hy as (x & <- & Hx). specialize (HV x Hx). lia. }
  destruct (C65_median_partial w (map (fun x => Z.abs (x - med)) l)) as (m & E & M & _).
  - lia.
  - destruct l; [congruence|discriminate].
  - unfold values in *. rewrite Forall_forall in *. intros y Hy. specialize (V1 y Hy). lia.
  - now right.
  - exists m. auto.
Qed.
Print Assumptions C65_mad.
Example C65_mad_ex : mad 64 [1; 5; 9; 100] 7 = Some 4. Proof. reflexivity. Qed.

(** C66.  Mode of a non-empty array: no access outside it, no assertion, and the
    result lies between two of the values. *)
Theorem C66_mode_in_range : forall w l, 0 < w -> l <> [] -> values w l -> (w < 32 \/ values (w - 1) l) ->
  exists m, mode w l = Some m /\ in_hull m l.
Proof.
  intros w l W NE HV HW. unfold mode. destruct (counting_sort_ok l) as (s & -> & P & S). pose proof (Permutation_length P) as PL.
  assert (HI : forall x, In x s -> In x l) by (intros x; apply Permutation_in; now symmetry).
  assert (HVs : values w s) by (unfold values in *; rewrite Forall_forall in *; auto).
  assert (L0 : (0 < length s)%nat) by (destruct l; [congruence|cbn in PL; lia]).
  unfold mode_of_sorted. pose proof (Nat.div2_odd (length s)) as OD.
  assert (HB : (2 * Nat.div2 (length s) <= length s)%nat) by lia.
  destruct (mode_loop_ok w W s S HVs (Datatypes.S (length s)) 0 (Nat.div2 (length s)) ltac:(lia) ltac:(split; [lia|now left])) as (i & h & -> & H1 & H2 & H3 & _ & H5).
  assert (HL : (i + h < length s)%nat) by (destruct h as [|[|]]; lia).
  destruct (nth_ok s i ltac:(lia)) as (x & Ex). rewrite Ex. pose proof (HI x (nth_error_In _ _ Ex)) as Ix.
  destruct h as [|[|]]; [| |lia].
  - exists x. split; [reflexivity|]. exists x, x. repeat split; auto; lia.
  - cbn [Nat.eqb]. destruct (nth_ok s (i + 1) ltac:(lia)) as (y & Ey). rewrite Ey. pose proof (HI y (nth_error_In _ _ Ey)) as Iy.
    eexists. split; [reflexivity|]. exists x, y. split; [exact Ix|]. split; [exact Iy|].
    assert (XY : x <= y) by (apply (asc_nth s S i (i + 1)); auto; lia).
    unfold values in HV. rewrite Forall_forall in HV. pose proof (HV x Ix). pose proof (HV y Iy).
    rewrite avg_small; auto.
    + split; [apply Z.div_le_lower_bound; lia|]. destruct (Z.eq_dec x y) as [->|].
      * replace (y + y + 1) with (1 + y * 2) by lia. rewrite Z.div_add by lia. cbn. lia.
      * apply Z.lt_succ_r, Z.div_lt_upper_bound; lia.
    + destruct HW as [HW|HW]; [now left|right]. unfold values in HW. rewrite Forall_forall in HW. pose proof (HW x Ix). pose proof (HW y Iy).
      assert (2 ^ w = 2 * 2 ^ (w - 1)) by (rewrite <- Z.pow_succ_r by lia; f_equal; lia). lia.
Qed.
Print Assumptions C66_mode_in_range.

Lemma run_of v s : ascending s -> exists p, (forall i a, (i < p)%nat -> nth_error s i = Some a -> a < v) /\
  allv s v p (Z.to_nat (count (Z.eqb v) s)) /\ (p + Z.to_nat (count (Z.eqb v) s) <= length s)%nat.
Proof.
  induction 1 as [|x s H IH F]; [exists 0%nat; split; [intros; lia|]; split; [intros i Hi; cbn in Hi; lia|cbn; lia]|].
  destruct IH as (p & P1 & P2 & P3). destruct (Z.lt_trichotomy x v) as [C|[->|C]].
  - exists (S p). assert (E : count (Z.eqb v) (x :: s) = count (Z.eqb v) s) by (unfold count; cbn [filter]; destruct (Z.eqb_spec v x); [lia|reflexivity]). rewrite E.
    split; [|split].
    + intros [|i] a Hi Ea; [cbn in Ea; injection Ea as <-; exact C|]. apply (P1 i); [lia|exact Ea].
    + intros [|i] Hi; [lia|]. cbn [nth_error]. apply P2. lia.
    + cbn [length]. lia.
  - exists 0%nat. assert (E : Z.to_nat (count (Z.eqb v) (v :: s)) = S (Z.to_nat (count (Z.eqb v) s))) by (unfold count; cbn [filter]; rewrite Z.eqb_refl; cbn [length]; lia). rewrite E.
    assert (p0 : (p = 0 \/ Z.to_nat (count (Z.eqb v) s) = 0)%nat).
    { destruct p as [|p]; [now left|right]. destruct (Nat.eq_dec (Z.to_nat (count (Z.eqb v) s)) 0) as [|NZ]; [assumption|exfalso].
      destruct (nth_ok s 0 ltac:(lia)) as (a & Ea). pose proof (P1 0%nat a ltac:(lia) Ea). rewrite Forall_forall in F. pose proof (F a (nth_error_In _ _ Ea)). lia. }
    split; [intros; lia|]. split; [|cbn [length]; lia].
    intros [|i] Hi; [reflexivity|]. cbn [nth_error]. apply P2. lia.
  - exists 0%nat. assert (E : count (Z.eqb v) (x :: s) = 0).
    { unfold count. replace (filter (Z.eqb v) (x :: s)) with (@nil Z); [reflexivity|]. symmetry. cbn [filter]. destruct (Z.eqb_spec v x); [lia|].
      clear -F C. induction s as [|y s IHs]; [reflexivity|]. inversion F; subst. cbn [filter]. destruct (Z.eqb_spec v y); [lia|auto]. }
    rewrite E. split; [intros; lia|]. split; [intros i Hi; cbn in Hi; lia|cbn; lia].
Qed.

(** C66 (majority): a value held by more than half of an even number of samples
    is their mode; of an odd number, one more occurrence is needed. *)
Theorem C66_mode_majority_partial : forall w l v, 0 < w -> values w l -> (w < 32 \/ values (w - 1) l) ->
  Z.of_nat (length l) < 2 * count (Z.eqb v) l -> (Nat.odd (length l) = true -> Z.of_nat (length l) + 1 < 2 * count (Z.eqb v) l) ->
  mode w l = Some v.
Proof.
  intros w l v W HV HW HC HO. unfold mode. destruct (counting_sort_ok l) as (s & -> & P & S). pose proof (Permutation_length P) as PL.
  rewrite (count_perm _ l s P) in HC, HO. rewrite PL in HC, HO.
  assert (HI : forall x, In x s -> In x l) by (intros x; apply Permutation_in; now symmetry).
  assert (HVs : values w s) by (unfold values in *; rewrite Forall_forall in *; auto).
  destruct (run_of v s S) as (p & _ & P2 & P3). set (c := Z.to_nat (count (Z.eqb v) s)) in *.
  assert (Ec : Z.of_nat c = count (Z.eqb v) s) by (unfold c, count; lia).
  pose proof (Nat.div2_odd (length s)) as OD. set (half := Nat.div2 (length s)) in *.
  assert (AVG : In v l -> avg w v v = v).
  { intros Iv. unfold values in HV. rewrite Forall_forall in HV. pose proof (HV v Iv). rewrite avg_small; auto.
    - replace (v + v + 1) with (1 + v * 2) by lia. rewrite Z.div_add by lia. reflexivity.
    - destruct HW as [HW|HW]; [now left|right]. unfold values in HW. rewrite Forall_forall in HW. pose proof (HW v Iv).
      assert (2 ^ w = 2 * 2 ^ (w - 1)) by (rewrite <- Z.pow_succ_r by lia; f_equal; lia). lia. }
  assert (Iv : In v l). { apply HI. apply (nth_error_In s p). apply P2. lia. }
  assert (CC : (half + 1 <= c)%nat /\ (p + half < 2 * half)%nat \/ (half = 0 /\ length s = 1)%nat).
  { destruct (Nat.odd (length s)) eqn:EO; cbn [Nat.b2n] in OD; [specialize (HO eq_refl)|]; lia. }
  unfold mode_of_sorted. fold half.
  assert (WIN : win w s 0 half) by (split; [lia|now left]).
  destruct CC as [(C1 & C2)|(C1 & C2)].
  2:{ rewrite C1. cbn [mode_loop Nat.ltb Nat.leb]. assert (p = 0)%nat by lia. subst p. rewrite (P2 0%nat ltac:(lia)). reflexivity. }
  assert (R : exists i, mode_loop w (Datatypes.S (length s)) s 0 half = Some (i, 1%nat) /\ allv s v i 2).
  { cbn [mode_loop]. destruct (Nat.ltb_spec 1 half) as [C|C].
    - destruct (min_range_win w W s 0 half S HVs WIN C) as (i & -> & Hi & HW' & K).
      destruct (nth_ok s i ltac:(lia)) as (a & Ea). destruct (nth_ok s (i + half) ltac:(lia)) as (b & Eb).
      pose proof (K p v v a b ltac:(lia) (P2 p ltac:(lia)) (P2 (p + half)%nat ltac:(lia)) Ea Eb) as AB.
      assert (a <= b) by (apply (asc_nth s S i (i + half)); auto; lia).
      assert (EW : allv s a i (Datatypes.S half)) by (apply eq_window; auto; replace a with b by lia; exact Eb).
      (* two windows of half + 1 elements in at most 2 half + 1 positions intersect *)
      assert (a = v).
      { destruct (Nat.le_ge_cases i p) as [LE|GE].
        - assert (X : nth_error s p = Some a) by (apply EW; lia). rewrite (P2 p ltac:(lia)) in X. congruence.
        - assert (X : nth_error s i = Some v) by (apply P2; lia). congruence. }
      subst a. assert (D : (2 * Nat.div2 half <= half)%nat) by (pose proof (Nat.div2_odd half); lia).
      assert (D0 : (Nat.div2 half <> 0)%nat) by (destruct half as [|[|h]]; cbn; lia).
      apply (mode_loop_all w W s v S HVs); try lia; try exact HW'. intros j Hj. apply EW. lia.
    - assert (half = 1)%nat by lia. exists 0%nat. rewrite H in *. split; [reflexivity|]. intros j Hj. apply P2. lia. }
  destruct R as (i & -> & A2). rewrite (A2 i ltac:(lia)). cbn [Nat.eqb]. rewrite (A2 (i + 1)%nat ltac:(lia)). f_equal. now apply AVG.
Qed.
Print Assumptions C66_mode_majority_partial.
Example C66_ex : mode 64 [7; 3; 7; 9; 7; 7] = Some 7 /\ count (Z.eqb 7) [7; 3; 7; 9; 7; 7] = 4. Proof. split; reflexivity. Qed.
(** C66 (majority) is false for odd sizes: MinRange never looks at the last
    window, so three equal values out of five lose. *)
Theorem C66_mode_majority_refuted : exists l v, values 64 l /\ values 63 l /\ Z.of_nat (length l) < 2 * count (Z.eqb v) l /\ mode 64 l = Some 7 /\ v = 10.
Proof. exists [0; 4; 10; 10; 10], 10. split; [repeat constructor; lia|]. split; [repeat constructor; lia|]. repeat split. Qed.
Print Assumptions C66_mode_majority_refuted.
(** and the mode of an empty array reads outside it *)
Theorem C66_mode_empty_refuted : forall w, mode w [] = None.
Proof. reflexivity. Qed.
Print Assumptions C66_mode_empty_refuted.
