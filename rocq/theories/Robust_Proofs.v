(** Proofs about the robust statistics. *)
From Coq Require Import ZArith List Lia Bool Sorting.Permutation Sorting.Sorted Arith.
From Verif Require Import Word Word_Proofs Robust_Model Robust_Spec.
Import ListNotations.
Local Open Scope Z_scope.

(** ** sorting *)
Lemma zinsert_perm a l : Permutation (a :: l) (zinsert a l).
Proof. induction l as [|b l IH]; [reflexivity|]. cbn [zinsert]. destruct (a <=? b); [reflexivity|]. rewrite perm_swap. now constructor. Qed.
Lemma zsort_perm l : Permutation l (zsort l).
Proof. induction l as [|a l IH]; [reflexivity|]. cbn [zsort fold_right]. fold (zsort l). rewrite IH at 1. apply zinsert_perm. Qed.
Lemma zinsert_sorted a l : ascending l -> ascending (zinsert a l).
Proof.
  induction l as [|b l IH]; intros H; [repeat constructor|]. cbn [zinsert]. inversion H as [|? ? H1 H2]; subst. destruct (Z.leb_spec a b).
  - constructor; [exact H|]. constructor; [lia|]. rewrite Forall_forall in *. intros x Hx. specialize (H2 x Hx). lia.
  - constructor; [now apply IH|]. rewrite Forall_forall in *. intros x Hx. apply Permutation_in with (l' := a :: l) in Hx; [|symmetry; apply zinsert_perm].
    destruct Hx as [<-|Hx]; [lia|auto].
Qed.
Lemma zsort_ok l : sorted_of l (zsort l).
Proof. split; [apply zsort_perm|]. induction l; [constructor|]. now apply zinsert_sorted. Qed.

(** ** CountingSort *)
Definition expand (u : list (Z * Z)) : list Z := flat_map (fun p => repeat (fst p) (Z.to_nat (snd p))) u.
Lemma expand_cons p u : expand (p :: u) = repeat (fst p) (Z.to_nat (snd p)) ++ expand u. Proof. reflexivity. Qed.
Lemma bump_perm v u : Forall (fun p => 0 < snd p) u -> Permutation (v :: expand u) (expand (bump v u)) /\ Forall (fun p => 0 < snd p) (bump v u).
Proof.
  induction u as [|(x, c) u IH]; intros H; cbn [bump].
  - split; [reflexivity|]. repeat constructor; cbn; lia.
  - inversion H as [|? ? H1 H2]; subst. cbn [snd] in H1. destruct (Z.eqb_spec x v) as [->|NE].
    + split; [|constructor; [cbn; lia|exact H2]]. rewrite !expand_cons. cbn [fst snd]. replace (Z.to_nat (c + 1)) with (S (Z.to_nat c)) by lia. reflexivity.
    + destruct (IH H2) as (P & F). split; [|constructor; [exact H1|exact F]]. rewrite !expand_cons. rewrite <- P. apply Permutation_middle.
Qed.
Lemma bump_keys v u : NoDup (map fst u) -> NoDup (map fst (bump v u)) /\ (forall x, In x (map fst (bump v u)) -> x = v \/ In x (map fst u)).
Proof.
  induction u as [|(x, c) u IH]; intros H; cbn [bump].
  - split; [repeat constructor; intros []|]. intros y [<-|[]]. now left.
  - inversion H as [|? ? H1 H2]; subst. destruct (Z.eqb_spec x v) as [->|NE].
    + split; [exact H|]. intros y Hy. now right.
    + destruct (IH H2) as (N & K). split.
      * cbn [map fst]. constructor; [|exact N]. intros C. destruct (K x C); [congruence|contradiction].
      * intros y [<-|Hy]; [right; now left|]. destruct (K y Hy); [now left|right; now right].
Qed.
Lemma unique_ok l : forall u, Forall (fun p => 0 < snd p) u -> NoDup (map fst u) ->
  let r := fold_left (fun u v => bump v u) l u in Permutation (l ++ expand u) (expand r) /\ Forall (fun p => 0 < snd p) r /\ NoDup (map fst r).
Proof.
  induction l as [|v l IH]; intros u F N; cbn [fold_left app]; [repeat split; auto|].
  destruct (bump_perm v u F) as (P & F'). destruct (bump_keys v u N) as (N' & _). destruct (IH _ F' N') as (Q & R).
  split; [|exact R]. rewrite <- Q, <- P. apply Permutation_middle.
Qed.
Lemma pinsert_perm a l : Permutation (a :: l) (pinsert a l).
Proof. induction l as [|b l IH]; [reflexivity|]. cbn [pinsert]. destruct (pair_le a b); [reflexivity|]. rewrite perm_swap. now constructor. Qed.
Lemma psort_perm l : Permutation l (psort l).
Proof. induction l as [|a l IH]; [reflexivity|]. cbn [psort fold_right]. fold (psort l). rewrite IH at 1. apply pinsert_perm. Qed.
Definition ple (a b : Z * Z) : Prop := fst a <= fst b.
Lemma psort_sorted l : StronglySorted ple (psort l).
Proof.
  induction l as [|a l IH]; [constructor|]. cbn [psort fold_right]. fold (psort l). induction (psort l) as [|b s IHs]; [repeat constructor|].
  cbn [pinsert]. inversion IH as [|? ? H1 H2]; subst. unfold pair_le. destruct ((fst a <? fst b) || _) eqn:E.
  - assert (fst a <= fst b) by (apply orb_prop in E as [E|E]; [apply Z.ltb_lt in E; lia|apply andb_prop in E as (E & _); apply Z.eqb_eq in E; lia]).
    constructor; [exact IH|]. constructor; [exact H|]. rewrite Forall_forall in *. intros x Hx. specialize (H2 x Hx). unfold ple in *. lia.
  - assert (fst b <= fst a). { apply orb_false_iff in E as (E & _). apply Z.ltb_ge in E. exact E. }
    constructor; [now apply IHs|]. rewrite Forall_forall in *. intros x Hx. apply Permutation_in with (l' := a :: s) in Hx; [|symmetry; apply pinsert_perm].
    destruct Hx as [<-|Hx]; [exact H|auto].
Qed.
Lemma perm_expand u v : Permutation u v -> Permutation (expand u) (expand v).
Proof. intros H. unfold expand. now apply Permutation_flat_map. Qed.
Lemma expand_sorted u : StronglySorted ple u -> ascending (expand u).
Proof.
  induction u as [|(x, c) u IH]; intros H; [constructor|]. inversion H as [|? ? H1 H2]; subst. rewrite expand_cons. cbn [fst snd].
  induction (Z.to_nat c) as [|k IHk]; cbn [repeat app]; [now apply IH|]. constructor; [exact IHk|].
  apply Forall_forall. intros y Hy. apply in_app_or in Hy as [Hy|Hy]; [apply repeat_spec in Hy; lia|].
  unfold expand in Hy. apply in_flat_map in Hy as (p & Hp & Hy). apply repeat_spec in Hy. rewrite Forall_forall in H2. specialize (H2 p Hp). unfold ple in H2. cbn [fst] in H2. lia.
Qed.
Lemma counting_sort_ok l : exists s, counting_sort l = Some s /\ sorted_of l s.
Proof.
  unfold counting_sort. fold (expand (psort (unique l))).
  destruct (unique_ok l [] ltac:(constructor) ltac:(constructor)) as (P & _ & _). fold (unique l) in P. cbn [expand flat_map] in P. rewrite app_nil_r in P.
  assert (Q : Permutation l (expand (psort (unique l)))) by (eapply Permutation_trans; [exact P|]; apply perm_expand, psort_perm).
  change (flat_map (fun p => repeat (fst p) (Z.to_nat (snd p))) (psort (unique l))) with (expand (psort (unique l))).
  rewrite <- (Permutation_length Q), Nat.eqb_refl. eexists. split; [reflexivity|]. split; [exact Q|]. apply expand_sorted, psort_sorted.
Qed.

(** ** order of elements in an ascending list *)
Lemma asc_nth l : ascending l -> forall i j a b, (i <= j)%nat -> nth_error l i = Some a -> nth_error l j = Some b -> a <= b.
Proof.
  induction 1 as [|x l H IH F]; intros i j a b Hij E1 E2; [destruct i; discriminate|].
  destruct i as [|i], j as [|j]; cbn [nth_error] in *; try lia; try congruence.
  - assert (a = b) by congruence. lia.
  - injection E1 as ->. rewrite Forall_forall in F. apply F. now apply nth_error_In in E2.
  - apply (IH i j); auto. lia.
Qed.
Lemma nth_ok {A} (l : list A) i : (i < length l)%nat -> exists a, nth_error l i = Some a.
Proof. intros H. destruct (nth_error l i) eqn:E; [eauto|]. apply nth_error_None in E. lia. Qed.

Section T.
Context (w : Z) (W : 0 < w).

Lemma avg_small x y : 0 <= x < 2 ^ w -> 0 <= y < 2 ^ w -> (w < 32 \/ x + y + 1 < 2 ^ w) -> avg w x y = (x + y + 1) / 2.
Proof.
  intros Hx Hy H. unfold avg. destruct (Z.ltb_spec w 32).
  - apply wrap_small. unfold in_u. split; [apply Z.div_pos; lia|]. apply Z.div_lt_upper_bound; lia.
  - f_equal. apply wrap_small. unfold in_u. lia.
Qed.

(** ** MinRange *)
Lemma min_range_loop_ok (s : list Z) : ascending s -> values w s -> forall n half idx mr mi, (idx + n - 1 + half < length s \/ n = 0)%nat ->
  exists r, min_range_loop w n s half idx mr mi = Some r /\
    ((r = mi /\ forall i a b, (idx <= i < idx + n)%nat -> nth_error s i = Some a -> nth_error s (i + half) = Some b -> mr <= b - a) \/
     ((idx <= r < idx + n)%nat /\ exists a b, nth_error s r = Some a /\ nth_error s (r + half) = Some b /\ b - a < mr /\
        forall i a' b', (idx <= i < idx + n)%nat -> nth_error s i = Some a' -> nth_error s (i + half) = Some b' -> b - a <= b' - a')).
Proof.
  intros HS HV. induction n as [|n IH]; intros half idx mr mi HB; cbn [min_range_loop].
  - eexists. split; [reflexivity|]. left. split; [reflexivity|]. intros; lia.
  - destruct (nth_ok s idx ltac:(lia)) as (a & Ea). destruct (nth_ok s (idx + half) ltac:(lia)) as (b & Eb). rewrite Ea, Eb.
    assert (L : a <= b) by (apply (asc_nth s HS idx (idx + half)); auto; lia).
    destruct (Z.leb_spec a b); [|lia].
    assert (R : wrap w (b - a) = b - a).
    { unfold values in HV. rewrite Forall_forall in HV. pose proof (HV a (nth_error_In _ _ Ea)). pose proof (HV b (nth_error_In _ _ Eb)). apply wrap_small. unfold in_u. lia. }
    rewrite R. destruct (Z.ltb_spec (b - a) mr) as [C|C].
    + destruct (IH half (S idx) (b - a) idx ltac:(lia)) as (r & E & [(-> & K)|(Hr & a1 & b1 & E1 & E2 & LT & K)]).
      * eexists. split; [exact E|]. right. split; [lia|]. exists a, b. repeat (split; [assumption|]). intros i a' b' Hi Ei Ei'.
        destruct (Nat.eq_dec i idx) as [->|]; [assert (a' = a /\ b' = b) as (-> & ->) by (split; congruence); lia|]. apply (K i); auto. lia.
      * eexists. split; [exact E|]. right. split; [lia|]. exists a1, b1. split; [exact E1|]. split; [exact E2|]. split; [lia|].
        intros i a' b' Hi Ei Ei'. destruct (Nat.eq_dec i idx) as [->|]; [assert (a' = a /\ b' = b) as (-> & ->) by (split; congruence); lia|]. apply (K i); auto. lia.
    + destruct (IH half (S idx) mr mi ltac:(lia)) as (r & E & [(-> & K)|(Hr & a1 & b1 & E1 & E2 & LT & K)]).
      * eexists. split; [exact E|]. left. split; [reflexivity|]. intros i a' b' Hi Ei Ei'.
        destruct (Nat.eq_dec i idx) as [->|]; [assert (a' = a /\ b' = b) as (-> & ->) by (split; congruence); lia|]. apply (K i); auto. lia.
      * eexists. split; [exact E|]. right. split; [lia|]. exists a1, b1. split; [exact E1|]. split; [exact E2|]. split; [exact LT|].
        intros i a' b' Hi Ei Ei'. destruct (Nat.eq_dec i idx) as [->|]; [assert (a' = a /\ b' = b) as (-> & ->) by (split; congruence); lia|]. apply (K i); auto. lia.
Qed.

(** the window [idx, idx + 2 half) is inside the array; MinRange's default result 0 is harmless *)
Definition win (s : list Z) (idx half : nat) : Prop :=
  (idx + 2 * half <= length s)%nat /\
  (idx = 0%nat \/ forall a b, nth_error s idx = Some a -> nth_error s (idx + 2 * half - 1) = Some b -> b - a < 2 ^ w - 1).
Lemma min_range_win s idx half : ascending s -> values w s -> win s idx half -> (1 < half)%nat ->
  exists i, min_range w s idx half = Some i /\ (idx <= i < idx + half)%nat /\ win s i (Nat.div2 half) /\
    (forall j a b a' b', (idx <= j < idx + half)%nat -> nth_error s j = Some a -> nth_error s (j + half) = Some b ->
       nth_error s i = Some a' -> nth_error s (i + half) = Some b' -> b' - a' <= b - a).
Proof.
  intros HS HV (W1 & W2) Hh. unfold min_range.
  assert (D : (2 * Nat.div2 half <= half)%nat) by (pose proof (Nat.div2_odd half); lia).
  destruct (min_range_loop_ok s HS HV half half idx (2 ^ w - 1) 0%nat ltac:(lia)) as (r & E & [(-> & K)|(Hr & a & b & E1 & E2 & LT & K)]).
  - exists 0%nat. split; [exact E|].
    destruct (nth_ok s idx ltac:(lia)) as (a & Ea). destruct (nth_ok s (idx + half) ltac:(lia)) as (b & Eb). destruct (nth_ok s (idx + 2 * half - 1) ltac:(lia)) as (c & Ec).
    assert (B : b <= c) by (apply (asc_nth s HS (idx + half) (idx + 2 * half - 1)); auto; lia).
    pose proof (K idx a b ltac:(lia) Ea Eb) as M.
    destruct W2 as [->|W2]; [|specialize (W2 a c Ea Ec); lia].
    split; [lia|]. split; [split; [lia|now left]|]. intros j a1 b1 a2 b2 Hj F1 F2 F3 F4. pose proof (K j a1 b1 ltac:(lia) F1 F2).
    unfold values in HV. rewrite Forall_forall in HV. pose proof (HV a2 (nth_error_In _ _ F3)). pose proof (HV b2 (nth_error_In _ _ F4)). lia.
  - exists r. split; [exact E|]. split; [lia|]. split.
    + split; [lia|]. right. intros x y Ex Ey. assert (x = a) by congruence. subst x.
      assert (y <= b) by (apply (asc_nth s HS (r + 2 * Nat.div2 half - 1) (r + half)); auto; lia). lia.
    + intros j a1 b1 a2 b2 Hj F1 F2 F3 F4. assert (a2 = a) by congruence. assert (b2 = b) by congruence. subst. apply (K j); auto.
Qed.

Lemma mode_loop_ok s : ascending s -> values w s -> forall fuel idx half, (half < fuel)%nat -> win s idx half ->
  exists i h, mode_loop w fuel s idx half = Some (i, h) /\ (h <= 1)%nat /\ (h = 1 -> half <> 0)%nat /\ (half <> 0 -> h = 1)%nat /\ (idx <= i)%nat /\ (i + 2 * h <= idx + 2 * half)%nat.
Proof.
  intros HS HV. induction fuel as [|fuel IH]; intros idx half HF HW; [lia|]. cbn [mode_loop]. destruct (Nat.ltb_spec 1 half) as [C|C].
  - destruct (min_range_win s idx half HS HV HW C) as (i & -> & Hi & HW' & _).
    assert (D : (2 * Nat.div2 half <= half)%nat) by (pose proof (Nat.div2_odd half); lia).
    assert (D0 : (Nat.div2 half <> 0)%nat) by (destruct half as [|[|h]]; cbn; lia).
    destruct (IH i (Nat.div2 half) ltac:(lia) HW') as (i' & h & E & H1 & H2 & H3 & H4 & H5). exists i', h. split; [exact E|]. repeat split; try lia.
  - exists idx, half. repeat split; try lia.
Qed.

(** the window keeps the majority value *)
Definition allv (s : list Z) (v : Z) (idx len : nat) : Prop := forall i, (idx <= i < idx + len)%nat -> nth_error s i = Some v.
Lemma mode_loop_all s v : ascending s -> values w s -> forall fuel idx half, (half < fuel)%nat -> win s idx half -> allv s v idx (2 * half) -> (half <> 0)%nat ->
  exists i, mode_loop w fuel s idx half = Some (i, 1%nat) /\ allv s v i 2.
Proof.
  intros HS HV. induction fuel as [|fuel IH]; intros idx half HF HW HA H0; [lia|]. cbn [mode_loop]. destruct (Nat.ltb_spec 1 half) as [C|C].
  - destruct (min_range_win s idx half HS HV HW C) as (i & -> & Hi & HW' & K).
    assert (D : (2 * Nat.div2 half <= half)%nat) by (pose proof (Nat.div2_odd half); lia).
    assert (D0 : (Nat.div2 half <> 0)%nat) by (destruct half as [|[|h]]; cbn; lia).
    apply IH; try lia; try exact HW'. intros j Hj. apply HA. lia.
  - assert (half = 1)%nat by lia. subst. exists idx. split; [reflexivity|exact HA].
Qed.

Lemma eq_window s v i h : ascending s -> nth_error s i = Some v -> nth_error s (i + h) = Some v -> allv s v i (S h).
Proof.
  intros HS E1 E2 j Hj. assert (i + h < length s)%nat by (apply nth_error_Some; congruence).
  destruct (nth_ok s j ltac:(lia)) as (a & Ea). rewrite Ea. f_equal.
  pose proof (asc_nth s HS i j v a ltac:(lia) E1 Ea). pose proof (asc_nth s HS j (i + h) a v ltac:(lia) Ea E2). lia.
Qed.
End T.
