(** Property theorems C25-C27: the heap-based fallback of VQSort
    (hwy/contrib/sort/vqsort-inl.h 131-237), used when vqsort is disabled for a
    target and when the recursion is too deep. *)
From Coq Require Import ZArith List Lia Bool Permutation.
From Verif Require Import Word Word_Proofs Vec_Model Vec_Proofs Tune_Proofs Heap_Model Sort_Spec Heap_Proofs.
Import ListNotations.
Local Open Scope Z_scope.

Lemma nth_error_firstn {A} (l : list A) n i : (i < n)%nat -> nth_error (firstn n l) i = nth_error l i.
Proof. revert n i. induction l as [|x l IH]; intros [|n] [|i] H; try reflexivity; try lia. cbn. apply IH. lia. Qed.
Lemma nth_skipn' {A} (d : A) (l : list A) n i : nth i (skipn n l) d = nth (n + i) l d.
Proof. revert n. induction l as [|x l IH]; intros [|n]; cbn; try reflexivity; [destruct i; reflexivity|apply IH]. Qed.

Section P.
Context {K : Type} (lt : K -> K -> bool) (N1 : Z).
Hypothesis SW : strict_weak lt.
Hypothesis HN1 : 1 <= N1.

Lemma g_nth (dk : K) (l : list K) (i : nat) (x : K) : nth_error l i = Some x -> g dk l (Z.of_nat i) = x /\ Z.of_nat i < zlen l.
Proof. intros H. unfold g. rewrite Nat2Z.id. split; [now apply nth_error_nth|]. assert (i < length l)%nat by (apply nth_error_Some; congruence). unfold zlen. lia. Qed.

(** C25. *)
Theorem C25_heap_sort : forall l, l <> [] -> N1 * (zlen l + 1) < 2 ^ 62 ->
  exists fuel l', heap_sort lt N1 fuel l (N1 * zlen l) = Some l' /\ Permutation l l' /\ sorted lt l'.
Proof.
  intros l HL HB. destruct l as [|dk t]; [congruence|]. set (l := dk :: t) in *. assert (1 <= zlen l) by (unfold zlen, l; cbn [length]; lia).
  set (fuel := Z.to_nat (2 * zlen l + 3)). destruct (heap_sort_ok dk lt N1 SW HN1 (zlen l) fuel l) as (l' & E & L & P & S & _); [lia|lia|unfold fuel; lia|].
  exists fuel, l'. split; [exact E|]. split; [exact P|]. intros i j x y Hij Hi Hj.
  destruct (g_nth dk l' i x Hi) as (<- & HI). destruct (g_nth dk l' j y Hj) as (<- & HJ). apply S; lia.
Qed.
(** the same for a prefix of the array; the rest is untouched *)
Theorem C25_heap_sort_prefix : forall l n, 1 <= n <= zlen l -> N1 * (n + 1) < 2 ^ 62 ->
  exists fuel l', heap_sort lt N1 fuel l (N1 * n) = Some l' /\ Permutation l l' /\ sorted lt (firstn (Z.to_nat n) l') /\
    skipn (Z.to_nat n) l' = skipn (Z.to_nat n) l.
Proof.
  intros l n Hn HB. destruct l as [|dk t]; [cbn in Hn; lia|]. set (l := dk :: t) in *.
  set (fuel := Z.to_nat (2 * n + 3)). destruct (heap_sort_ok dk lt N1 SW HN1 n fuel l) as (l' & E & L & P & S & U); [lia|lia|unfold fuel; lia|].
  exists fuel, l'. split; [exact E|]. split; [exact P|]. split.
  - intros i j x y Hij Hi Hj. assert (j < length (firstn (Z.to_nat n) l'))%nat by (apply nth_error_Some; congruence). rewrite firstn_length in *.
    rewrite nth_error_firstn in Hi, Hj by lia. destruct (g_nth dk l' i x Hi) as (<- & HI). destruct (g_nth dk l' j y Hj) as (<- & HJ). apply S; lia.
  - apply (g_ext dk); unfold zlen in *; rewrite !skipn_length; [lia|]. intros i Hi. unfold g in *.
    specialize (U (n + i) ltac:(lia)). rewrite !nth_skipn'. replace (Z.to_nat n + Z.to_nat i)%nat with (Z.to_nat (n + i)) by lia. exact U.
Qed.

(** C27. *)
Theorem C27_heap_select : forall l k, (k < length l)%nat -> N1 * (zlen l + 1) < 2 ^ 62 ->
  exists fuel l', heap_select lt N1 fuel l (N1 * zlen l) (N1 * Z.of_nat k) = Some l' /\ Permutation l l' /\ selected lt l' k.
Proof.
  intros l k Hk HB. destruct l as [|dk t]; [cbn in Hk; lia|]. set (l := dk :: t) in *. assert (Hk' : 0 <= Z.of_nat k < zlen l) by (unfold zlen; lia).
  set (fuel := Z.to_nat (2 * zlen l + 3)). destruct (heap_select_ok dk lt N1 SW HN1 (zlen l) (Z.of_nat k) fuel l) as (l' & E & L & P & S1 & S2 & _); [lia|lia|lia|unfold fuel; lia|].
  exists fuel, l'. split; [exact E|]. split; [exact P|]. intros x Hx. destruct (g_nth dk l' k x Hx) as (<- & HI). split; intros i y Hi Hy; destruct (g_nth dk l' i y Hy) as (<- & HJ); [apply S1; lia|apply S2; lia].
Qed.
Theorem C27_heap_partial_sort : forall l k, (1 <= k < length l)%nat -> N1 * (zlen l + 1) < 2 ^ 62 ->
  exists fuel l', heap_partial_sort lt N1 fuel l (N1 * zlen l) (N1 * Z.of_nat k) = Some l' /\ Permutation l l' /\ partially_sorted lt l' k.
Proof.
  intros l k Hk HB. destruct l as [|dk t]; [cbn in Hk; lia|]. set (l := dk :: t) in *. assert (Hk' : 1 <= Z.of_nat k < zlen l) by (unfold zlen; lia).
  set (fuel := Z.to_nat (2 * zlen l + 3)). destruct (heap_select_ok dk lt N1 SW HN1 (zlen l) (Z.of_nat k) fuel l) as (l' & E & L & P & S1 & S2 & U1); [lia|lia|lia|unfold fuel; lia|].
  destruct (heap_sort_ok dk lt N1 SW HN1 (Z.of_nat k) fuel l') as (l2 & E2 & L2 & P2 & S3 & U2); [lia|nia|unfold fuel; lia|].
  exists fuel, l2. unfold heap_partial_sort. rewrite E. split; [exact E2|]. split; [eapply Permutation_trans; eassumption|]. split.
  - intros i j x y Hij Hi Hj. assert (j < length (firstn k l2))%nat by (apply nth_error_Some; congruence). rewrite firstn_length in *.
    rewrite nth_error_firstn in Hi, Hj by lia. destruct (g_nth dk l2 i x Hi) as (<- & HI). destruct (g_nth dk l2 j y Hj) as (<- & HJ). apply S3; lia.
  - intros i j x y Hij Hi Hj. destruct (g_nth dk l2 i x Hi) as (<- & HI). destruct (g_nth dk l2 j y Hj) as (<- & HJ).
    rewrite (U2 (Z.of_nat j)) by lia.
    assert (X : forall a, 0 <= a < Z.of_nat k -> a < zlen l' -> lt (g dk l' (Z.of_nat j)) (g dk l2 a) = false); [|apply X; lia].
    apply (perm_prefix dk l' l2 (Z.of_nat k) (fun v => lt (g dk l' (Z.of_nat j)) v = false)); [exact P2|lia|intros b Hb; apply U2; lia|].
    intros a Ha _. destruct SW as (_ & _ & NT). apply (NT _ (g dk l' (Z.of_nat k))); [|apply S1; lia].
    destruct (Z.eq_dec (Z.of_nat j) (Z.of_nat k)) as [->|]; [apply SW|apply S2; lia].
Qed.

(** C26, refuted: sorting zero keys accesses memory outside the array; whatever
    the fuel the run does not succeed, and the reason is the first Swap, which
    addresses the key at lane 2^64 - N1. *)
Theorem C26_empty_refuted : N1 < 2 ^ 32 -> forall l, zlen l < 2 ^ 31 ->
  (forall fuel, heap_sort lt N1 fuel l 0 = None) /\ key_swap N1 l 0 (wrap 64 (0 - N1)) = None.
Proof.
  intros HN l HL.
  assert (W : wrap 64 (0 - N1) = 2 ^ 64 - N1). { unfold wrap. replace (0 - N1) with ((2 ^ 64 - N1) + (-1) * 2 ^ 64) by lia. rewrite Z.mod_add by lia. apply Z.mod_small. lia. }
  assert (KA : forall l' : list K, zlen l' < 2 ^ 31 -> key_at N1 l' (2 ^ 64 - N1) = None).
  { intros l' HL'. unfold key_at. destruct ((2 ^ 64 - N1) mod N1 =? 0); [|reflexivity]. unfold rd.
    assert (2 ^ 31 <= (2 ^ 64 - N1) / N1) by (apply Z.div_le_lower_bound; nia). destruct (Z.ltb_spec ((2 ^ 64 - N1) / N1) 0); [reflexivity|].
    apply nth_error_None. unfold zlen in HL'. lia. }
  assert (KS : forall l' : list K, zlen l' < 2 ^ 31 -> key_swap N1 l' 0 (wrap 64 (0 - N1)) = None).
  { intros l' HL'. unfold key_swap. rewrite W, KA by lia. destruct (key_at N1 l' 0); reflexivity. }
  split; [|apply KS; exact HL]. intros fuel. unfold heap_sort. destruct (Z.eqb_spec 0 N1); [lia|].
  assert (SD : forall f i l1 l2, 0 <= i -> sift_down lt N1 f l1 0 i = Some l2 -> l2 = l1).
  { intros [|f] i l1 l2 Hi; [discriminate|]. cbn [sift_down]. destruct (Z.ltb_spec i 0); [lia|]. congruence. }
  assert (BH : forall f i l1 l2, 0 <= i -> build_heap lt N1 f l1 0 i = Some l2 -> l2 = l1).
  { induction f as [|f IH]; intros i l1 l2 Hi; [discriminate|]. cbn [build_heap]. destruct (i =? wrap 64 (- N1)); [congruence|].
    destruct (sift_down lt N1 (S f) l1 0 i) as [l3|] eqn:E; [|discriminate]. apply SD in E; [|exact Hi]. subst l3. apply IH. apply Z.mod_pos_bound. lia. }
  destruct (build_heap lt N1 fuel l 0 _) as [l1|] eqn:E; [|reflexivity]. apply BH in E; [|apply Z.mod_pos_bound; lia]. subst l1.
  destruct fuel as [|f]; [reflexivity|]. cbn [extract_loop]. destruct (Z.eqb_spec (wrap 64 (0 - N1)) 0) as [E0|_]; [rewrite W in E0; lia|]. now rewrite KS.
Qed.
(** HeapPartialSort with k = 0 ends in HeapSort of zero keys *)
Theorem C27_partial_sort_k0_refuted : N1 < 2 ^ 32 -> forall l, (length l >= 1)%nat -> N1 * (zlen l + 1) < 2 ^ 62 -> zlen l < 2 ^ 31 ->
  forall fuel, heap_partial_sort lt N1 fuel l (N1 * zlen l) 0 = None.
Proof.
  intros HN l HL HB HB2 fuel. unfold heap_partial_sort. destruct (heap_select lt N1 fuel l (N1 * zlen l) 0) as [l1|] eqn:E; [|reflexivity].
  apply C26_empty_refuted; [exact HN|].
  assert (W : forall (a b : list K) i x, wr a i x = Some b -> zlen b = zlen a).
  { intros a b i x. unfold wr, zlen. destruct (Z.leb_spec 0 i); cbn [andb]; [|discriminate]. destruct (Z.ltb_spec i (Z.of_nat (length a))); [|discriminate].
    intros E0. assert (E1 : b = firstn (Z.to_nat i) a ++ x :: skipn (S (Z.to_nat i)) a) by congruence. rewrite E1, app_length, firstn_length. pose proof (skipn_length (S (Z.to_nat i)) a) as SL. cbn [length] in *. lia. }
  assert (KS : forall (a b : list K) i j, key_swap N1 a i j = Some b -> zlen b = zlen a).
  { intros a b i j. unfold key_swap. destruct (key_at N1 a i); [|discriminate]. destruct (key_at N1 a j); [|discriminate].
    destruct (wr a (i / N1) k0) as [c|] eqn:E1; [|discriminate]. intros E2. apply W in E1, E2. lia. }
  assert (SD : forall f n i (a b : list K), sift_down lt N1 f a n i = Some b -> zlen b = zlen a).
  { induction f as [|f IH]; intros n i a b; [discriminate|]. cbn [sift_down]. destruct (i <? n); [|congruence]. destruct (n <=? _); [congruence|].
    destruct (key_at N1 a i); [|discriminate]. destruct (key_at N1 a _); [|discriminate]. match goal with |- match ?x with _ => _ end = _ -> _ => destruct x as [z|] end; [|discriminate].
    destruct (z =? i); [congruence|]. destruct (key_swap N1 a i z) as [c|] eqn:E1; [|discriminate]. intros E2. apply KS in E1. apply IH in E2. lia. }
  assert (BH : forall f n i (a b : list K), build_heap lt N1 f a n i = Some b -> zlen b = zlen a).
  { induction f as [|f IH]; intros n i a b; [discriminate|]. cbn [build_heap]. destruct (i =? _); [congruence|].
    destruct (sift_down lt N1 (S f) a n i) as [c|] eqn:E1; [|discriminate]. intros E2. apply SD in E1. apply IH in E2. lia. }
  assert (SL : forall f n k i (a b : list K), select_loop lt N1 f a n k i = Some b -> zlen b = zlen a).
  { induction f as [|f IH]; intros n k i a b; [discriminate|]. cbn [select_loop]. destruct (i <=? _); [|congruence].
    destruct (key_at N1 a i); [|discriminate]. destruct (key_at N1 a 0); [|discriminate]. destruct (lt k0 k1).
    - destruct (key_swap N1 a 0 i) as [c|] eqn:E1; [|discriminate]. destruct (sift_down lt N1 (S f) c k 0) as [e|] eqn:E2; [|discriminate]. intros E3. apply KS in E1. apply SD in E2. apply IH in E3. lia.
    - intros E3. apply IH in E3. lia. }
  revert E. unfold heap_select. destruct (_ =? N1); [intros [= <-]; exact HB2|]. destruct (build_heap _ _ _ _ _ _) as [c|] eqn:E1; [|discriminate].
  destruct (select_loop _ _ _ _ _ _ _) as [e|] eqn:E2; [|discriminate]. intros E3. apply BH in E1. apply SL in E2. apply KS in E3. lia.
Qed.
End P.
Print Assumptions C25_heap_sort.
Print Assumptions C25_heap_sort_prefix.
Print Assumptions C27_heap_select.
Print Assumptions C27_heap_partial_sort.
Print Assumptions C26_empty_refuted.
Print Assumptions C27_partial_sort_k0_refuted.
(** PartialSort accepts k == num (HWY_DASSERT(k <= num), vqsort-inl.h 2012) but the heap version then reads
    the key after the last one *)
Theorem C27_partial_sort_k_eq_num_refuted : exists l : list Z, forall fuel, heap_partial_sort Z.ltb 1 fuel l 3 3 = None /\ length l = 3%nat /\ key_at 1 l 3 = None.
Proof.
  exists [3; 2; 1]. intros fuel. split; [|split; reflexivity]. do 6 (destruct fuel as [|fuel]; [reflexivity|]). reflexivity.
Qed.
Print Assumptions C27_partial_sort_k_eq_num_refuted.

Lemma Zltb_strict_weak : strict_weak Z.ltb.
Proof. split; [intros a; apply Z.ltb_irrefl|]. split; intros a b c H1 H2; [apply Z.ltb_lt in H1, H2|apply Z.ltb_ge in H1, H2]; [apply Z.ltb_lt|apply Z.ltb_ge]; lia. Qed.
Example C25_ex : heap_sort Z.ltb 2 20 [3; 1; 2; 5; 4; 1] 12 = Some [1; 1; 2; 3; 4; 5]. Proof. reflexivity. Qed.
Example C27_ex1 : heap_select Z.ltb 1 20 [3; 1; 2; 5; 4; 1] 6 2 = Some [1; 1; 2; 5; 4; 3]. Proof. reflexivity. Qed.
Example C27_ex2 : heap_partial_sort Z.ltb 1 20 [3; 1; 6; 2; 5; 4] 6 3 = Some [1; 2; 3; 4; 6; 5]. Proof. reflexivity. Qed.
(** order by key part only: a strict weak order that is not total *)
Example C25_ex_kv : strict_weak (fun a b : Z * Z => fst a <? fst b).
Proof. destruct Zltb_strict_weak as (A & B & C). split; [intros a; apply A|]. split; intros a b c; [apply B|apply C]. Qed.
