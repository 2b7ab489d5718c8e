From Coq Require Import ZArith ZifyNat List Arith Bool Lia.
From Verif Require Import LoadN_Model LoadN_Spec LoadN_Proofs.
Import ListNotations.
Open Scope nat_scope.

Section P.
Context {A : Type} (zero : A) (J : nat -> nat -> A).
Implicit Types (mem v no rest : list A).
Local Notation bind := LoadN_Model.bind.
Local Notation "'do' x <- e ; f" := (bind e (fun x => f)) (at level 200, x pattern, e at level 100, f at level 200).
Local Notation "l @ i" := (nth i l zero) (at level 9).

Lemma len_first_n : forall R num, length (first_n R num) = R.
Proof using. clear zero J. intros. unfold first_n. rewrite map_length, seq_length. auto. Qed.
Lemma flag_first_n : forall R num i, flag (first_n R num) i = (i <? R) && (i <? num).
Proof using. clear zero J.
  intros R num i. unfold flag, first_n. destruct (Nat.ltb_spec i R).
  - rewrite nth_indep with (d' := (fun i => i <? num) 0) by (rewrite map_length, seq_length; auto). rewrite (map_nth (fun i => i <? num)), seq_nth by auto. auto.
  - rewrite nth_overflow; auto. rewrite map_length, seq_length. auto.
Qed.
Lemma nth_mapseq : forall (f : nat -> A) n i, i < n -> nth i (map f (seq 0 n)) zero = f i.
Proof. intros. rewrite nth_indep with (d' := f 0) by (rewrite map_length, seq_length; auto). rewrite (map_nth f), seq_nth by auto. auto. Qed.
Lemma len_widen : forall g m, length (widen g m) = length m.
Proof. intros. unfold widen. rewrite map_length, seq_length. auto. Qed.
Lemma flag_widen : forall g m i, i < length m -> flag (widen g m) i = flag m (i / g * g + g - 1).
Proof.
  intros g m i Hi. unfold flag at 1, widen. rewrite nth_indep with (d' := (fun i => flag m (i / g * g + g - 1)) 0) by (rewrite map_length, seq_length; auto).
  rewrite (map_nth (fun i => flag m (i / g * g + g - 1))), seq_nth by auto. auto.
Qed.
Lemma len_pick : forall m a b, length a = length m -> length b = length m -> length (@pick A m a b) = length m.
Proof. intros. unfold pick. rewrite map_length, !combine_length. lia. Qed.
Lemma nth_pick : forall m a b i, length a = length m -> length b = length m -> i < length m -> (pick m a b) @ i = if flag m i then a @ i else b @ i.
Proof.
  unfold pick, flag. induction m as [|f m IH]; intros [|x a] [|y b] [|i] Ha Hb Hi; simpl in *; try lia; auto. apply IH; lia.
Qed.
Lemma masked_load_ok : forall m mem p, (forall i, flag m i = true -> p + i < length mem) ->
  masked_load zero m mem p = Some (map (fun i => if flag m i then mem @ (p + i) else zero) (seq 0 (length m))).
Proof.
  induction m as [|f m IH]; intros mem p H; simpl; auto.
  assert (Hx : (if f then elem mem p else Some zero) = Some (if f then mem @ p else zero)).
  { destruct f; auto. apply nth_error_nth'. specialize (H 0 eq_refl). lia. }
  rewrite Hx. cbn [bind]. rewrite IH. 2:{ intros i Hi. specialize (H (S i) Hi). lia. }
  cbn [bind]. rewrite Nat.add_0_r. do 2 f_equal. rewrite <- seq_shift, map_map. apply map_ext. intros i. change (flag (f :: m) (S i)) with (flag m i). replace (p + 1 + i) with (p + S i) by lia. auto.
Qed.
Lemma len_ml : forall m mem p v, masked_load zero m mem p = Some v -> length v = length m.
Proof.
  induction m as [|f m IH]; simpl; intros mem p v H. { injection H as <-. auto. }
  destruct (if f then elem mem p else Some zero); try discriminate. cbn [bind] in H. destruct (masked_load zero m mem (p + 1)) eqn:E; try discriminate. cbn [bind] in H. injection H as <-. simpl. f_equal. eauto.
Qed.
Lemma nth_error_firstn' : forall (l : list A) n i, i < n -> nth_error (firstn n l) i = nth_error l i.
Proof. intros l n. revert l. induction n; intros [|x l] [|i] H; simpl; auto; try lia. apply IHn. lia. Qed.
Lemma nth_firstn' : forall (l : list A) n i, i < n -> (firstn n l) @ i = l @ i.
Proof. intros l n. revert l. induction n; intros [|x l] [|i] H; simpl; auto; try lia. apply IHn. lia. Qed.
Lemma nth_skipn' : forall (l : list A) n i, (skipn n l) @ i = l @ (n + i).
Proof. intros l n. revert l. induction n; intros [|x l] i; simpl; auto. destruct i; auto. Qed.
Lemma nth_repeat' : forall (c : A) n i, i < n -> (repeat c n) @ i = c.
Proof. induction n; intros [|i] H; simpl; auto; try lia. apply IHn. lia. Qed.

(** from default-valued indexing to the specification *)
Lemma to_loadn : forall N mem p num v, N <= length v -> (forall i, i < N -> i < num -> p + i < length mem) ->
  (forall i, i < N -> v @ i = if i <? num then mem @ (p + i) else zero) -> is_loadn zero N mem p num (firstn N v).
Proof.
  intros N mem p num v Hl Hb H. split. { rewrite firstn_length. lia. }
  intros i Hi. rewrite nth_error_firstn' by auto. rewrite (nth_error_nth' v zero) by lia. rewrite H by auto. destruct (Nat.ltb_spec i num); auto.
  rewrite (nth_error_nth' mem zero); auto.
Qed.
Lemma to_loadnor : forall no N mem p num v, length no = N -> N <= length v -> (forall i, i < N -> i < num -> p + i < length mem) ->
  (forall i, i < N -> v @ i = if i <? num then mem @ (p + i) else no @ i) -> is_loadnor no N mem p num (firstn N v).
Proof.
  intros no N mem p num v Hno Hl Hb H. split. { rewrite firstn_length. lia. }
  intros i Hi. rewrite nth_error_firstn' by auto. rewrite (nth_error_nth' v zero) by lia. rewrite H by auto. destruct (Nat.ltb_spec i num).
  - rewrite (nth_error_nth' mem zero); auto.
  - rewrite (nth_error_nth' no zero); auto. lia.
Qed.

(** ** native masks *)
Lemma first_load : forall R num mem p, p + Nat.min num R <= length mem ->
  masked_load zero (first_n R num) mem p = Some (map (fun i => if i <? num then mem @ (p + i) else zero) (seq 0 R)).
Proof.
  intros R num mem p H. rewrite masked_load_ok.
  - rewrite len_first_n. f_equal. apply map_ext_in. intros i Hi. apply in_seq in Hi. rewrite flag_first_n. destruct (Nat.ltb_spec i R); auto; lia.
  - intros i. rewrite flag_first_n. destruct (Nat.ltb_spec i R); destruct (Nat.ltb_spec i num); simpl; try discriminate. lia.
Qed.
Lemma masked_loadn_ok : forall N mem p num, p + Nat.min num N <= length mem -> exists v, masked_loadn zero N mem p num = Some v /\ is_loadn zero N mem p num v.
Proof.
  intros N mem p num H. unfold masked_loadn. rewrite first_load by auto. eexists; split; [reflexivity|].
  set (v := map _ _). assert (Hv : length v = N) by (unfold v; rewrite map_length, seq_length; auto). rewrite <- (firstn_all v), Hv. apply to_loadn; [lia | intros; lia |].
  intros i Hi. unfold v. rewrite nth_mapseq by auto. auto.
Qed.
Lemma masked_loadnor_ok : forall N no mem p num, length no = N -> p + Nat.min num N <= length mem ->
  exists v, masked_loadnor zero N no mem p num = Some v /\ is_loadnor no N mem p num v.
Proof.
  intros N no mem p num Hno H. unfold masked_loadnor. rewrite first_load by auto. cbn [bind]. eexists; split; [reflexivity|].
  set (v := pick _ _ _). assert (Hl : length (map (fun i => if i <? num then mem @ (p + i) else zero) (seq 0 N)) = N) by (rewrite map_length, seq_length; auto).
  assert (Hv : length v = N) by (unfold v; rewrite len_pick; rewrite len_first_n; auto). rewrite <- (firstn_all v), Hv. apply to_loadnor; [auto | lia | intros; lia |].
  intros i Hi. unfold v. rewrite nth_pick by (rewrite len_first_n; auto). rewrite flag_first_n, nth_mapseq by auto. destruct (Nat.ltb_spec i N); [|lia]. cbn [andb]. destruct (i <? num); auto.
Qed.

(** ** AVX2, 32- and 64-bit lanes *)
Lemma avx2_loadn_wide_ok : forall N R mem p num, N <= R -> p + Nat.min num R <= length mem ->
  exists v, avx2_loadn_wide zero N R mem p num = Some v /\ is_loadn zero N mem p num v.
Proof.
  intros N R mem p num HR H. unfold avx2_loadn_wide. rewrite first_load by auto. cbn [bind]. eexists; split; [reflexivity|].
  apply to_loadn; [rewrite map_length, seq_length; lia | intros; lia |]. intros i Hi. rewrite nth_mapseq by lia. auto.
Qed.
Lemma len_resize : forall site k v, length (resize J site k v) = k.
Proof. intros. unfold resize. rewrite firstn_length, app_length, map_length, seq_length. lia. Qed.
Lemma nth_resize : forall site k v i, i < length v -> i < k -> (resize J site k v) @ i = v @ i.
Proof. intros. unfold resize. rewrite nth_firstn' by auto. rewrite app_nth1 by auto. auto. Qed.
Lemma avx2_loadnor_wide_ok : forall N R no mem p num, length no = N -> N <= R -> p + Nat.min num R <= length mem ->
  exists v, avx2_loadnor_wide zero J N R no mem p num = Some v /\ is_loadnor no N mem p num v.
Proof.
  intros N R no mem p num Hno HR H. unfold avx2_loadnor_wide. rewrite first_load by auto. cbn [bind]. eexists; split; [reflexivity|].
  assert (Hl : length (map (fun i => if i <? num then mem @ (p + i) else zero) (seq 0 R)) = R) by (rewrite map_length, seq_length; auto).
  apply to_loadnor; [auto | rewrite len_pick; rewrite ?len_first_n, ?len_resize; auto; lia | intros; lia |].
  intros i Hi. rewrite nth_pick by (rewrite ?len_first_n, ?len_resize; auto; lia). rewrite flag_first_n, nth_mapseq, nth_resize by lia.
  destruct (Nat.ltb_spec i R); [|lia]. cbn [andb]. destruct (i <? num); auto.
Qed.
(** ** EMU128 *)
Lemma emu_loadn_ok : forall N mem p num, p + Nat.min num N <= length mem -> exists v, emu_loadn zero N mem p num = Some v /\ is_loadn zero N mem p num v.
Proof.
  intros N mem p num H. exists (spec_list zero mem p num N). split; [|apply spec_list_ok; auto]. unfold emu_loadn. rewrite loadu_ok by auto. cbn [bind]. unfold spec_list, zeros. rewrite skipn_repeat. do 3 f_equal. lia.
Qed.
Lemma emu_loadnor_ok : forall N no mem p num, length no = N -> p + Nat.min num N <= length mem -> exists v, emu_loadnor N no mem p num = Some v /\ is_loadnor no N mem p num v.
Proof using. clear zero J.
  intros N no mem p num Hno H. exists (spec_list_or no mem p num N). split; [|apply spec_list_or_ok; auto]. unfold emu_loadnor. rewrite loadu_ok by auto. cbn [bind]. unfold spec_list_or. do 2 f_equal.
  destruct (Nat.le_gt_cases num N). { rewrite Nat.min_l by auto; auto. } rewrite !skipn_all2; auto; lia.
Qed.
Lemma emu_storen_ok : forall N v mem p num, length v = N -> p + Nat.min num N <= length mem -> exists mem', emu_storen N v mem p num = Some mem' /\ is_storen N v mem p num mem'.
Proof using. clear zero J. intros N v mem p num Hv H. eexists. split. { apply storeu_first; lia. } subst N. apply store_list_ok. auto. Qed.

(** ** stores under a mask *)
Lemma nth_store_list : forall v mem p n j, n <= length v -> p + n <= length mem -> nth_error (store_list v mem p n) j = if (p <=? j) && (j <? p + n) then nth_error v (j - p) else nth_error mem j.
Proof using. clear zero J.
  intros v mem p n j Hn H. pose proof (store_list_ok v mem p n) as [_ Hx]; [lia|]. specialize (Hx j). rewrite Nat.min_l in Hx by lia. auto.
Qed.
Lemma storeu_nth : forall v mem p, p + length v <= length mem -> exists mem', storeu mem p v = Some mem' /\ length mem' = length mem /\
  forall j, nth_error mem' j = if (p <=? j) && (j <? p + length v) then nth_error v (j - p) else nth_error mem j.
Proof using. clear zero J. intros v mem p H. eexists. split. { apply storeu_all; auto. } split. { apply store_list_length; lia. } intros j. apply nth_store_list; lia. Qed.
Lemma blended_ok : forall m v mem p, (forall i, flag m i = true -> i < length v -> p + i < length mem) ->
  exists mem', blended_store m v mem p = Some mem' /\ length mem' = length mem /\
  forall j, nth_error mem' j = if (p <=? j) && flag m (j - p) && (j - p <? length v) then nth_error v (j - p) else nth_error mem j.
Proof using. clear zero J.
  induction m as [|f m IH]; intros v mem p H.
  { exists mem. split; [destruct v; auto|]. split; auto. intros j. unfold flag. destruct (j - p); simpl; rewrite andb_false_r; auto. }
  destruct v as [|x v]. { exists mem. split; auto. split; auto. intros j. destruct ((p <=? j) && flag (f :: m) (j - p)); auto. }
  simpl blended_store.
  assert (Hx : exists mem1, (if f then storeu mem p [x] else Some mem) = Some mem1 /\ length mem1 = length mem /\ forall j, nth_error mem1 j = if (p =? j) && f then Some x else nth_error mem j).
  { destruct f.
    - destruct (storeu_nth [x] mem p) as (mem1 & E1 & E2 & E3). { specialize (H 0 eq_refl). simpl in *. lia. }
      exists mem1. split; auto. split; auto. intros j. rewrite E3. cbn [length]. destruct (Nat.eqb_spec p j); destruct (Nat.leb_spec p j); destruct (Nat.ltb_spec j (p + 1)); cbn [andb]; try lia; auto.
      subst. replace (j - j) with 0 by lia. auto.
    - exists mem. split; auto. split; auto. intros j. rewrite andb_false_r. auto. }
  destruct Hx as (mem1 & E1 & E2 & E3). rewrite E1. cbn [bind].
  destruct (IH v mem1 (p + 1)) as (mem' & F1 & F2 & F3). { intros i Hi Hv. rewrite E2. specialize (H (S i) Hi). simpl in H. lia. }
  exists mem'. split; auto. split; [lia|]. intros j. rewrite F3, E3.
  destruct (Nat.eqb_spec p j).
  - subst j. destruct (Nat.leb_spec (p + 1) p); [lia|]. destruct (Nat.leb_spec p p); [|lia]. replace (p - p) with 0 by lia. cbn. destruct f; auto.
  - destruct (Nat.leb_spec (p + 1) j); destruct (Nat.leb_spec p j); try lia; cbn [andb]; auto.
    replace (j - p) with (S (j - (p + 1))) by lia. change (flag (f :: m) (S (j - (p + 1)))) with (flag m (j - (p + 1))). cbn [length nth_error].
    change (S (j - (p + 1)) <? S (length v)) with (j - (p + 1) <? length v). auto.
Qed.
Lemma first_store : forall N v mem p num, length v = N -> p + Nat.min num N <= length mem -> exists mem', blended_store (first_n N (Nat.min num N)) v mem p = Some mem' /\ is_storen N v mem p num mem'.
Proof using. clear zero J.
  intros N v mem p num Hv H. destruct (blended_ok (first_n N (Nat.min num N)) v mem p) as (mem' & E1 & E2 & E3).
  { intros i. rewrite flag_first_n. destruct (Nat.ltb_spec i N); destruct (Nat.ltb_spec i (Nat.min num N)); simpl; try discriminate. lia. }
  exists mem'. split; auto. split; auto. intros j. rewrite E3, flag_first_n, Hv.
  destruct (Nat.leb_spec p j); cbn [andb]; auto. destruct (Nat.ltb_spec (j - p) N); destruct (Nat.ltb_spec (j - p) (Nat.min num N)); destruct (Nat.ltb_spec j (p + Nat.min num N)); cbn [andb]; auto; lia.
Qed.

(** ** AVX2, 8- and 16-bit lanes *)
Lemma full_num : forall g q max i, 1 <= g -> i < g * q -> max <= i / g * g + g - 1 -> max < g * q.
Proof.
  intros g q max i Hg Hi Hf. assert (i / g < q) by (apply Nat.div_lt_upper_bound; lia). assert ((i / g + 1) * g <= q * g) by (apply Nat.mul_le_mono_r; lia). lia.
Qed.
Lemma land3 : forall n, land n 3 = n mod 4.
Proof. intros. apply (Nat.land_ones n 2). Qed.
Lemma land1 : forall n, land n 1 = n mod 2.
Proof. intros. apply (Nat.land_ones n 1). Qed.
Ltac Zify.zify_post_hook ::= Z.to_euclidean_division_equations.
Lemma elem_ok : forall mem p, p < length mem -> elem mem p = Some (mem @ p).
Proof. intros. apply nth_error_nth'. auto. Qed.

Lemma trailing_big : forall N R g q r no mem p max, (g = 2 \/ g = 4) -> N = g * q -> R = g * r -> N <= R -> 1 <= q -> length no = R -> p + Nat.min max N <= length mem ->
  exists t, avx2_trailing_or zero N R g no (first_n R max) mem p (Nat.min max N) = Some t /\ length t = R /\
    forall i, i < N -> max <= i / g * g + g - 1 -> t @ i = if i <? max then mem @ (p + i) else no @ i.
Proof.
  intros N R g q r no mem p max Hg HN HR HNR Hq Hno H. unfold avx2_trailing_or.
  destruct (Nat.eqb_spec N 1); [destruct Hg; lia|].
  assert (Hm : length (first_n R max) = R) by apply len_first_n.
  remember (Nat.min max N) as num eqn:Hnum.
  destruct Hg as [-> | ->].
  - replace (2 =? 4) with false by reflexivity. rewrite land1. destruct (Nat.eqb_spec (num mod 2) 0); cbn [negb].
    + exists no. split; auto. split; auto. intros i Hi Hf. assert (Hmx : num = max) by (pose proof (full_num 2 q max i ltac:(repeat constructor) ltac:(rewrite <- HN; assumption) Hf) as Hfn; rewrite Hnum, HN; clear - Hfn; lia). destruct (Nat.ltb_spec i max); auto. exfalso. rewrite Hmx in e. clear - Hi Hf H0 e HN. lia.
    + rewrite elem_ok by lia. cbn [bind]. eexists; split; [reflexivity|]. split. { rewrite len_pick by (rewrite ?repeat_length; lia). auto. }
      intros i Hi Hf. assert (Hmx : num = max) by (pose proof (full_num 2 q max i ltac:(repeat constructor) ltac:(rewrite <- HN; assumption) Hf) as Hfn; rewrite Hnum, HN; clear - Hfn; lia). rewrite nth_pick by (rewrite ?repeat_length; lia). rewrite flag_first_n. destruct (Nat.ltb_spec i R); [|lia]. cbn [andb]. destruct (Nat.ltb_spec i max); auto.
      rewrite nth_repeat' by auto. f_equal. rewrite Hmx in *. clear - Hi Hf H1 n0 HN. lia.
  - replace (4 =? 4) with true by reflexivity. destruct (Nat.eqb_spec N 2); [lia|]. rewrite land3. destruct (Nat.eqb_spec (num mod 4) 0).
    + exists no. split; auto. split; auto. intros i Hi Hf. assert (Hmx : num = max) by (pose proof (full_num 4 q max i ltac:(repeat constructor) ltac:(rewrite <- HN; assumption) Hf) as Hfn; rewrite Hnum, HN; clear - Hfn; lia). destruct (Nat.ltb_spec i max); auto. exfalso. rewrite Hmx in e. clear - Hi Hf H0 e HN. lia.
    + rewrite elem_ok by lia. cbn [bind]. set (t := pick (first_n R max) (repeat mem @ (p + num - 1) R) no).
      assert (Ht : length t = R) by (unfold t; rewrite len_pick by (rewrite ?repeat_length; lia); auto).
      assert (Hti : forall i, i < R -> t @ i = if i <? max then mem @ (p + num - 1) else no @ i).
      { intros i Hi. unfold t. rewrite nth_pick by (rewrite ?repeat_length; lia). rewrite flag_first_n. destruct (Nat.ltb_spec i R); [|lia]. cbn [andb]. rewrite nth_repeat' by auto. auto. }
      assert (Hc : num mod 4 = 1 \/ num mod 4 = 2 \/ num mod 4 = 3) by (clear - n1; lia).
      assert (Hbits : negb (land (num mod 4) 2 =? 0) = (2 <=? num mod 4)) by (destruct Hc as [-> | [-> | ->]]; reflexivity).
      rewrite Hbits. destruct (Nat.leb_spec 2 (num mod 4)).
      * assert (Hb : p + num - num mod 4 + 2 <= length mem) by (clear - H H0 ; lia).
        rewrite loadu_ok by auto. cbn [bind]. eexists; split; [reflexivity|].
        assert (Hl2 : length (map (fun i => (firstn 2 (skipn (p + num - num mod 4) mem)) @ (i mod 2)) (seq 0 R)) = R) by (rewrite map_length, seq_length; auto).
        split. { rewrite len_pick; rewrite len_widen; auto; lia. }
        intros i Hi Hf. assert (Hmx : num = max) by (pose proof (full_num 4 q max i ltac:(repeat constructor) ltac:(rewrite <- HN; assumption) Hf) as Hfn; rewrite Hnum, HN; clear - Hfn; lia). rewrite nth_pick by (rewrite len_widen; lia). rewrite flag_widen by lia. rewrite flag_first_n, nth_mapseq by lia. rewrite Hti by lia.
        rewrite nth_firstn' by (apply Nat.mod_upper_bound; lia). rewrite nth_skipn'.
        assert (Hi2 : (i / 2 * 2 + 2 - 1 <? R) = true) by (apply Nat.ltb_lt; clear - HR Hi HNR; lia). rewrite Hi2. cbn [andb].
        destruct (Nat.ltb_spec (i / 2 * 2 + 2 - 1) max).
        { destruct (Nat.ltb_spec i max); [|clear - H1 H2; lia]. f_equal. rewrite Hmx in *. clear - H0 H1 Hf Hi HN H2. lia. }
        { destruct (Nat.ltb_spec i max); auto. f_equal. rewrite Hmx in *. clear - H0 H1 H2 Hf Hi HN n1. lia. }
      * exists t. split; auto. split; auto. intros i Hi Hf. assert (Hmx : num = max) by (pose proof (full_num 4 q max i ltac:(repeat constructor) ltac:(rewrite <- HN; assumption) Hf) as Hfn; rewrite Hnum, HN; clear - Hfn; lia). rewrite Hti by lia. destruct (Nat.ltb_spec i max); auto. f_equal. rewrite Hmx in *. clear - H0 H1 Hf Hi HN n1. lia.
Qed.

Lemma shape_facts : forall sz N R g, avx2_shape sz N R g -> (g = 2 \/ g = 4) /\ N <= R /\ 8 <= R /\ (exists r, R = g * r) /\ (N = 1 \/ (sz = 1 /\ N = 2 /\ g = 4) \/ exists q, N = g * q /\ 1 <= q).
Proof.
  intros sz N R g (Hsz & Hg & (e & HN) & HR).
  assert (Hg' : (sz = 1 /\ g = 4 /\ 16 / sz = 16) \/ (sz = 2 /\ g = 2 /\ 16 / sz = 8)) by (destruct Hsz as [-> | ->]; subst g; [left | right]; auto).
  assert (Hcase : N = 1 \/ N = 2 \/ exists q, N = 4 * q /\ 1 <= q).
  { destruct e as [|[|e]]; [left | right; left | right; right]; auto. exists (2 ^ e). split. { rewrite HN. cbn [Nat.pow]. lia. } pose proof (Nat.pow_nonzero 2 e). lia. }
  clear HN Hg Hsz. destruct Hg' as [(-> & -> & E) | (-> & -> & E)]; rewrite E in HR; (split; [lia|]); (split; [lia|]); (split; [lia|]).
  - split. { destruct Hcase as [-> | [-> | (q & -> & Hq)]]; [exists 4 | exists 4 | exists (Nat.max q 4)]; lia. }
    destruct Hcase as [-> | [-> | (q & -> & Hq)]]; auto. right; right. exists q. lia.
  - split. { destruct Hcase as [-> | [-> | (q & -> & Hq)]]; [exists 4 | exists 4 | exists (Nat.max (2 * q) 4)]; lia. }
    destruct Hcase as [-> | [-> | (q & -> & Hq)]]; auto; right; right; [exists 1 | exists (2 * q)]; lia.
Qed.
Lemma trailing_zero : forall N R g m mem p num, N <> 1 -> ~ (g = 4 /\ N = 2) -> avx2_trailing zero N R g m mem p num = avx2_trailing_or zero N R g (zeros zero R) m mem p num.
Proof.
  intros N R g m mem p num H1 H2. unfold avx2_trailing, avx2_trailing_or. destruct (Nat.eqb_spec N 1); [lia|]. destruct (Nat.eqb_spec g 4); auto. destruct (Nat.eqb_spec N 2); auto. lia.
Qed.
Lemma widened_ok : forall g r R max mem p, (g = 2 \/ g = 4) -> R = g * r -> p + Nat.min max R <= length mem ->
  masked_load zero (widen g (first_n R max)) mem p = Some (map (fun i => if i / g * g + g - 1 <? max then mem @ (p + i) else zero) (seq 0 R)) /\
  (forall i, i < R -> flag (widen g (first_n R max)) i = (i / g * g + g - 1 <? max)).
Proof.
  intros g r R max mem p Hg HR H.
  assert (Hf : forall i, i < R -> flag (widen g (first_n R max)) i = (i / g * g + g - 1 <? max)).
  { intros i Hi. rewrite flag_widen by (rewrite len_first_n; auto). rewrite flag_first_n. assert ((i / g * g + g - 1 <? R) = true) as ->; auto. apply Nat.ltb_lt. destruct Hg as [-> | ->]; clear - HR Hi; lia. }
  split; auto. rewrite masked_load_ok.
  - rewrite len_widen, len_first_n. f_equal. apply map_ext_in. intros i Hi. apply in_seq in Hi. rewrite Hf by lia. auto.
  - intros i Hi. destruct (Nat.lt_ge_cases i R).
    + rewrite Hf in Hi by auto. apply Nat.ltb_lt in Hi. destruct Hg as [-> | ->]; clear - HR Hi H H0; lia.
    + unfold flag in Hi. rewrite nth_overflow in Hi; try discriminate. rewrite len_widen, len_first_n. auto.
Qed.
Lemma in_group : forall g i, (g = 2 \/ g = 4) -> i <= i / g * g + g - 1.
Proof. intros g i [-> | ->]; lia. Qed.
Lemma sz_of_g : forall g, (g = 2 \/ g = 4) -> 4 / g * g = 4.
Proof. intros g [-> | ->]; reflexivity. Qed.

Lemma loadu1 : forall mem p, p + 1 <= length mem -> loadu mem p 1 = Some [mem @ p].
Proof. intros. rewrite loadu_ok by auto. pose proof (nth_skipn' mem p 0) as E. rewrite Nat.add_0_r in E. rewrite <- E. assert (length (skipn p mem) >= 1) by (rewrite skipn_length; lia). destruct (skipn p mem); simpl in *; [lia|]. auto. Qed.
Lemma loadu2 : forall mem p, p + 2 <= length mem -> loadu mem p 2 = Some [mem @ p; mem @ (p + 1)].
Proof.
  intros. rewrite loadu_ok by auto. pose proof (nth_skipn' mem p 0) as E. rewrite Nat.add_0_r in E. pose proof (nth_skipn' mem p 1) as E1. rewrite <- E, <- E1. assert (length (skipn p mem) >= 2) by (rewrite skipn_length; lia).
  destruct (skipn p mem) as [|a [|b l]]; simpl in *; try lia. auto.
Qed.
Lemma len_zext : forall k v, length v <= k -> length (zext zero k v) = k.
Proof. intros. unfold zext, zeros. rewrite app_length, repeat_length. lia. Qed.
Lemma nth_zext : forall k v i, i < k -> (zext zero k v) @ i = if i <? length v then v @ i else zero.
Proof.
  intros. unfold zext, zeros. destruct (Nat.ltb_spec i (length v)). { apply app_nth1; auto. } rewrite app_nth2 by auto.
  destruct (Nat.lt_ge_cases (i - length v) (k - length v)). { apply nth_repeat'; auto. } apply nth_overflow. rewrite repeat_length. auto.
Qed.

Lemma avx2_loadn_ok : forall cst sz N R g mem p max, avx2_shape sz N R g -> p + Nat.min max R <= length mem ->
  exists v, avx2_loadn zero cst N R g mem p max = Some v /\ is_loadn zero N mem p max v.
Proof.
  intros cst sz N R g mem p max Hs H. destruct (shape_facts _ _ _ _ Hs) as (Hg & HNR & HR8 & (r & HR) & Hcase). clear Hs. unfold avx2_loadn.
  assert (Hmem : forall i, i < N -> i < max -> p + i < length mem) by (intros; lia).
  assert (Hlz : length (zeros zero R) = R) by (unfold zeros; apply repeat_length).
  assert (Hz : forall i, i < R -> (zeros zero R) @ i = zero) by (intros; apply nth_repeat'; auto).
  destruct Hcase as [-> | [(_ & -> & ->) | (q & HN & Hq)]].
  - assert (Ht : exists t, avx2_trailing zero 1 R g (first_n R max) mem p (Nat.min max 1) = Some t /\ length t = R /\ t @ 0 = if 0 <? max then mem @ p else zero).
    { unfold avx2_trailing. change (1 =? 1) with true. cbv iota. destruct max as [|max].
      - exists (zeros zero R). split; [reflexivity | split; [exact Hlz | apply Hz; lia]].
      - rewrite Nat.min_r by lia. change (0 <? 1) with true. cbv iota. rewrite loadu1 by lia. cbn [bind]. exists (zext zero R [mem @ p]). split; auto. split. { apply len_zext. simpl. lia. } auto. }
    destruct Ht as (t & E & Hl & H0). rewrite E. cbn [bind].
    assert (Hle : (1 * (4 / g) <=? 2) = true) by (destruct Hg as [-> | ->]; reflexivity). rewrite Hle.
    exists (firstn 1 t). split; [destruct (cst && _); auto|]. apply to_loadn; [lia | auto |]. intros i Hi. assert (i = 0) as -> by lia. rewrite Nat.add_0_r. auto.
  - assert (Ht : exists t, avx2_trailing zero 2 R 4 (first_n R max) mem p (Nat.min max 2) = Some t /\ length t = R /\ forall i, i < 2 -> t @ i = if i <? max then mem @ (p + i) else zero).
    { unfold avx2_trailing. change (2 =? 1) with false. change (4 =? 4) with true. change (2 =? 2) with true. cbv iota. destruct max as [|[|max]].
      - exists (zeros zero R). split; auto. split; auto. intros. apply Hz. lia.
      - change (1 <? Nat.min 1 2) with false. change (Nat.min 1 2 =? 1) with true. cbv iota. rewrite loadu1 by lia. cbn [bind]. exists (zext zero R [mem @ p]). split; auto. split. { apply len_zext. simpl. lia. }
        intros i Hi. rewrite nth_zext by lia. destruct i as [|[|i]]; [|auto|lia]. rewrite Nat.add_0_r. auto.
      - rewrite Nat.min_r by lia. change (1 <? 2) with true. cbv iota. rewrite loadu2 by lia. cbn [bind]. exists (zext zero R [mem @ p; mem @ (p + 1)]). split; auto. split. { apply len_zext. simpl. lia. }
        intros i Hi. rewrite nth_zext by lia. destruct i as [|[|i]]; [|auto|lia]. rewrite Nat.add_0_r. auto. }
    destruct Ht as (t & E & Hl & H0). rewrite E. cbn [bind]. change (2 * (4 / 4) <=? 2) with true.
    exists (firstn 2 t). split; [destruct (cst && _); auto|]. apply to_loadn; [lia | auto | auto].
  - assert (Hn1 : N <> 1 /\ ~ (g = 4 /\ N = 2)) by (destruct Hg; lia). destruct Hn1 as (Hn1 & Hn2).
    destruct (trailing_big N R g q r (zeros zero R) mem p max Hg HN HR HNR Hq Hlz ltac:(lia)) as (t & E & Hl & Ht).
    rewrite trailing_zero, E by auto. cbn [bind].
    assert (Hleading : (N * (4 / g) <=? 2) = false). { apply Nat.leb_gt. rewrite HN. pose proof (sz_of_g g Hg) as E4. clear - E4 Hq. assert (4 <= g * q * (4 / g)); [|lia]. replace (g * q * (4 / g)) with (q * (4 / g * g)) by ring. rewrite E4. lia. }
    rewrite Hleading. destruct (cst && (Nat.min max N <? g)) eqn:Ec.
    + apply andb_prop in Ec as (_ & Ec). apply Nat.ltb_lt in Ec. exists (firstn N t). split; auto. apply to_loadn; [lia | auto |].
      intros i Hi. rewrite Ht; auto. { rewrite Hz by lia. auto. } assert (max < g) by (assert (g <= N) by nia; lia). lia.
    + destruct (widened_ok g r R max mem p Hg HR H) as (E2 & Hfl). rewrite E2. cbn [bind]. eexists; split; [reflexivity|]. set (v := map _ _).
      assert (Hv : length v = R) by (unfold v; rewrite map_length, seq_length; auto).
      apply to_loadn; [rewrite len_pick; rewrite len_widen, len_first_n; lia | auto |].
      intros i Hi. rewrite nth_pick by (rewrite len_widen, len_first_n; lia). rewrite Hfl by lia. unfold v. rewrite nth_mapseq by lia. pose proof (in_group g i Hg).
      destruct (Nat.ltb_spec (i / g * g + g - 1) max).
      * destruct (Nat.ltb_spec i max); [auto | lia].
      * rewrite Ht by auto. rewrite Hz by lia. auto.
Qed.

Lemma avx2_loadnor_ok : forall cst sz N R g no mem p max, avx2_shape sz N R g -> length no = N -> (sz = 1 /\ N = 2 -> nth_error no 0 = nth_error no 1) -> p + Nat.min max R <= length mem ->
  exists v, avx2_loadnor zero J cst N R g no mem p max = Some v /\ is_loadnor no N mem p max v.
Proof.
  intros cst sz N R g no mem p max Hs Hno Huni H. destruct (shape_facts _ _ _ _ Hs) as (Hg & HNR & HR8 & (r & HR) & Hcase). clear Hs. unfold avx2_loadnor.
  assert (Hmem : forall i, i < N -> i < max -> p + i < length mem) by (intros; lia).
  set (noR := resize J 21 R no). assert (Hlz : length noR = R) by apply len_resize.
  assert (Hz : forall i, i < N -> noR @ i = no @ i) by (intros; apply nth_resize; lia).
  destruct Hcase as [-> | [(-> & -> & ->) | (q & HN & Hq)]].
  - assert (Ht : exists t, avx2_trailing_or zero 1 R g noR (first_n R max) mem p (Nat.min max 1) = Some t /\ length t = R /\ t @ 0 = if 0 <? max then mem @ p else no @ 0).
    { unfold avx2_trailing_or. change (1 =? 1) with true. cbv iota. destruct max as [|max].
      - exists noR. split; [reflexivity | split; [exact Hlz | cbn [Nat.ltb Nat.leb]; apply Hz; lia]].
      - rewrite Nat.min_r by lia. change (0 <? 1) with true. cbv iota. rewrite loadu1 by lia. cbn [bind]. exists (zext zero R [mem @ p]). split; auto. split. { apply len_zext. simpl. lia. } auto. }
    destruct Ht as (t & E & Hl & H0). rewrite E. cbn [bind].
    assert (Hle : (1 * (4 / g) <=? 2) = true) by (destruct Hg as [-> | ->]; reflexivity). rewrite Hle.
    exists (firstn 1 t). split; [destruct (cst && _); auto|]. apply to_loadnor; [auto | lia | auto |]. intros i Hi. assert (i = 0) as -> by lia. rewrite Nat.add_0_r. auto.
  - assert (Ht : exists t, avx2_trailing_or zero 2 R 4 noR (first_n R max) mem p (Nat.min max 2) = Some t /\ 2 <= length t /\ forall i, i < 2 -> t @ i = if i <? max then mem @ (p + i) else no @ i).
    { unfold avx2_trailing_or. change (2 =? 1) with false. change (4 =? 4) with true. change (2 =? 2) with true. cbv iota. destruct max as [|[|max]].
      - exists noR. split; auto. split; [lia|]. intros. apply Hz. lia.
      - change (1 <? Nat.min 1 2) with false. change (Nat.min 1 2 =? 0) with false. cbv iota. rewrite loadu1 by lia. cbn [bind]. specialize (Huni (conj eq_refl eq_refl)).
        destruct no as [|n0 [|n1 [|]]]; simpl in Hno; try lia. simpl in Huni. injection Huni as <-.
        assert (HR2 : R / 2 >= 1) by (clear - HR8; lia). unfold interleave_lower. destruct (R / 2) as [|h]; [lia|]. unfold zext. cbn [app firstn].
        destruct noR as [|nr noR'] eqn:Enr; [simpl in Hlz; lia|]. cbn [firstn combine flat_map fst snd app]. eexists; split; [reflexivity|]. split. { cbn [length]. lia. }
        assert (nr = n0) as -> by (specialize (Hz 0 ltac:(lia)); simpl in Hz; auto).
        intros i Hi. destruct i as [|[|i]]; [|auto|lia]. rewrite Nat.add_0_r. auto.
      - rewrite Nat.min_r by lia. change (1 <? 2) with true. cbv iota. rewrite loadu2 by lia. cbn [bind]. exists (zext zero R [mem @ p; mem @ (p + 1)]). split; auto. split. { rewrite len_zext by (simpl; lia). lia. }
        intros i Hi. rewrite nth_zext by lia. destruct i as [|[|i]]; [|auto|lia]. rewrite Nat.add_0_r. auto. }
    destruct Ht as (t & E & Hl & H0). rewrite E. cbn [bind]. change (2 * (4 / 4) <=? 2) with true.
    exists (firstn 2 t). split; [destruct (cst && _); auto|]. apply to_loadnor; [auto | lia | auto | auto].
  - destruct (trailing_big N R g q r noR mem p max Hg HN HR HNR Hq Hlz ltac:(lia)) as (t & E & Hl & Ht).
    rewrite E by auto. cbn [bind].
    assert (Hleading : (N * (4 / g) <=? 2) = false). { apply Nat.leb_gt. rewrite HN. pose proof (sz_of_g g Hg) as E4. clear - E4 Hq. assert (4 <= g * q * (4 / g)); [|lia]. replace (g * q * (4 / g)) with (q * (4 / g * g)) by ring. rewrite E4. lia. }
    rewrite Hleading. destruct (cst && (Nat.min max N <? g)) eqn:Ec.
    + apply andb_prop in Ec as (_ & Ec). apply Nat.ltb_lt in Ec. exists (firstn N t). split; auto. apply to_loadnor; [auto | lia | auto |].
      intros i Hi. rewrite Ht; auto. { rewrite Hz by lia. auto. } assert (max < g) by (assert (g <= N) by nia; lia). lia.
    + destruct (widened_ok g r R max mem p Hg HR H) as (E2 & Hfl). rewrite E2. cbn [bind]. eexists; split; [reflexivity|]. set (v := map _ _).
      assert (Hv : length v = R) by (unfold v; rewrite map_length, seq_length; auto).
      assert (Hv2 : length (pick (widen g (first_n R max)) v noR) = R) by (rewrite len_pick; rewrite len_widen, len_first_n; lia).
      apply to_loadnor; [auto | rewrite len_pick; rewrite len_widen, len_first_n; lia | auto |].
      intros i Hi. rewrite !nth_pick by (rewrite len_widen, len_first_n; lia). rewrite Hfl by lia. unfold v. rewrite nth_mapseq by lia. pose proof (in_group g i Hg).
      destruct (Nat.ltb_spec (i / g * g + g - 1) max).
      * destruct (Nat.ltb_spec i max); [auto | lia].
      * rewrite Ht by auto. rewrite Hz by lia. auto.
Qed.

Lemma avx2_storen_ok : forall sz N R g v mem p max, avx2_shape sz N R g -> length v = N -> p + Nat.min max N <= length mem ->
  exists mem', avx2_storen zero J N R g v mem p max = Some mem' /\ is_storen N v mem p max mem'.
Proof.
  intros sz N R g v mem p max Hs Hv H. destruct (shape_facts _ _ _ _ Hs) as (Hg & HNR & HR8 & (r & HR) & Hcase). clear Hs. unfold avx2_storen.
  destruct Hcase as [-> | Hcase].
  { change (1 =? 1) with true. cbv iota. destruct max as [|max].
    - exists mem. split; auto. split; auto. intros j. cbn [Nat.min]. destruct (Nat.leb_spec p j); destruct (Nat.ltb_spec j (p + 0)); cbn [andb]; auto; lia.
    - change (0 <? S max) with true. cbv iota. rewrite Nat.min_r in H by lia. destruct (storeu_nth v mem p) as (mem' & E1 & E2 & E3); [lia|]. exists mem'. split; auto. split; auto. intros j. rewrite E3, Hv, Nat.min_r by lia. auto. }
  destruct (Nat.eqb_spec N 1); [destruct Hcase as [(_ & ? & _) | (q & ? & ?)]; destruct Hg; lia|].
  destruct (Nat.eqb_spec N 2) as [E|E].
  { rewrite E in *. clear Hcase. destruct v as [|v0 [|v1 [|]]]; simpl in Hv; try lia. cbn [nth]. destruct (Nat.leb_spec 1 max).
    - destruct (storeu_nth [v1] mem (p + (if 1 <? max then 1 else 0))) as (mem1 & E1 & E2 & E3). { cbn [length]. destruct (Nat.ltb_spec 1 max); lia. }
      rewrite E1. cbn [bind]. destruct (storeu_nth [v0] mem1 p) as (mem' & F1 & F2 & F3). { cbn [length]. lia. }
      exists mem'. split; auto. split; [lia|]. intros j. rewrite F3, E3. cbn [length]. clear - H0.
      destruct (Nat.leb_spec p j); cbn [andb].
      + destruct (Nat.ltb_spec j (p + 1)).
        * replace (j - p) with 0 by lia. destruct (Nat.ltb_spec j (p + Nat.min max 2)); auto; lia.
        * destruct (Nat.ltb_spec 1 max); destruct (Nat.leb_spec (p + 1) j); destruct (Nat.leb_spec (p + 0) j); destruct (Nat.ltb_spec j (p + 1 + 1)); destruct (Nat.ltb_spec j (p + 0 + 1)); destruct (Nat.ltb_spec j (p + Nat.min max 2)); cbn [andb]; auto; try lia.
          replace (j - (p + 1)) with 0 by lia. replace (j - p) with 1 by lia. auto.
      + destruct (Nat.ltb_spec 1 max); destruct (Nat.leb_spec (p + 1) j); destruct (Nat.leb_spec (p + 0) j); cbn [andb]; auto; try lia.
    - exists mem. split; auto. split; auto. intros j. replace max with 0 by lia. cbn [Nat.min]. destruct (Nat.leb_spec p j); destruct (Nat.ltb_spec j (p + 0)); cbn [andb]; auto; lia. }
  assert (Hq : exists q, N = g * q /\ 1 <= q) by (destruct Hcase as [(_ & ? & _) | ?]; [lia | auto]). clear Hcase. destruct Hq as (q & HN & Hq).
  remember (Nat.min max N) as num eqn:Hnum. assert (HnN : num <= N) by lia.
  set (vi := resize J 22 R v). assert (Hvi : length vi = R) by apply len_resize.
  assert (Hnvi : forall i, i < N -> nth_error vi i = nth_error v i).
  { intros i Hi. rewrite (nth_error_nth' vi zero), (nth_error_nth' v zero) by lia. f_equal. apply nth_resize; lia. }
  assert (Hfw : forall i, i < R -> flag (widen g (first_n R num)) i = (i / g * g + g - 1 <? num)).
  { intros i Hi. rewrite flag_widen by (rewrite len_first_n; auto). rewrite flag_first_n. assert ((i / g * g + g - 1 <? R) = true) as ->; auto. apply Nat.ltb_lt. destruct Hg as [-> | ->]; clear - HR Hi; lia. }
  destruct (blended_ok (widen g (first_n R num)) vi mem p) as (mem1 & E1 & E2 & E3).
  { intros i Hf Hi. rewrite Hvi in Hi. rewrite Hfw in Hf by auto. apply Nat.ltb_lt in Hf. pose proof (in_group g i Hg). lia. }
  rewrite E1. cbn [bind].
  assert (E3' : forall j, nth_error mem1 j = if (p <=? j) && (j <? p + num / g * g) then nth_error v (j - p) else nth_error mem j).
  { intros j. rewrite E3, Hvi. destruct (Nat.leb_spec p j); cbn [andb]; auto. destruct (Nat.ltb_spec (j - p) R).
    - rewrite Hfw by auto. rewrite andb_true_r. assert (Hx : ((j - p) / g * g + g - 1 <? num) = (j <? p + num / g * g)).
      { destruct (Nat.ltb_spec ((j - p) / g * g + g - 1) num); destruct (Nat.ltb_spec j (p + num / g * g)); auto; exfalso; destruct Hg as [-> | ->]; clear - H0 H2 H3; lia. }
      rewrite Hx. destruct (Nat.ltb_spec j (p + num / g * g)); auto. apply Hnvi. clear - H0 H2 HnN Hg. destruct Hg as [-> | ->]; lia.
    - rewrite andb_false_r. destruct (Nat.ltb_spec j (p + num / g * g)); auto. exfalso. clear - H0 H1 H2 HnN HNR Hg. destruct Hg as [-> | ->]; lia. }
  clear E1 E3. 
  set (t := zext zero R (skipn (num / g * g) vi)). assert (Ht : forall k, num / g * g + k < N -> k < R -> nth k t zero = v @ (num / g * g + k)).
  { intros k Hk Hk2. unfold t. rewrite nth_zext by auto. rewrite skipn_length, Hvi, nth_skipn'. destruct (Nat.ltb_spec k (R - num / g * g)); [|lia]. apply nth_resize; lia. }
  assert (Hlt : length t = R) by (unfold t; rewrite len_zext; auto; rewrite skipn_length; lia).
  assert (Hsz : land num (g - 1) = num mod g) by (destruct Hg as [-> | ->]; [apply land1 | apply land3]). rewrite Hsz.
  assert (Hnth : forall i, i < N -> nth_error v i = Some (v @ i)) by (intros; apply nth_error_nth'; lia).
  assert (Hmid : (g =? 4) = true /\ g = 4 \/ (g =? 4) = false /\ g = 2) by (destruct Hg as [-> | ->]; auto).
  destruct (Nat.eqb_spec (num mod g) 0) as [Em|Em].
  { exists mem1. split; auto. split; auto. intros j. rewrite <- Hnum, E3'. assert (num / g * g = num) as -> by (clear - Em Hg; destruct Hg as [-> | ->]; lia). auto. }
  (* a single trailing lane *)
  assert (Hone : num mod g = 1 -> exists mem', storeu mem1 (p + num - 1) [t @ 0] = Some mem' /\ length mem' = length mem /\
     forall j, nth_error mem' j = if (p <=? j) && (j <? p + num) then nth_error v (j - p) else nth_error mem j).
  { intros E0. destruct (storeu_nth [t @ 0] mem1 (p + num - 1)) as (mem' & F1 & F2 & F3). { cbn [length]. clear - E0 E2 H. assert (1 <= num) by (destruct num; [destruct g; simpl in E0; try discriminate; rewrite Nat.sub_diag in E0; discriminate | lia]). lia. }
    exists mem'. split; auto. split; [lia|]. intros j. rewrite F3, E3'. cbn [length]. assert (Hng : num / g * g = num - 1 /\ 1 <= num) by (clear - E0 Hg; destruct Hg as [-> | ->]; lia). destruct Hng as (Hng & Hn1).
    rewrite Ht by lia. rewrite Hng. destruct (Nat.leb_spec (p + num - 1) j); cbn [andb].
    - destruct (Nat.ltb_spec j (p + num - 1 + 1)); destruct (Nat.leb_spec p j); destruct (Nat.ltb_spec j (p + num)); destruct (Nat.ltb_spec j (p + (num - 1))); cbn [andb]; auto; try lia.
      replace (j - (p + num - 1)) with 0 by lia. cbn [nth_error]. rewrite Hnth by lia. do 2 f_equal. lia.
    - destruct (Nat.leb_spec p j); destruct (Nat.ltb_spec j (p + num)); destruct (Nat.ltb_spec j (p + (num - 1))); cbn [andb]; auto; try lia. }
  destruct Hmid as [(-> & ->) | (-> & ->)].
  - assert (Hland : negb (land num 2 =? 0) = (2 <=? num mod 4)).
    { assert (Hl2 : land num 2 = land (num mod 4) 2). { rewrite <- land3. unfold land. rewrite <- Nat.land_assoc. reflexivity. } rewrite Hl2. assert (Hc : num mod 4 = 1 \/ num mod 4 = 2 \/ num mod 4 = 3) by (clear - Em; lia). destruct Hc as [-> | [-> | ->]]; reflexivity. }
    rewrite Hland. destruct (Nat.leb_spec 2 (num mod 4)) as [H2|H2].
    + destruct (storeu_nth [t @ 2] mem1 (p + num - 1)) as (mem2 & F1 & F2 & F3). { cbn [length]. clear - H2 E2 H. lia. }
      rewrite F1. cbn [bind]. assert (Hf2 : length (firstn 2 t) = 2) by (rewrite firstn_length; lia).
      destruct (storeu_nth (firstn 2 t) mem2 (p + num / 4 * 4)) as (mem3 & G1 & G2 & G3). { rewrite Hf2. clear - H2 E2 F2 H. lia. }
      exists mem3. split; auto. split; [lia|]. intros j. rewrite <- Hnum. clear Hnum. rewrite G3, F3, E3'. cbn [length]. rewrite Hf2.
      assert (Hb : exists b c, num / 4 * 4 = b /\ num = b + c /\ (c = 2 \/ c = 3)) by (exists (num / 4 * 4), (num mod 4); clear - H2; lia). destruct Hb as (b & c & Eb & Hb & Hc).
      rewrite Eb in *. clear Eb. rewrite Hb in *. clear Hb.
      clear - Ht Hnth Hc Hf2 Hlt HnN HR8.
      destruct (Nat.leb_spec (p + b) j); cbn [andb].
      * destruct (Nat.ltb_spec j (p + b + 2)); cbn [andb].
        { destruct (Nat.leb_spec p j); [|lia]. destruct (Nat.ltb_spec j (p + (b + c))); [|lia]. cbn [andb].
          rewrite (nth_error_nth' _ zero) by lia. rewrite nth_firstn' by lia. rewrite Ht by lia. rewrite Hnth by lia. do 2 f_equal. lia. }
        { destruct (Nat.leb_spec p j); [|lia]. destruct (Nat.leb_spec (p + (b + c) - 1) j); destruct (Nat.ltb_spec j (p + (b + c) - 1 + 1)); destruct (Nat.ltb_spec j (p + (b + c))); destruct (Nat.ltb_spec j (p + b)); cbn [andb]; auto; try lia.
          replace (j - (p + (b + c) - 1)) with 0 by lia. cbn [nth_error]. rewrite Ht by lia. rewrite Hnth by lia. do 2 f_equal. lia. }
      * destruct (Nat.leb_spec (p + (b + c) - 1) j); [lia|]. destruct (Nat.ltb_spec j (p + (b + c))); [|lia]. destruct (Nat.ltb_spec j (p + b)); [|lia]. cbn [andb]. auto.
    + destruct Hone as (mem' & F1 & F2 & F3); [clear - Em H2; lia|]. exists mem'. split; auto. split; auto. intros j. rewrite <- Hnum. auto.
  - destruct Hone as (mem' & F1 & F2 & F3); [clear - Em; lia|]. exists mem'. split; auto. split; auto. intros j. rewrite <- Hnum. auto.
Qed.
End P.
