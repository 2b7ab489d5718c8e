From Coq Require Import ZArith List Lia Bool Permutation.
From Verif Require Import Word Word_Proofs Vec_Model Vec_Proofs Sort_Spec Heap_Model Heap_Proofs Properties_Heap Partition_Model BaseCase_Model BaseCase_Proofs Recurse_Model Recurse_Spec Recurse_Proofs Traits_Model Traits_Proofs VQSort_Model VQSort_Spec.
Import ListNotations.
Local Open Scope Z_scope.

Lemma key_traits_ok t desc via : key_ok t -> traits_ok (key_traits t desc via).
Proof.
  destruct t as [signed w| | | |e p]; intros Hk; cbn [key_traits].
  - apply int_traits_ok.
  - apply kv64_traits_ok.
  - apply u128_traits_ok.
  - apply kv128_traits_ok.
  - apply float_traits_ok. cbn in Hk. destruct Hk as [E|[E|E]]; injection E as -> ->; vm_compute; discriminate.
Qed.
Lemma key_traits_lt t desc via a b : t_lt (key_traits t desc via) a b = before t desc a b.
Proof.
  unfold before. destruct t as [signed w| | | |e p]; cbn [key_traits t_lt int_traits kv64_traits u128_traits kv128_traits float_traits value].
  - unfold v_lt, ord, ival. destruct desc; [|reflexivity]. apply eq_true_iff_eq. rewrite !Z.ltb_lt. lia.
  - unfold v_lt, ord, key64. rewrite !shiftr_div by lia. destruct desc; [|reflexivity]. apply eq_true_iff_eq. rewrite !Z.ltb_lt. lia.
  - unfold flip. rewrite !lt128_bits. reflexivity.
  - unfold flip, lt128_upper, hi128. rewrite !shiftr_div by lia. reflexivity.
  - unfold v_lt, ord, fv, fval. change (2 ^ (Zpos e + Zpos p)) with (fsign e p). destruct a as [a Ha], b as [b Hb]. cbn [proj1_sig].
    apply eq_true_iff_eq. destruct desc; rewrite !Z.ltb_lt; destruct (Z.ltb_spec a (fsign e p)), (Z.ltb_spec b (fsign e p)); lia.
Qed.
Lemma sorted_ext {K} (f g : K -> K -> bool) l : (forall a b, f a b = g a b) -> sorted f l -> sorted g l.
Proof. intros E S i j x y Hij Hx Hy. rewrite <- E. eapply S; eauto. Qed.
Lemma selected_ext {K} (f g : K -> K -> bool) l k : (forall a b, f a b = g a b) -> selected f l k -> selected g l k.
Proof. intros E S x Hx. destruct (S x Hx) as [A B]. split; intros i y Hi Hy; rewrite <- E; eauto. Qed.
Lemma psorted_ext {K} (f g : K -> K -> bool) l k : (forall a b, f a b = g a b) -> partially_sorted f l k -> partially_sorted g l k.
Proof. intros E [A B]. split; [eapply sorted_ext; eauto|]. intros i j x y Hij Hx Hy. rewrite <- E. eapply B; eauto. Qed.

Lemma key_size_cases t : key_ok t -> (key_size t = 2 /\ lanes_per_key t = 1) \/ (key_size t = 4 /\ lanes_per_key t = 1) \/ (key_size t = 8 /\ lanes_per_key t = 1) \/ (key_size t = 16 /\ lanes_per_key t = 2).
Proof.
  destruct t as [signed w| | | |e p]; cbn [key_ok key_size]; intros Hk; try (right; right; left; split; reflexivity); try (right; right; right; split; reflexivity).
  - destruct Hk as [->|[->| ->]]; [left|right; left|right; right; left]; split; reflexivity.
  - destruct Hk as [E|[E|E]]; injection E as -> ->; [left|right; left|right; right; left]; split; reflexivity.
Qed.
Lemma bcn_mono b lpk N M : lpk = 1 \/ lpk = 2 -> 0 <= N <= M -> base_case_num b lpk N <= base_case_num b lpk M.
Proof.
  intros Hl H. unfold base_case_num. apply Z.div_le_mono; [lia|]. apply Z.mul_le_mono_nonneg.
  - destruct (4 <=? N); lia.
  - destruct (Z.leb_spec 4 N), (Z.leb_spec 4 M); lia.
  - unfold kMaxCols. destruct b; apply Z.min_glb; nia.
  - apply Z.min_le_compat_r. nia.
Qed.
(** the constants fit the hypotheses of the recursion *)
Lemma consts c t : key_ok t -> target_ok c t -> enabled c = true ->
  exists n m, 0 <= n /\ n <= m < 32 /\ vec_keys c t = 2 ^ n /\ chunk_keys t = 2 ^ m /\ vec_keys c t <= max_vec_keys c t /\ (lanes_per_key t = 1 \/ lanes_per_key t = 2) /\
    nsamples (chunk_keys t) <= base_num (vec_keys c t) (lanes_per_key t) (big c) /\ 2 * vec_keys c t <= base_num (vec_keys c t) (lanes_per_key t) (big c) /\
    nsamples (chunk_keys t) + base_num (vec_keys c t) (lanes_per_key t) (big c) + vec_keys c t <= buf_keys c t /\ 26 * vec_keys c t <= buf_keys c t.
Proof.
  intros Hk ((v & Hv & Ev) & Hm & He & _) En. specialize (He En).
  assert (Hv4 : 4 <= v). { destruct (Z.lt_ge_cases v 4); [|assumption]. assert (2 ^ v <= 2 ^ 3) by (apply Z.pow_le_mono_r; lia). lia. }
  assert (Hmin : (Z.min (vec_bytes c) 64 = 16 \/ Z.min (vec_bytes c) 64 = 32 \/ Z.min (vec_bytes c) 64 = 64)).
  { rewrite Ev. destruct (Z.eq_dec v 4) as [->|]; [left; reflexivity|]. destruct (Z.eq_dec v 5) as [->|]; [right; left; reflexivity|].
    right; right. assert (2 ^ 6 <= 2 ^ v) by (apply Z.pow_le_mono_r; lia). lia. }
  assert (HN0 : vec_keys c t <= max_bytes c / key_size t) by (unfold vec_keys; pose proof (key_size_cases t Hk); apply Z.div_le_mono; lia).
  assert (HN1 : vec_keys c t <= max_vec_keys c t).
  { unfold vec_keys, max_vec_keys. pose proof (key_size_cases t Hk). apply Z.div_le_mono; [lia|]. destruct (Z.ltb_spec 64 (vec_bytes c)); lia. }
  assert (Hl : lanes_per_key t = 1 \/ lanes_per_key t = 2) by (pose proof (key_size_cases t Hk); lia).
  assert (HNpos : 0 <= vec_keys c t) by (unfold vec_keys; pose proof (key_size_cases t Hk); apply Z.div_pos; lia).
  pose proof (bcn_mono (big c) (lanes_per_key t) _ _ Hl (conj HNpos HN0)) as HB.
  assert (HX : nsamples (chunk_keys t) + base_num (vec_keys c t) (lanes_per_key t) (big c) + vec_keys c t <= buf_keys c t /\ 26 * vec_keys c t <= buf_keys c t).
  { unfold buf_keys, buf_num, base_num, nsamples. lia. }
  enough (HY : exists n m, 0 <= n /\ n <= m < 32 /\ vec_keys c t = 2 ^ n /\ chunk_keys t = 2 ^ m /\ nsamples (chunk_keys t) <= base_num (vec_keys c t) (lanes_per_key t) (big c) /\ 2 * vec_keys c t <= base_num (vec_keys c t) (lanes_per_key t) (big c)).
  { destruct HY as (n & m & A & B & C & D & E & F). exists n, m. tauto. }
  clear HX HB HN0 HN1 HNpos. unfold vec_keys, chunk_keys, base_num.
  destruct (key_size_cases t Hk) as [[-> ->]|[[-> ->]|[[-> ->]|[-> ->]]]]; destruct Hmin as [->|[->| ->]]; destruct (big c);
  match goal with |- context [?a / ?b = 2 ^ _ /\ 64 / ?b = 2 ^ _ /\ _] => exists (Z.log2 (a / b)), (Z.log2 (64 / b)) end;
  vm_compute; repeat split; discriminate.
Qed.

Lemma recurse_nil {K} (T : traits K) N maxN kC lpk bg ft isf debug zero tail upper part levels mode addr buf s k : 0 <= base_num N lpk bg ->
  recurse T N maxN kC lpk bg ft isf debug zero tail upper part levels mode addr [] buf s k = if debug then None else Some ([], buf, s).
Proof.
  intros H. assert (E : (zlen (@nil K) <=? base_num N lpk bg) = true) by (apply Z.leb_le; exact H).
  destruct levels; cbn [recurse]; rewrite E; destruct debug; reflexivity.
Qed.

Section Body.
Variables (c : target) (t : ktype) (desc via : bool) (tail upper : list (key t) -> list bool -> list (key t)).
Hypothesis HK : key_ok t.
Hypothesis HC : target_ok c t.
Hypothesis HP : compress_ok (vec_keys c t) tail upper.
Notation T := (key_traits t desc via).
Notation lt := (t_lt T).
Let TOK : traits_ok T := key_traits_ok t desc via HK.

Lemma rng_words_ok s : rng_words s <-> rng_ok s.
Proof. destruct s as [[a b] d]. reflexivity. Qed.

Lemma Hlpk : lanes_per_key t = 1 \/ lanes_per_key t = 2.
Proof. pose proof (key_size_cases t HK). lia. Qed.
Lemma heap_fits (keys : list (key t)) : zlen keys < 2 ^ 60 -> lanes_per_key t * (zlen keys + 1) < 2 ^ 62.
Proof. pose proof Hlpk. nia. Qed.

Notation hsc keys buf := (handle_special_cases T (vec_keys c t) (max_vec_keys c t) (lanes_per_key t) (big c) (fault c) (pot_huge c t) keys buf).
Notation rec mode addr keys buf s k := (recurse T (vec_keys c t) (max_vec_keys c t) (chunk_keys t) (lanes_per_key t) (big c) (fault c) (is_float t) (debug c) (key_zero t) tail upper (part c) max_levels mode addr keys buf s k).
Lemma hsc_ok keys buf : enabled c = true -> zlen buf = buf_keys c t ->
  (exists keys' buf', hsc keys buf = Some (Some (keys', buf')) /\ Permutation keys keys' /\ sorted lt keys') \/
  (hsc keys buf = Some None /\ base_num (vec_keys c t) (lanes_per_key t) (big c) < zlen keys /\ 8 <= base_num (vec_keys c t) (lanes_per_key t) (big c)).
Proof.
  intros En HB. destruct (consts c t HK HC En) as (n & m & A1 & A2 & A3 & A4 & A5 & A6 & A7 & A8 & A9 & A10).
  unfold handle_special_cases. destruct (Z.leb_spec (zlen keys) (base_num (vec_keys c t) (lanes_per_key t) (big c))) as [L|L].
  - left. destruct (base_ok T TOK (vec_keys c t) (max_vec_keys c t) (lanes_per_key t) (big c) (fault c) n m) with (keys := keys) (buf := buf) as (k' & b' & E & _ & P & S); auto.
    { pose proof (zlen_nonneg keys). unfold nsamples in *. assert (0 <= chunk_keys t) by (rewrite A4; apply Z.pow_nonneg; lia). lia. }
    exists k', b'. rewrite E. auto.
  - right. destruct (Z.ltb_spec (base_num (vec_keys c t) (lanes_per_key t) (big c)) (2 * vec_keys c t)); [lia|]. rewrite andb_false_r.
    split; [reflexivity|]. split; [exact L|].
    destruct (bcn_cases (big c) (lanes_per_key t) (vec_keys c t) n A3 A1 A6) as [[_ E]|[[_ E]|[[_ E]|[[_ [E|E]]|[_ [E|[E|[_ E]]]]]]]]; unfold base_num; lia.
Qed.
Lemma rec_ok mode addr keys buf s k : enabled c = true -> zlen buf = buf_keys c t -> 0 <= addr -> 1 <= zlen keys < 2 ^ 60 -> rng_ok s -> 0 <= k <= zlen keys ->
  exists keys' buf' s', rec mode addr keys buf s k = Some (keys', buf', s') /\ Permutation keys keys' /\ zlen buf' = buf_keys c t /\ rng_ok s' /\ done T mode k keys'.
Proof.
  intros En HB Ha Hk Hs Hkk. destruct (consts c t HK HC En) as (n & m & A1 & A2 & A3 & A4 & A5 & A6 & A7 & A8 & A9 & A10). destruct HP as [P1 P2].
  destruct (recurse_ok T TOK (vec_keys c t) (max_vec_keys c t) (chunk_keys t) (lanes_per_key t) (big c) (fault c) (is_float t) (debug c) (key_zero t) tail upper (part c) n m A1 A2 A3 A4 A5 A6 A7 A8 P1 P2 max_levels mode addr keys buf s k) as (k' & b' & s' & E & P & LB & R & D); try lia; auto.
  exists k', b', s'. split; [exact E|]. split; [exact P|]. split; [lia|]. split; [exact R|exact D].
Qed.

Lemma sort_ok addr keys buf s : enabled c = true \/ keys <> [] -> zlen buf = buf_keys c t -> 0 <= addr -> zlen keys < 2 ^ 60 -> rng_ok s ->
  exists keys' s', vq_sort c t desc via tail upper addr keys buf s = Some (keys', s') /\ Permutation keys keys' /\ sorted lt keys'.
Proof.
  intros En HB Ha Hk Hs. unfold vq_sort, sort_body. destruct (enabled c) eqn:E.
  - destruct (hsc_ok keys buf E HB) as [(k' & b' & EH & P & S)|(EH & L & L8)]; rewrite EH; [eauto|].
    destruct (rec_ok kSort addr keys buf s 0 E HB Ha ltac:(lia) Hs ltac:(lia)) as (k' & b' & s' & ER & P & _ & _ & D). rewrite ER. exists k', s'. auto.
  - destruct En as [|Hne]; [discriminate|]. assert (1 <= zlen keys) by (destruct keys; [congruence|unfold zlen; cbn [length]; lia]).
    destruct (heap_ok T TOK (lanes_per_key t) 0 0 ltac:(lia) Hlpk keys ltac:(lia)) as (k' & EH & P & S).
    rewrite EH. exists k', s. auto.
Qed.
Lemma select_ok addr keys buf s k : zlen buf = buf_keys c t -> 0 <= addr -> zlen keys < 2 ^ 60 -> rng_ok s -> 0 <= k < zlen keys ->
  exists keys' s', vq_select c t desc via tail upper addr keys buf s k = Some (keys', s') /\ Permutation keys keys' /\ selected lt keys' (Z.to_nat k).
Proof.
  intros HB Ha Hk Hs Hkk. unfold vq_select, select_body, dassert. destruct (Z.ltb_spec k (zlen keys)); [|lia]. rewrite andb_false_r. destruct (enabled c) eqn:E.
  - destruct (hsc_ok keys buf E HB) as [(k' & b' & EH & P & S)|(EH & L & L8)]; rewrite EH.
    { exists k', s. split; [reflexivity|]. split; [exact P|]. now apply sorted_selected. }
    destruct (rec_ok kSelect addr keys buf s k E HB Ha ltac:(lia) Hs ltac:(lia)) as (k' & b' & s' & ER & P & _ & _ & D). rewrite ER. exists k', s'. split; [reflexivity|]. split; [exact P|].
    apply D. unfold zlen. rewrite <- (Permutation_length P). fold (zlen keys). lia.
  - destruct keys as [|dk tl] eqn:EK; [cbn in Hkk; lia|]. rewrite <- EK in *. clear EK tl.
    destruct (heap_select_ok dk lt (lanes_per_key t) (tok_sw _ TOK) ltac:(pose proof Hlpk; lia) (zlen keys) k (Z.to_nat (2 * zlen keys + 3)) keys) as (l' & EH & L & P & S1 & S2 & _); [lia|lia|apply heap_fits; lia|lia|].
    rewrite EH. exists l', s. split; [reflexivity|]. split; [exact P|]. intros x Hx. destruct (g_nth dk l' _ x Hx) as (<- & HI).
    split; intros i y Hi Hy; destruct (g_nth dk l' i y Hy) as (<- & HJ); rewrite Z2Nat.id by lia; [apply S1; lia|apply S2; lia].
Qed.
Lemma partially_sorted_glue (l lhs : list (key t)) k : (k <= length l)%nat -> ((k < length l)%nat -> selected lt l k) -> Permutation (firstn k l) lhs -> sorted lt lhs -> partially_sorted lt (lhs ++ skipn k l) k.
Proof.
  intros Hk HS P S. assert (LL : length lhs = k) by (rewrite <- (Permutation_length P), firstn_length; lia). split.
  - rewrite firstn_app, LL, Nat.sub_diag, firstn_O, app_nil_r, firstn_all2 by lia. exact S.
  - intros i j x y [Hi Hj] Hx Hy. rewrite nth_error_app1 in Hx by lia. rewrite nth_error_app2 in Hy by lia. rewrite LL, skipn_nth in Hy. replace (k + (j - k))%nat with j in Hy by lia.
    assert (Hjl : (j < length l)%nat) by (apply nth_error_Some; congruence). specialize (HS ltac:(lia)).
    apply nth_error_In in Hx. apply (Permutation_in _ (Permutation_sym P)) in Hx. apply In_nth_error in Hx. destruct Hx as [i' Hx].
    assert (Hi' : (i' < length (firstn k l))%nat) by (apply nth_error_Some; congruence). rewrite firstn_length in Hi'. rewrite nth_error_firstn in Hx by lia.
    destruct (nth_error l k) as [z|] eqn:EZ; [|apply nth_error_None in EZ; lia]. destruct (HS z EZ) as [A B].
    destruct (tok_sw _ TOK) as (Irr & _ & NT). apply (NT _ z); [|apply (A i'); [lia|exact Hx]].
    destruct (Nat.eq_dec j k) as [->|]; [|apply (B j); [lia|exact Hy]]. replace y with z by congruence. apply Irr.
Qed.
Lemma partial_sort_ok addr keys buf s k : zlen buf = buf_keys c t -> 0 <= addr -> zlen keys < 2 ^ 60 -> rng_ok s ->
  (enabled c = true /\ 0 <= k <= zlen keys /\ (debug c = true -> 1 <= k)) \/ 1 <= k < zlen keys ->
  exists keys' s', vq_partial_sort c t desc via tail upper addr keys buf s k = Some (keys', s') /\ Permutation keys keys' /\ partially_sorted lt keys' (Z.to_nat k).
Proof.
  intros HB Ha Hk Hs Hkk. unfold vq_partial_sort, partial_sort_body, dassert. destruct (Z.leb_spec k (zlen keys)); [|lia]. rewrite andb_false_r. destruct (enabled c) eqn:E.
  - assert (Hk' : 0 <= k <= zlen keys /\ (debug c = true -> 1 <= k)) by (destruct Hkk as [|]; tauto || (split; [lia|intros; lia])). clear Hkk. destruct Hk' as [Hk1 Hk2].
    destruct (hsc_ok keys buf E HB) as [(k' & b' & EH & P & S)|(EH & L & L8)]; rewrite EH.
    { exists k', s. split; [reflexivity|]. split; [exact P|]. split.
      - intros i j x y Hij Hx Hy. assert (j < length (firstn (Z.to_nat k) k'))%nat by (apply nth_error_Some; congruence). rewrite firstn_length in *.
        rewrite nth_error_firstn in Hx, Hy by lia. exact (S i j x y Hij Hx Hy).
      - intros i j x y Hij Hx Hy. apply (S i j); auto. lia. }
    destruct (rec_ok kSelect addr keys buf s k E HB Ha ltac:(lia) Hs ltac:(lia)) as (k' & b' & s' & ER & P & LB & R & D). rewrite ER.
    assert (LK : zlen k' = zlen keys) by (unfold zlen; now rewrite (Permutation_length P)).
    destruct (Z.eq_dec k 0) as [->|NZ].
    + assert (Ed : debug c = false) by (destruct (debug c); [lia|reflexivity]). cbn [Z.to_nat firstn].
      assert (E0 : rec kSort addr [] b' s' 0 = Some ([], b', s')).
      { rewrite recurse_nil by lia. now rewrite Ed. }
      rewrite E0. exists k', s'. cbn [app skipn]. split; [reflexivity|]. split; [exact P|]. split.
      * intros i j x y _ Hx _. cbn [firstn] in Hx. destruct i; discriminate.
      * intros i j x y Hij. lia.
    + assert (LF : zlen (firstn (Z.to_nat k) k') = k) by (apply zlen_firstn; lia).
      destruct (rec_ok kSort addr (firstn (Z.to_nat k) k') b' s' 0 E LB Ha ltac:(lia) R ltac:(lia)) as (lhs & b2 & s2 & ER2 & P2 & _ & _ & D2). rewrite ER2.
      exists (lhs ++ skipn (Z.to_nat k) k'), s2. split; [reflexivity|]. split.
      * rewrite P. rewrite <- P2. now rewrite firstn_skipn.
      * apply partially_sorted_glue; auto; [unfold zlen in *; lia|]. intros Hlt. apply D. unfold zlen. lia.
  - assert (Hk' : 1 <= k < zlen keys) by (destruct Hkk as [(X & _)|]; [discriminate|lia]). clear Hkk.
    destruct keys as [|dk tl] eqn:EK; [cbn in Hk'; lia|]. rewrite <- EK in *. clear EK tl.
    set (fuel := Z.to_nat (2 * zlen keys + 3)). pose proof Hlpk as HL. pose proof (heap_fits keys ltac:(lia)) as HF.
    destruct (heap_select_ok dk lt (lanes_per_key t) (tok_sw _ TOK) ltac:(lia) (zlen keys) k fuel keys) as (l' & EH & L & P & S1 & S2 & _); [lia|lia|exact HF|unfold fuel; lia|].
    destruct (heap_sort_ok dk lt (lanes_per_key t) (tok_sw _ TOK) ltac:(lia) k fuel l') as (l2 & E2 & L2 & P2 & S3 & U2); [lia|nia|unfold fuel; lia|].
    unfold heap_partial_sort. rewrite EH, E2. exists l2, s. split; [reflexivity|]. split; [eapply Permutation_trans; eassumption|].
    assert (LL : zlen l' = zlen keys) by (unfold zlen; now rewrite (Permutation_length P)).
    assert (LL2 : zlen l2 = zlen keys) by (unfold zlen; now rewrite <- (Permutation_length P2), (Permutation_length P)).
    split.
    + intros i j x y Hij Hi Hj. assert (j < length (firstn (Z.to_nat k) l2))%nat by (apply nth_error_Some; congruence). rewrite firstn_length in *.
      rewrite nth_error_firstn in Hi, Hj by lia. destruct (g_nth dk l2 i x Hi) as (<- & HI). destruct (g_nth dk l2 j y Hj) as (<- & HJ). apply S3; lia.
    + intros i j x y Hij Hi Hj. destruct (g_nth dk l2 i x Hi) as (<- & HI). destruct (g_nth dk l2 j y Hj) as (<- & HJ).
      rewrite (U2 (Z.of_nat j)) by lia.
      assert (X : forall a, 0 <= a < k -> a < zlen l' -> lt (g dk l' (Z.of_nat j)) (g dk l2 a) = false); [|apply X; lia].
      apply (perm_prefix dk l' l2 k (fun v => lt (g dk l' (Z.of_nat j)) v = false)); [exact P2|lia|intros b Hb; apply U2; lia|].
      intros a Ha' _. destruct (tok_sw _ TOK) as (Irr & _ & NT). apply (NT _ (g dk l' k)); [|apply S1; lia].
      destruct (Z.eq_dec (Z.of_nat j) k) as [->|]; [apply Irr|apply S2; lia].
Qed.
(** k = 0 with assertions enabled *)
Lemma partial_sort_k0_aborts addr keys buf s : enabled c = true -> debug c = true -> zlen buf = buf_keys c t -> 0 <= addr -> rng_ok s ->
  base_num (vec_keys c t) (lanes_per_key t) (big c) < zlen keys < 2 ^ 60 -> vq_partial_sort c t desc via tail upper addr keys buf s 0 = None.
Proof.
  intros E Ed HB Ha Hs HL. unfold vq_partial_sort, partial_sort_body, dassert. pose proof (zlen_nonneg keys). destruct (Z.leb_spec 0 (zlen keys)); [|lia]. rewrite andb_false_r, E.
  unfold handle_special_cases. destruct (Z.leb_spec (zlen keys) (base_num (vec_keys c t) (lanes_per_key t) (big c))); [lia|].
  destruct (hsc_ok [] buf E HB) as [_|(_ & X & Y)]; [|change (zlen (@nil (key t))) with 0 in X; lia].
  destruct (consts c t HK HC E) as (n & m & A1 & A2 & A3 & A4 & A5 & A6 & A7 & A8 & A9 & A10).
  destruct (Z.ltb_spec (base_num (vec_keys c t) (lanes_per_key t) (big c)) (2 * vec_keys c t)); [lia|]. rewrite andb_false_r.
  destruct (rec_ok kSelect addr keys buf s 0 E HB Ha) as (k' & b' & s' & ER & P & LB & R & D); [|exact Hs|lia|].
  { assert (1 <= vec_keys c t) by (rewrite A3; pose proof (Z.pow_pos_nonneg 2 n ltac:(lia) A1); lia). lia. }
  rewrite ER. cbn [Z.to_nat firstn]. rewrite recurse_nil, Ed; [reflexivity|]. assert (0 <= vec_keys c t) by (rewrite A3; apply Z.pow_nonneg; lia). lia.
Qed.
End Body.
