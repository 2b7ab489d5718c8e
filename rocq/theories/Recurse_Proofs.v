From Coq Require Import ZArith List Lia Bool Permutation.
From Verif Require Import Word Word_Proofs Vec_Model Vec_Proofs Sort_Spec Heap_Model Heap_Proofs Partition_Model Partition_Proofs TwoValue_Model TwoValue_Proofs Properties_TwoValue Properties_Heap BaseCase_Model BaseCase_Proofs Recurse_Model Recurse_Spec.
Import ListNotations.
Local Open Scope Z_scope.

Lemma lxor_range w x y : 0 <= w -> 0 <= x < 2 ^ w -> 0 <= y < 2 ^ w -> 0 <= Z.lxor x y < 2 ^ w.
Proof.
  intros Hw Hx Hy. assert (0 <= Z.lxor x y) by (apply Z.lxor_nonneg; lia). split; [assumption|].
  destruct (Z.eq_dec (Z.lxor x y) 0) as [->|NZ]; [apply pow2_gt0; lia|].
  apply Z.log2_lt_pow2; [lia|]. pose proof (Z.log2_lxor x y ltac:(lia) ltac:(lia)).
  destruct (Z.eq_dec w 0) as [->|]; [|].
  { assert (x = 0) by lia. assert (y = 0) by lia. subst. now rewrite Z.lxor_0_l in NZ. }
  assert (L : forall z, 0 <= z < 2 ^ w -> Z.log2 z < w). { intros z Hz. destruct (Z.eq_dec z 0) as [->|]; [cbn; lia|]. apply Z.log2_lt_pow2; lia. }
  pose proof (L x Hx). pose proof (L y Hy). lia.
Qed.

Definition rng_ok (s : rng) : Prop := let '(a, b, c) := s in 0 <= a < 2 ^ 64 /\ 0 <= b < 2 ^ 64 /\ 0 <= c < 2 ^ 64.
Lemma random_bits_ok s : rng_ok s -> 0 <= fst (random_bits s) < 2 ^ 64 /\ rng_ok (snd (random_bits s)).
Proof.
  destruct s as [[a b] c]. intros (Ha & Hb & Hc). cbn [random_bits fst snd rng_ok].
  assert (HW : forall x, 0 <= wrap 64 x < 2 ^ 64) by (intros; apply wrap_range; lia).
  split; [apply lxor_range; auto; lia|]. split; [|split; apply HW]. apply lxor_range; [lia|apply HW|].
  rewrite Z.shiftr_div_pow2 by lia. split; [apply Z.div_pos; lia|]. apply Z.div_lt_upper_bound; nia.
Qed.
Lemma rci_ok n b : 1 <= n <= 0xFFFFFFFF -> 0 <= b < 2 ^ 32 -> 0 <= random_chunk_index n b < n.
Proof.
  intros Hn Hb. unfold random_chunk_index. rewrite wrap_small by nia. rewrite Z.shiftr_div_pow2 by lia.
  split; [apply Z.div_pos; nia|]. apply Z.div_lt_upper_bound; [lia|]. nia.
Qed.

Section Lists.
Context {A : Type}.
Lemma loadu_incl (l : list A) off n : 0 <= off -> 0 <= n -> off + n <= zlen l -> exists v, loadu l off n = Some v /\ zlen v = n /\ incl v l /\ forall j, (j < length v)%nat -> nth_error v j = nth_error l (Z.to_nat off + j).
Proof.
  intros H1 H2 H3. rewrite loadu_ok by lia. eexists. split; [reflexivity|]. split; [|split].
  - rewrite zlen_firstn; [reflexivity|]. rewrite zlen_skipn by lia. lia.
  - intros x Hx. rewrite <- (firstn_skipn (Z.to_nat off) l). apply in_or_app. right. rewrite <- (firstn_skipn (Z.to_nat n) (skipn (Z.to_nat off) l)). apply in_or_app. now left.
  - intros j Hj. rewrite firstn_length in Hj. rewrite nth_error_firstn by lia. 
    clear. revert j. generalize (Z.to_nat off). intros o. revert l. induction o as [|o IH]; intros [|x l] j; try reflexivity; cbn [skipn]; [destruct j; reflexivity|]. now rewrite IH.
Qed.
Lemma storeu_nth (l : list A) off v : 0 <= off -> off + zlen v <= zlen l -> exists l', storeu l off v = Some l' /\ zlen l' = zlen l /\
  forall j, nth_error l' j = if (Z.to_nat off <=? j)%nat && (j <? Z.to_nat off + length v)%nat then nth_error v (j - Z.to_nat off) else nth_error l j.
Proof.
  intros H1 H2. unfold storeu. rewrite (proj2 (Z.leb_le _ _)), (proj2 (Z.leb_le _ _)) by lia. cbn [andb]. eexists. split; [reflexivity|].
  assert (LF : length (firstn (Z.to_nat off) l) = Z.to_nat off) by (rewrite firstn_length; unfold zlen in *; lia). split.
  - unfold zlen in *. rewrite !app_length, LF, skipn_length. lia.
  - intros j. destruct (Nat.leb_spec (Z.to_nat off) j); cbn [andb].
    + rewrite nth_error_app2 by lia. rewrite LF. destruct (Nat.ltb_spec j (Z.to_nat off + length v)).
      * now rewrite nth_error_app1 by lia.
      * rewrite nth_error_app2 by lia. set (o := Z.to_nat off) in *. replace j with ((o + length v) + (j - o - length v))%nat at 2 by lia. generalize (j - o - length v)%nat. generalize (o + length v)%nat. clear.
        intros o. revert l. induction o as [|o IH]; intros [|x l] j; try reflexivity; cbn [skipn]; [destruct j; reflexivity|apply IH].
    + rewrite nth_error_app1 by lia. apply nth_error_firstn. lia.
Qed.
Lemma rd_nth (l : list A) i : 0 <= i < zlen l -> exists x, rd l i = Some x /\ nth_error l (Z.to_nat i) = Some x /\ In x l.
Proof.
  intros H. unfold rd. rewrite (proj2 (Z.ltb_ge _ _)) by lia. destruct (nth_error l (Z.to_nat i)) as [x|] eqn:E; [exists x; repeat split; auto; eapply nth_error_In; eauto|].
  apply nth_error_None in E. unfold zlen in H. lia.
Qed.
Lemma skipn_nth (l : list A) n j : nth_error (skipn n l) j = nth_error l (n + j).
Proof. revert l. induction n as [|n IH]; intros [|x l]; try reflexivity; cbn [skipn]; [destruct j; reflexivity|apply IH]. Qed.
End Lists.

Section P.
Context {K : Type} (T : traits K).
Hypothesis TOK : traits_ok T.
Notation lt := (t_lt T).
Notation eqk := (t_eq T).
Variables (N maxN kC lpk : Z) (big fault isfloat debug : bool).
Variables (zero : K) (tail upper : list K -> list bool -> list K) (part : bool).
Variables (n c : Z).
Hypothesis Hn : 0 <= n.
Hypothesis Hnc : n <= c < 32.
Hypothesis HN : N = 2 ^ n.
Hypothesis HkC : kC = 2 ^ c.
Hypothesis HmaxN : N <= maxN.
Hypothesis Hlpk : lpk = 1 \/ lpk = 2.
Notation base := (base_num N lpk big).
Notation ns := (nsamples kC).
Hypothesis Hbase : ns <= base.
Hypothesis Hbase2 : 2 * N <= base.
Hypothesis HT : forall v m, zlen v = N -> length m = length v -> zlen (select v m) + zlen (tail v m) <= N.
Hypothesis HU : forall v m, zlen v = N -> length m = length v -> Permutation (upper v m) (select v (mask_not m)).

Lemma HN1 : 1 <= N. Proof. rewrite HN. pose proof (Z.pow_pos_nonneg 2 n ltac:(lia) Hn). lia. Qed.
Lemma HNk : exists q, kC = q * N /\ 1 <= q.
Proof. exists (2 ^ (c - n)). rewrite HN, HkC, <- Z.pow_add_r by lia. split; [f_equal; lia|]. pose proof (Z.pow_pos_nonneg 2 (c - n) ltac:(lia) ltac:(lia)). lia. Qed.
Lemma HkC32 : 1 <= kC <= 2 ^ 31.
Proof. rewrite HkC. pose proof (Z.pow_pos_nonneg 2 c ltac:(lia) ltac:(lia)). pose proof (Z.pow_le_mono_r 2 c 31 ltac:(lia) ltac:(lia)). lia. Qed.

(** consequences of the order axioms *)
Lemma sw_irr a : lt a a = false. Proof. apply (tok_sw _ TOK). Qed.
Lemma sw_tr a b d : lt a b = true -> lt b d = true -> lt a d = true. Proof. apply (tok_sw _ TOK). Qed.
Lemma sw_ntr a b d : lt a b = false -> lt b d = false -> lt a d = false. Proof. apply (tok_sw _ TOK). Qed.
Lemma sw_asym a b : lt a b = true -> lt b a = false.
Proof. intros H. destruct (lt b a) eqn:E; [|reflexivity]. rewrite <- (sw_irr a). symmetry. eapply sw_tr; eauto. Qed.
Lemma eq_spec a b : eqk a b = true <-> lt a b = false /\ lt b a = false.
Proof. rewrite (tok_eq _ TOK). rewrite andb_true_iff, !negb_true_iff. tauto. Qed.
Lemma eq_refl' a : eqk a a = true. Proof. apply eq_spec. split; apply sw_irr. Qed.
Lemma eq_sym a b : eqk a b = eqk b a. Proof. rewrite !(tok_eq _ TOK). apply andb_comm. Qed.
Lemma eq_lt_l a b x : eqk a b = true -> lt a x = lt b x.
Proof.
  intros H. apply eq_spec in H as (H1 & H2). destruct (lt a x) eqn:E1, (lt b x) eqn:E2; try reflexivity; exfalso.
  - rewrite (sw_ntr _ _ _ H1 E2) in E1. discriminate.
  - rewrite (sw_ntr _ _ _ H2 E1) in E2. discriminate.
Qed.
Lemma eq_lt_r a b x : eqk a b = true -> lt x a = lt x b.
Proof.
  intros H. apply eq_spec in H as (H1 & H2). destruct (lt x a) eqn:E1, (lt x b) eqn:E2; try reflexivity; exfalso.
  - rewrite (sw_ntr _ _ _ E2 H2) in E1. discriminate.
  - rewrite (sw_ntr _ _ _ E1 H1) in E2. discriminate.
Qed.
Lemma eq_trans' a b d : eqk a b = true -> eqk b d = true -> eqk a d = true.
Proof. intros H1 H2. apply eq_spec. rewrite (eq_lt_l a b d H1), (eq_lt_r a b d H1). now apply eq_spec. Qed.
Lemma ne_cases a b : eqk a b = false -> lt a b = true \/ lt b a = true.
Proof. rewrite (tok_eq _ TOK). destruct (lt a b), (lt b a); auto; discriminate. Qed.
Lemma eq_id : t_kv T = false -> forall a b, eqk a b = true <-> a = b.
Proof. intros KV a b. destruct (tok_kv _ TOK KV) as (_ & AS). rewrite eq_spec. split; [intros (? & ?); auto|intros ->; split; apply sw_irr]. Qed.

(** x is equivalent to some key *)
Definition rep (keys : list K) (x : K) : Prop := exists y, In y keys /\ eqk x y = true.
Lemma rep_perm k1 k2 x : Permutation k1 k2 -> rep k1 x -> rep k2 x.
Proof. intros P (y & Hy & E). exists y. split; [eapply Permutation_in; eauto|exact E]. Qed.

Lemma dassert_ok {A} b (x : option A) : b = true -> dassert debug b x = x.
Proof. intros ->. unfold dassert. cbn [negb]. now rewrite andb_false_r. Qed.
Lemma load_al_ok (l : list K) addr off : (addr + off) mod N = 0 -> 0 <= off -> off + N <= zlen l ->
  exists v, load_al N addr l off = Some v /\ loadu l off N = Some v /\ zlen v = N /\ incl v l /\ forall j, (j < length v)%nat -> nth_error v j = nth_error l (Z.to_nat off + j).
Proof. intros H1 H2 H3. unfold load_al. rewrite H1. cbn [Z.eqb]. destruct (loadu_incl l off N H2 ltac:(pose proof HN1; lia) H3) as (v & E & R). exists v. tauto. Qed.

(** DrawSamples *)
Lemma vmedian_ok keys v0 v1 v2 : zlen v0 = N -> zlen v1 = N -> zlen v2 = N -> incl v0 keys -> incl v1 keys -> incl v2 keys ->
  zlen (vmedian T v0 v1 v2) = N /\ forall x, In x (vmedian T v0 v1 v2) -> rep keys x.
Proof.
  intros L0 L1 L2 I0 I1 I2. split.
  - unfold vmedian, zlen in *. rewrite map_length, !combine_length. lia.
  - intros x Hx. apply in_map_iff in Hx as ([a [b d]] & <- & HI). cbn [fst snd].
    pose proof (in_combine_l _ _ _ _ HI) as Ha. pose proof (in_combine_r _ _ _ _ HI) as Hbd. pose proof (in_combine_l _ _ _ _ Hbd) as Hb. pose proof (in_combine_r _ _ _ _ Hbd) as Hd.
    destruct (tok_median _ TOK a b d) as [E|[E|E]]; [exists a|exists b|exists d]; auto.
Qed.
Lemma draw_loop_ok keys0 addr keys o0 o1 o2 o3 o4 o5 : incl keys keys0 -> addr mod kC = 0 ->
  Forall (fun o => o mod kC = 0 /\ 0 <= o /\ o + kC <= zlen keys) [o0; o1; o2; o3; o4; o5] ->
  forall (m fuel : nat) buf i, (m < fuel)%nat -> i = kC - N * Z.of_nat m -> 0 <= i -> 2 * kC <= zlen buf ->
  (forall j x, (Z.of_nat j < i \/ kC <= Z.of_nat j < kC + i) -> nth_error buf j = Some x -> rep keys0 x) ->
  exists buf', draw_loop T N kC fuel addr keys o0 o1 o2 o3 o4 o5 buf i = Some buf' /\ zlen buf' = zlen buf /\
    forall j x, Z.of_nat j < 2 * kC -> nth_error buf' j = Some x -> rep keys0 x.
Proof.
  intros IK HA HO. destruct HNk as (q & Eq & Hq). pose proof HN1 as N1.
  assert (HA' : addr mod N = 0). { rewrite Eq in HA. apply Z.mod_divide in HA; [|nia]. destruct HA as (z & ->). replace (z * (q * N)) with (z * q * N) by ring. apply Z.mod_mul. lia. }
  induction m as [|m IH]; intros [|fuel] buf i Hf Hi Hi0 HB INV; try lia; cbn [draw_loop].
  - rewrite (proj2 (Z.ltb_ge _ _)) by lia. exists buf. split; [reflexivity|]. split; [reflexivity|]. intros j x Hj. apply INV. lia.
  - rewrite (proj2 (Z.ltb_lt _ _)) by nia.
    assert (LD : forall o, o mod kC = 0 /\ 0 <= o /\ o + kC <= zlen keys -> exists v, load_al N addr keys (o + i) = Some v /\ zlen v = N /\ incl v keys0).
    { intros o (M & O1 & O2). destruct (load_al_ok keys addr (o + i)) as (v & E & _ & L & I & _).
      - apply Z.mod_divide; [lia|]. apply Z.mod_divide in HA', M; try lia. destruct HA' as (z1 & ->). destruct M as (z2 & ->). exists (z1 + z2 * q + (q - Z.of_nat (S m))). rewrite Hi, Eq. ring.
      - lia. - nia. - exists v. split; [exact E|]. split; [exact L|]. eapply incl_tran; eauto. }
    pose proof (Forall_inv HO) as C0. apply Forall_inv_tail in HO. pose proof (Forall_inv HO) as C1. apply Forall_inv_tail in HO. pose proof (Forall_inv HO) as C2. apply Forall_inv_tail in HO.
    pose proof (Forall_inv HO) as C3. apply Forall_inv_tail in HO. pose proof (Forall_inv HO) as C4. apply Forall_inv_tail in HO. pose proof (Forall_inv HO) as C5.
    destruct (LD _ C0) as (v0 & -> & L0 & I0). destruct (LD _ C1) as (v1 & -> & L1 & I1). destruct (LD _ C2) as (v2 & -> & L2 & I2).
    destruct (LD _ C3) as (v3 & -> & L3 & I3). destruct (LD _ C4) as (v4 & -> & L4 & I4). destruct (LD _ C5) as (v5 & -> & L5 & I5).
    destruct (vmedian_ok keys0 v0 v1 v2 L0 L1 L2 I0 I1 I2) as (LA & RA). destruct (vmedian_ok keys0 v3 v4 v5 L3 L4 L5 I3 I4 I5) as (LB & RB).
    set (A := vmedian T v0 v1 v2) in *. set (B := vmedian T v3 v4 v5) in *.
    assert (Ei : i = (q - Z.of_nat (S m)) * N) by (rewrite Hi, Eq; ring).
    assert (Hi' : i + N <= kC) by nia.
    unfold store_al. rewrite (Z.add_0_l i), Ei, Z.mod_mul by lia. rewrite <- Ei. cbn [Z.eqb].
    destruct (storeu_nth buf i A Hi0 ltac:(lia)) as (b1 & -> & Lb1 & N1').
    rewrite (Z.add_0_l (i + kC)). replace ((i + kC) mod N) with 0 by (symmetry; rewrite Ei, Eq, <- Z.mul_add_distr_r; apply Z.mod_mul; lia). cbn [Z.eqb].
    destruct (storeu_nth b1 (i + kC) B ltac:(lia) ltac:(lia)) as (b2 & -> & Lb2 & N2').
    destruct (IH fuel b2 (i + N)) as (b' & E & Lb' & R); [lia|lia|lia|lia| |].
    + intros j x Hj Hx. rewrite N2' in Hx. unfold zlen in LA, LB.
      destruct (_ && _) eqn:M1 in Hx; [apply RB; eapply nth_error_In; exact Hx|].
      rewrite N1' in Hx. destruct (_ && _) eqn:M2 in Hx; [apply RA; eapply nth_error_In; exact Hx|].
      apply (INV j x); [|exact Hx]. apply andb_false_iff in M1, M2. rewrite Nat.leb_gt, Nat.ltb_ge in M1, M2. lia.
    + exists b'. split; [exact E|]. split; [lia|exact R].
Qed.
Lemma draw_samples_ok addr keys buf s : 0 <= addr -> ns <= zlen keys < 2 ^ 62 -> ns <= zlen buf -> rng_ok s ->
  exists buf' s', draw_samples T N kC debug addr keys (zlen keys) buf s = Some (buf', s') /\ rng_ok s' /\ zlen buf' = zlen buf /\
    forall j x, Z.of_nat j < ns -> nth_error buf' j = Some x -> rep keys x.
Proof.
  intros Ha HK HB Hs. unfold draw_samples. rewrite dassert_ok by (apply Z.leb_le; lia). pose proof HkC32 as C32. unfold nsamples in *.
  assert (LA : Z.land addr (kC - 1) = addr mod kC) by (rewrite HkC; replace (2 ^ c - 1) with (Z.ones c) by (rewrite Z.ones_equiv; lia); apply Z.land_ones; lia). rewrite LA.
  set (mis := addr mod kC). pose proof (Z.mod_pos_bound addr kC ltac:(lia)) as MB. fold mis in MB.
  set (con := if negb (mis =? 0) then kC - mis else 0). cbv zeta.
  assert (HC : 0 <= con < kC /\ (addr + con) mod kC = 0).
  { unfold con. destruct (Z.eqb_spec mis 0) as [E|E]; cbn [negb]; (split; [lia|]). - rewrite Z.add_0_r. exact E.
    - replace (addr + (kC - mis)) with ((addr / kC + 1) * kC); [apply Z.mod_mul; lia|]. unfold mis. rewrite Z.mod_eq by lia. ring. }
  destruct HC as (HC & HA).
  pose proof (random_bits_ok s Hs) as R0. destruct (random_bits s) as (r0 & s1). cbn [fst snd] in R0. destruct R0 as (R0 & S1).
  pose proof (random_bits_ok s1 S1) as R1. destruct (random_bits s1) as (r1 & s2). cbn [fst snd] in R1. destruct R1 as (R1 & S2).
  pose proof (random_bits_ok s2 S2) as R2. destruct (random_bits s2) as (r2 & s3). cbn [fst snd] in R2. destruct R2 as (R2 & S3).
  rewrite (wrap_small 64 (zlen keys - con)) by lia.
  assert (Q1 : 1 <= (zlen keys - con) / kC) by (apply Z.div_le_lower_bound; lia).
  set (nc := wrap 32 (Z.min ((zlen keys - con) / kC) 4294967295)).
  assert (NC : 1 <= nc <= 4294967295 /\ nc <= (zlen keys - con) / kC) by (unfold nc; rewrite (wrap_small 32) by lia; lia).
  assert (LS : zlen (skipn (Z.to_nat con) keys) = zlen keys - con) by (rewrite zlen_skipn; lia).
  assert (OF : forall b, 0 <= b < 2 ^ 32 -> let o := random_chunk_index nc b * kC in o mod kC = 0 /\ 0 <= o /\ o + kC <= zlen (skipn (Z.to_nat con) keys)).
  { intros b Hb o. pose proof (rci_ok nc b (proj1 NC) Hb) as RI. unfold o. split; [apply Z.mod_mul; lia|]. split; [nia|]. rewrite LS.
    pose proof (Z.mul_div_le (zlen keys - con) kC ltac:(lia)). nia. }
  assert (LO : forall r, 0 <= wrap 32 r < 2 ^ 32) by (intros; apply wrap_range; lia).
  assert (HI : forall r, 0 <= r < 2 ^ 64 -> 0 <= Z.shiftr r 32 < 2 ^ 32). { intros r Hr. rewrite Z.shiftr_div_pow2 by lia. split; [apply Z.div_pos; lia|]. apply Z.div_lt_upper_bound; lia. }
  destruct HNk as (q & Eq & Hq). assert (QK : q <= kC) by (pose proof HN1; clear - H Eq Hq; nia).
  match goal with |- context [draw_loop T N kC _ ?a ?k ?o0 ?o1 ?o2 ?o3 ?o4 ?o5 _ _] => destruct (draw_loop_ok keys a k o0 o1 o2 o3 o4 o5) with (m := Z.to_nat q) (fuel := S (Z.to_nat kC)) (buf := buf) (i := 0) as (b' & E & LB & R) end.
  - intros x Hx. rewrite <- (firstn_skipn (Z.to_nat con) keys). apply in_or_app. now right.
  - exact HA.
  - repeat (apply Forall_cons; [apply OF; auto|]). apply Forall_nil.
  - lia. - rewrite Z2Nat.id by lia. rewrite Eq. ring. - lia. - lia. - intros j x Hj. lia.
  - rewrite E. exists b', s3. repeat (split; [first [reflexivity|assumption]|]). exact R.
Qed.
(** UnsortedSampleEqual *)
Lemma ns_mult : exists q, ns = q * N /\ 1 <= q.
Proof. destruct HNk as (q & E & H). exists (2 * q). unfold nsamples. rewrite E. split; [ring|lia]. Qed.
Lemma forallb_false {A} (f : A -> bool) l : forallb f l = false -> exists x, In x l /\ f x = false.
Proof. induction l as [|x l IH]; [discriminate|]. cbn. destruct (f x) eqn:E; cbn [andb]; [|intros _; exists x; auto]. intros H. destruct (IH H) as (y & ? & ?). exists y. auto. Qed.
Lemma sample_equal_loop_ok first buf : ns <= zlen buf -> forall (m fuel : nat) acc i, (m < fuel)%nat -> i = ns - N * Z.of_nat m -> 0 <= i ->
  exists b, sample_equal_loop T N kC isfloat fuel first buf acc i = Some b /\
    (b = true <-> acc = true /\ forall j x, i <= Z.of_nat j < ns -> nth_error buf j = Some x -> eqk x first = true).
Proof.
  intros HB. destruct ns_mult as (q & Eq & Hq). pose proof HN1 as N1.
  induction m as [|m IH]; intros [|fuel] acc i Hf Hi Hi0; try lia; cbn [sample_equal_loop].
  - rewrite (proj2 (Z.ltb_ge _ _)) by lia. exists acc. split; [reflexivity|]. split; [intros ->; split; [reflexivity|]; intros j x Hj; lia|tauto].
  - rewrite (proj2 (Z.ltb_lt _ _)) by nia.
    destruct (load_al_ok buf 0 i) as (v & -> & _ & LV & _ & NV).
    { rewrite Z.add_0_l, Hi, Eq. replace (q * N - N * Z.of_nat (S m)) with ((q - Z.of_nat (S m)) * N) by ring. apply Z.mod_mul. lia. } { exact Hi0. } { nia. }
    assert (SAME : forallb (fun x => eqk x first) v = true <-> forall j x, i <= Z.of_nat j < i + N -> nth_error buf j = Some x -> eqk x first = true).
    { rewrite forallb_forall. unfold zlen in LV. split.
      - intros H j x Hj Hx. apply H. apply (nth_error_In v (j - Z.to_nat i)). rewrite NV by lia. replace (Z.to_nat i + (j - Z.to_nat i))%nat with j by lia. exact Hx.
      - intros H x Hx. apply In_nth_error in Hx as (j & Hj). assert (j < length v)%nat by (apply nth_error_Some; congruence). rewrite NV in Hj by lia. eapply H; [|exact Hj]. lia. }
    assert (CMB : (forall j x, i <= Z.of_nat j < ns -> nth_error buf j = Some x -> eqk x first = true) <->
       (forallb (fun x => eqk x first) v = true /\ forall j x, i + N <= Z.of_nat j < ns -> nth_error buf j = Some x -> eqk x first = true)).
    { rewrite SAME. assert (i + N <= ns) by nia. split.
      - intros H0. split; intros j x Hj; apply H0; lia.
      - intros (H1 & H2) j x Hj. destruct (Z.lt_ge_cases (Z.of_nat j) (i + N)); [apply H1|apply H2]; lia. }
    destruct (forallb (fun x => eqk x first) v) eqn:FB; cbn [negb].
    + rewrite andb_true_r. destruct (IH fuel acc (i + N) ltac:(lia) ltac:(lia) ltac:(lia)) as (b & E & R). exists b. split; [destruct isfloat; exact E|]. rewrite R, CMB. tauto.
    + destruct isfloat.
      * exists false. split; [reflexivity|]. rewrite CMB. split; [discriminate|]. intros (_ & H & _). discriminate.
      * rewrite andb_false_r. destruct (IH fuel false (i + N) ltac:(lia) ltac:(lia) ltac:(lia)) as (b & E & R). exists b. split; [exact E|]. rewrite R, CMB. split; [intros (H & _); discriminate|intros (_ & H & _); discriminate].
Qed.
Lemma unsorted_sample_equal_ok buf : ns <= zlen buf -> exists b first, unsorted_sample_equal T N kC isfloat buf = Some b /\ rd buf 0 = Some first /\
  (b = true <-> forall j x, Z.of_nat j < ns -> nth_error buf j = Some x -> eqk x first = true).
Proof.
  intros HB. pose proof HkC32. destruct ns_mult as (q & Eq & Hq). pose proof HN1 as N1. unfold unsorted_sample_equal. destruct (rd_nth buf 0) as (first & E & _); [unfold nsamples in HB; lia|]. rewrite E.
  destruct (sample_equal_loop_ok first buf HB (Z.to_nat q) (S (Z.to_nat ns)) true 0) as (b & Eb & R); [nia|rewrite Z2Nat.id by lia; lia|lia|].
  exists b, first. split; [exact Eb|]. split; [reflexivity|]. rewrite R. split; [intros (_ & H0)|intros H0; split; [reflexivity|]]; intros j x Hj; apply H0; lia.
Qed.

(** SortSamples *)
Lemma sort_samples_ok buf : ns + base + N <= zlen buf -> exists buf', sort_samples T N maxN kC lpk big fault debug buf = Some buf' /\ zlen buf' = zlen buf /\
  Permutation (firstn (Z.to_nat ns) buf) (firstn (Z.to_nat ns) buf') /\ sorted lt (firstn (Z.to_nat ns) buf').
Proof.
  intros HB. pose proof HkC32. pose proof HN1 as N1. unfold sort_samples. rewrite dassert_ok by (apply Z.leb_le; lia).
  assert (NSP : 0 <= ns) by (unfold nsamples; lia).
  assert (LF : zlen (firstn (Z.to_nat ns) buf) = ns) by (apply zlen_firstn; lia).
  destruct (base_case_ok (t_ltn T) (t_lastv T) (tok_net _ TOK) (tok_pad _ TOK) fault big lpk N maxN n (firstn (Z.to_nat ns) buf) (skipn (Z.to_nat ns) buf)) as (k & b & E & LB & P & S); try assumption; try lia.
  { fold base. lia. } { fold base. rewrite zlen_skipn by lia. lia. }
  rewrite LF in E. rewrite E. exists (k ++ b). split; [reflexivity|].
  assert (LK : zlen k = ns) by (rewrite <- LF; unfold zlen; f_equal; symmetry; now apply Permutation_length).
  assert (FK : firstn (Z.to_nat ns) (k ++ b) = k). { rewrite firstn_app. replace (Z.to_nat ns - length k)%nat with O by (unfold zlen in LK; lia). cbn [firstn]. rewrite app_nil_r. apply firstn_all2. unfold zlen in LK. lia. }
  split; [rewrite zlen_app, LB, zlen_skipn by lia; lia|]. rewrite FK. split; [exact P|].
  intros i j x y Hij Hx Hy. specialize (S i j x y Hij Hx Hy). destruct (lt y x) eqn:EL; [|reflexivity]. rewrite (tok_refine _ TOK _ _ EL) in S. discriminate.
Qed.

(** PivotRank *)
Lemma prev_loop_ok samples : ns <= zlen samples -> forall m med, rd samples kC = Some med -> (Z.of_nat m < kC) -> forall fuel, (m < fuel)%nat ->
  exists r, prev_loop T kC fuel samples (Z.of_nat m) = Some r /\
    match r with
    | None => forall j x, (j <= m)%nat -> nth_error samples j = Some x -> eqk x med = true
    | Some rp => 0 <= rp <= Z.of_nat m /\ (forall x, rd samples rp = Some x -> eqk x med = false) /\ (forall j x, rp < Z.of_nat j <= Z.of_nat m -> nth_error samples j = Some x -> eqk x med = true)
    end.
Proof.
  intros HS. pose proof HkC32. unfold nsamples in HS.
  induction m as [|m IH]; intros med HM Hm [|fuel] Hf; try lia; cbn [prev_loop].
  - destruct (rd_nth samples (Z.of_nat 0)) as (a & Ea & Na & _); [lia|]. rewrite Ea, HM. destruct (eqk a med) eqn:EQ.
    + eexists. split; [reflexivity|]. cbn beta iota. intros j x Hj. replace j with (Z.to_nat (Z.of_nat 0)) by lia. rewrite Na. intros [= ->]. exact EQ.
    + eexists. split; [reflexivity|]. cbn beta iota. split; [lia|]. split; [intros x; rewrite Ea; intros [= ->]; exact EQ|]. intros j x Hj. lia.
  - destruct (rd_nth samples (Z.of_nat (S m))) as (a & Ea & Na & _); [lia|]. rewrite Ea, HM. destruct (eqk a med) eqn:EQ.
    + rewrite (proj2 (Z.eqb_neq _ _)) by lia. replace (Z.of_nat (S m) - 1) with (Z.of_nat m) by lia. destruct (IH med HM ltac:(lia) fuel ltac:(lia)) as (r & E & R). exists r. split; [exact E|].
      assert (AT : forall x, nth_error samples (S m) = Some x -> eqk x med = true) by (intros x; rewrite Nat2Z.id in Na; rewrite Na; intros [= ->]; exact EQ).
      destruct r as [rp|].
      * destruct R as (R1 & R2 & R3). split; [lia|]. split; [exact R2|]. intros j x Hj. destruct (Nat.eq_dec j (S m)) as [->|]; [apply AT|apply R3; lia].
      * intros j x Hj. destruct (Nat.eq_dec j (S m)) as [->|]; [apply AT|apply R; lia].
    + eexists. split; [reflexivity|]. cbn beta iota. split; [lia|]. split; [intros x; rewrite Ea; intros [= ->]; exact EQ|]. intros j x Hj. lia.
Qed.
Lemma next_loop_ok samples med : ns <= zlen samples -> rd samples kC = Some med -> forall (m : nat) i fuel, i = ns - 1 - Z.of_nat m -> 0 <= i -> (m < fuel)%nat ->
  exists r, next_loop T kC fuel samples i = Some r /\
    match r with
    | None => forall j x, i <= Z.of_nat j < ns -> nth_error samples j = Some x -> eqk x med = true
    | Some rn => i <= rn < ns /\ (forall x, rd samples rn = Some x -> eqk x med = false) /\ (forall j x, i <= Z.of_nat j < rn -> nth_error samples j = Some x -> eqk x med = true)
    end.
Proof.
  intros HS HM. pose proof HkC32. 
  induction m as [|m IH]; intros i [|fuel] Hi Hi0 Hf; try lia; cbn [next_loop].
  - destruct (rd_nth samples i) as (a & Ea & Na & _); [lia|]. rewrite Ea, HM. destruct (eqk a med) eqn:EQ.
    + rewrite (proj2 (Z.eqb_eq _ _)) by lia. eexists. split; [reflexivity|]. cbn beta iota. intros j x Hj. replace j with (Z.to_nat i) by lia. rewrite Na. intros [= ->]. exact EQ.
    + eexists. split; [reflexivity|]. cbn beta iota. split; [lia|]. split; [intros x; rewrite Ea; intros [= ->]; exact EQ|]. intros j x Hj. lia.
  - destruct (rd_nth samples i) as (a & Ea & Na & _); [lia|]. rewrite Ea, HM. destruct (eqk a med) eqn:EQ.
    + rewrite (proj2 (Z.eqb_neq _ _)) by lia. destruct (IH (i + 1) fuel ltac:(lia) ltac:(lia) ltac:(lia)) as (r & E & R). exists r. split; [exact E|].
      assert (AT : forall j x, Z.of_nat j = i -> nth_error samples j = Some x -> eqk x med = true). { intros j x Hj. replace j with (Z.to_nat i) by lia. rewrite Na. intros [= ->]. exact EQ. }
      destruct r as [rn|].
      * destruct R as (R1 & R2 & R3). split; [lia|]. split; [exact R2|]. intros j x Hj. destruct (Z.eq_dec (Z.of_nat j) i); [now apply AT|apply R3; lia].
      * intros j x Hj. destruct (Z.eq_dec (Z.of_nat j) i); [now apply AT|apply R; lia].
    + eexists. split; [reflexivity|]. cbn beta iota. split; [lia|]. split; [intros x; rewrite Ea; intros [= ->]; exact EQ|]. intros j x Hj. lia.
Qed.
(** in sorted, not all equal samples, the pivot is a sample before the last one in the order *)
Lemma choose_pivot_by_rank_ok samples : ns <= zlen samples -> sorted lt (firstn (Z.to_nat ns) samples) ->
  (exists j x f, Z.of_nat j < ns /\ nth_error samples j = Some x /\ rd samples 0 = Some f /\ eqk x f = false) ->
  exists pivot last j l, choose_pivot_by_rank T kC debug samples = Some pivot /\ Z.of_nat j < ns /\ nth_error samples j = Some pivot /\
    Z.of_nat l < ns /\ nth_error samples l = Some last /\ lt pivot last = true.
Proof.
  intros HS SO (j0 & x0 & f0 & Hj0 & Hx0 & Hf0 & NE0). pose proof HkC32. assert (NSD : ns = 2 * kC) by reflexivity.
  assert (SO' : forall i j x y, (i <= j)%nat -> Z.of_nat j < ns -> nth_error samples i = Some x -> nth_error samples j = Some y -> lt y x = false).
  { intros i j x y Hij Hj Hx Hy. destruct (Nat.eq_dec i j) as [->|]; [rewrite Hx in Hy; injection Hy as ->; apply sw_irr|]. apply (SO i j); [lia| |]; rewrite nth_error_firstn by lia; assumption. }
  destruct (rd_nth samples kC ltac:(lia)) as (med & HM & NM & _). destruct (rd_nth samples (ns - 1) ltac:(lia)) as (last & HL & NL & _). destruct (rd_nth samples 0 ltac:(lia)) as (f & Hf & Nf & _). rewrite Hf in Hf0. injection Hf0 as <-.
  (* first < last *)
  assert (FL : lt f last = true).
  { assert (H1 : lt x0 f = false) by (apply (SO' O j0); [lia|lia|exact Nf|exact Hx0]).
    assert (H2 : lt last x0 = false) by (apply (SO' j0 (Z.to_nat (ns - 1))); [lia|lia|exact Hx0|exact NL]).
    destruct (ne_cases _ _ NE0) as [H3|H3]; [congruence|]. destruct (lt f last) eqn:E; [reflexivity|]. rewrite <- H3. symmetry. eapply sw_ntr; eauto. }
  unfold choose_pivot_by_rank, pivot_rank. replace (kC - 1) with (Z.of_nat (Z.to_nat (kC - 1))) by lia.
  assert (FIN : forall r, 0 <= r < ns -> (forall p, nth_error samples (Z.to_nat r) = Some p -> lt p last = true) ->
    exists pivot last j l, match rd samples r, rd samples (ns - 1) with Some pivot, Some last => dassert debug (negb (eqk pivot last)) (Some pivot) | _, _ => None end = Some pivot /\
      Z.of_nat j < ns /\ nth_error samples j = Some pivot /\ Z.of_nat l < ns /\ nth_error samples l = Some last /\ lt pivot last = true).
  { intros r Hr HP. destruct (rd_nth samples r ltac:(lia)) as (p & Ep & Np & _). rewrite Ep, HL. specialize (HP p Np).
    rewrite dassert_ok. 2:{ rewrite negb_true_iff. destruct (eqk p last) eqn:EE; [|reflexivity]. apply eq_spec in EE. destruct EE. congruence. }
    exists p, last, (Z.to_nat r), (Z.to_nat (ns - 1)). repeat (split; [first [reflexivity|assumption|lia]|]). exact HP. }
  destruct (prev_loop_ok samples HS (Z.to_nat (kC - 1)) med HM ltac:(lia) (S (Z.to_nat ns)) ltac:(lia)) as (r & -> & R).
  destruct r as [rp|].
  2:{ apply FIN; [lia|]. intros p Hp. rewrite Hp in Nf. injection Nf as ->. exact FL. }
  destruct R as (RP & NEp & EQp). destruct (rd_nth samples rp ltac:(lia)) as (pp & Epp & Npp & _). specialize (NEp pp Epp).
  assert (PM : lt pp med = true). { destruct (ne_cases _ _ NEp) as [E|E]; [exact E|]. assert (lt med pp = false) by (apply (SO' (Z.to_nat rp) (Z.to_nat kC)); [lia|lia|exact Npp|exact NM]). congruence. }
  assert (ML : lt last med = false) by (apply (SO' (Z.to_nat kC) (Z.to_nat (ns - 1))); [lia|lia|exact NM|exact NL]).
  assert (PL : lt pp last = true). { destruct (lt pp last) eqn:E; [reflexivity|]. rewrite <- PM. symmetry. eapply sw_ntr; eauto. }
  assert (PREV : forall p, nth_error samples (Z.to_nat rp) = Some p -> lt p last = true). { intros p Hp. rewrite Hp in Npp. injection Npp as ->. exact PL. }
  destruct (next_loop_ok samples med HS HM (Z.to_nat (ns - 2 - rp)) (rp + 1) (S (Z.to_nat ns)) ltac:(lia) ltac:(lia) ltac:(lia)) as (r & -> & R).
  destruct r as [rn|]; [|apply FIN; [lia|exact PREV]].
  destruct R as (RN1 & RN2 & RN3). cbv zeta. destruct (rd_nth samples rn ltac:(lia)) as (nn & Enn & Nnn & _). specialize (RN2 nn Enn).
  assert (GT : kC < rn).
  { destruct (Z.lt_trichotomy rn kC) as [H1|[H1|H1]]; [| |exact H1].
    - assert (eqk nn med = true) by (apply (EQp (Z.to_nat rn)); [lia|exact Nnn]). congruence.
    - rewrite H1, HM in Enn. injection Enn as ->. rewrite eq_refl' in RN2. discriminate. }
  rewrite !(wrap_small 64) by lia. destruct (Z.ltb_spec (rn - kC) (kC - rp)) as [HX|HX]; [|apply FIN; [lia|exact PREV]].
  apply FIN; [lia|]. intros p Hp. rewrite Hp in NM. injection NM as ->.
  assert (MN : lt med nn = true). { destruct (ne_cases _ _ RN2) as [E|E]; [|exact E]. assert (lt nn med = false) by (apply (SO' (Z.to_nat kC) (Z.to_nat rn)); [lia|lia|exact Hp|exact Nnn]). congruence. }
  assert (lt last nn = false) by (apply (SO' (Z.to_nat rn) (Z.to_nat (ns - 1))); [lia|lia|exact Nnn|exact NL]).
  destruct (lt med last) eqn:E; [reflexivity|]. rewrite <- MN. symmetry. eapply sw_ntr; eauto.
Qed.
(** AllEqual *)
Section AllEq.
Variables (keys : list K) (pivot : K).
Definition upto (i : Z) : Prop := forall j x, Z.of_nat j < i -> nth_error keys j = Some x -> eqk x pivot = true.
Definition mismatch (i : Z) : Prop := 0 <= i < zlen keys /\ upto i /\ exists x, rd keys i = Some x /\ eqk x pivot = false.
Lemma any_true_cases m : (any_true m = false /\ forall k, nth_error m k <> Some true) \/
  (any_true m = true /\ exists k, find_first_true m = Z.of_nat k /\ nth_error m k = Some true /\ forall j, (j < k)%nat -> nth_error m j <> Some true).
Proof.
  unfold any_true, find_first_true. destruct (existsb (fun b => b) m) eqn:E.
  - right. split; [reflexivity|]. destruct (fft_spec m 0) as [(_ & F)|(k & E1 & E2 & F)].
    + apply existsb_exists in E as (b & Hb & ->). rewrite Forall_forall in F. specialize (F _ Hb). discriminate.
    + exists k. split; [lia|]. split; [exact E2|]. intros j Hj Ht. rewrite Forall_forall in F. assert (In true (firstn k m)) by (apply (nth_error_In _ j); rewrite nth_error_firstn by lia; exact Ht). specialize (F _ H). discriminate.
  - left. split; [reflexivity|]. intros k Hk. apply nth_error_In in Hk. assert (existsb (fun b => b) m = true) by (apply existsb_exists; exists true; auto). congruence.
Qed.
Lemma vec_step v i lim m : 0 <= i -> 0 <= lim -> zlen v = N -> lim <= N -> (forall j, (j < length v)%nat -> nth_error v j = nth_error keys (Z.to_nat i + j)) ->
  (forall k, nth_error m k = Some true <-> Z.of_nat k < lim /\ exists x, nth_error v k = Some x /\ eqk x pivot = false) -> upto i ->
  (any_true m = false /\ upto (i + lim)) \/ (any_true m = true /\ mismatch (i + find_first_true m) /\ 0 <= find_first_true m < lim).
Proof.
  intros Hi Hl LV LN NV HM U. destruct (any_true_cases m) as [(E & F)|(E & k & E1 & E2 & F)]; [left|right]; (split; [exact E|]).
  - intros j x Hj Hx. destruct (Z.lt_ge_cases (Z.of_nat j) i); [eapply U; eauto|]. destruct (eqk x pivot) eqn:EE; [reflexivity|]. exfalso. apply (F (j - Z.to_nat i)%nat). apply HM. split; [lia|]. exists x. split; [|exact EE].
    unfold zlen in LV. rewrite NV by lia. replace (Z.to_nat i + (j - Z.to_nat i))%nat with j by lia. exact Hx.
  - apply HM in E2 as (Hk & x & Hx & NE). assert (k < length v)%nat by (apply nth_error_Some; congruence). rewrite NV in Hx by lia. rewrite E1. split; [|lia]. split; [|split].
    + assert (Z.to_nat i + k < length keys)%nat by (apply nth_error_Some; congruence). unfold zlen. lia.
    + intros j y Hj Hy. destruct (Z.lt_ge_cases (Z.of_nat j) i); [eapply U; eauto|]. destruct (eqk y pivot) eqn:EE; [reflexivity|]. exfalso. apply (F (j - Z.to_nat i)%nat); [lia|]. apply HM. split; [lia|]. exists y. split; [|exact EE].
      rewrite NV by lia. replace (Z.to_nat i + (j - Z.to_nat i))%nat with j by lia. exact Hy.
    + exists x. split; [|exact NE]. unfold rd. rewrite (proj2 (Z.ltb_ge _ _)) by lia. replace (Z.to_nat (i + Z.of_nat k)) with (Z.to_nat i + k)%nat by lia. exact Hx.
Qed.
Lemma ne_mask_true v k : zlen v = N -> nth_error (ne_mask T v pivot) k = Some true <-> Z.of_nat k < N /\ exists x, nth_error v k = Some x /\ eqk x pivot = false.
Proof.
  intros LV. unfold ne_mask. rewrite nth_error_map. destruct (nth_error v k) as [x|] eqn:E; cbn [option_map].
  - assert (k < length v)%nat by (apply nth_error_Some; congruence). unfold zlen in LV. split.
    + intros [= H1]. apply negb_true_iff in H1. split; [lia|]. eauto.
    + intros (_ & y & [= ->] & ->). reflexivity.
  - split; [discriminate|]. intros (_ & y & ? & _). discriminate.
Qed.
Lemma first_mask_true v cn k : zlen v = N -> 0 <= cn <= N -> nth_error (mask_and (first_n N cn) (ne_mask T v pivot)) k = Some true <-> Z.of_nat k < cn /\ exists x, nth_error v k = Some x /\ eqk x pivot = false.
Proof.
  intros LV Hc. unfold mask_and. rewrite nth_error_map.
  assert (FN : forall j, (j < Z.to_nat N)%nat -> nth_error (first_n N cn) j = Some (Z.of_nat j <? cn)).
  { intros j Hj. unfold first_n. rewrite nth_error_map. rewrite (nth_error_nth' _ O) by (rewrite seq_length; lia). rewrite seq_nth by lia. reflexivity. }
  assert (LF : length (first_n N cn) = Z.to_nat N) by (unfold first_n; rewrite map_length, seq_length; reflexivity).
  assert (CN : forall (a b : list bool) j, nth_error (combine a b) j = match nth_error a j, nth_error b j with Some x, Some y => Some (x, y) | _, _ => None end).
  { clear. intros a. induction a as [|x a IH]; intros [|y b] [|j]; cbn; try reflexivity; [destruct (nth_error a j); reflexivity|apply IH]. }
  rewrite CN. unfold zlen in LV. destruct (Nat.lt_ge_cases k (Z.to_nat N)) as [Hk|Hk].
  - rewrite FN by lia. unfold ne_mask. rewrite nth_error_map. destruct (nth_error v k) as [x|] eqn:E; cbn [option_map fst snd].
    + split.
      * intros [= H1]. apply andb_true_iff in H1 as (H1 & H2). apply negb_true_iff in H2. apply Z.ltb_lt in H1. eauto.
      * intros (H1 & y & [= ->] & ->). rewrite (proj2 (Z.ltb_lt _ _)) by lia. reflexivity.
    + split; [discriminate|]. intros (_ & y & ? & _). discriminate.
  - destruct (nth_error (first_n N cn) k) eqn:E1. { assert (k < length (first_n N cn))%nat by (apply nth_error_Some; congruence). lia. }
    split; [discriminate|]. intros (_ & y & H & _). assert (k < length v)%nat by (apply nth_error_Some; congruence). lia.
Qed.
Lemma forallb_upto v i : 0 <= i -> zlen v = N -> (forall j, (j < length v)%nat -> nth_error v j = nth_error keys (Z.to_nat i + j)) -> upto i ->
  forallb (fun x => eqk x pivot) v = true <-> upto (i + N).
Proof.
  intros Hi LV NV U. rewrite forallb_forall. unfold zlen in LV. split.
  - intros H j x Hj Hx. destruct (Z.lt_ge_cases (Z.of_nat j) i); [eapply U; eauto|]. apply H. apply (nth_error_In v (j - Z.to_nat i)). rewrite NV by lia. replace (Z.to_nat i + (j - Z.to_nat i))%nat with j by lia. exact Hx.
  - intros H x Hx. apply In_nth_error in Hx as (j & Hj). assert (j < length v)%nat by (apply nth_error_Some; congruence). rewrite NV in Hj by lia. eapply H; [|exact Hj]. lia.
Qed.
Hypothesis HK : N <= zlen keys < 2 ^ 62.
Variable addr : Z.
(** some key in [i, lim) differs *)
Lemma find_mismatch_ok : forall (m fuel : nat) i, (m < fuel)%nat -> (addr + i) mod N = 0 -> 0 <= i -> upto i -> i + Z.of_nat m * N <= zlen keys -> ~ upto (i + Z.of_nat m * N) ->
  exists r, find_mismatch T N fuel addr keys pivot i = Some r /\ mismatch r.
Proof.
  pose proof HN1 as N1. induction m as [|m IH]; intros [|fuel] i Hf Ha Hi U HL NU; try lia.
  - replace (i + Z.of_nat 0 * N) with i in NU by lia. contradiction.
  - cbn [find_mismatch]. destruct (load_al_ok keys addr i Ha Hi) as (v & -> & _ & LV & _ & NV); [nia|].
    destruct (vec_step v i N (ne_mask T v pivot) Hi ltac:(lia) LV ltac:(lia) NV (fun k => ne_mask_true v k LV) U) as [(-> & U')|(-> & MM & _)]; [|eauto].
    apply IH; try lia; try assumption.
    + replace (addr + (i + N)) with (addr + i + 1 * N) by ring. rewrite Z.mod_add by lia. exact Ha.
    + intros U2. apply NU. intros j x Hj. apply U2. lia.
Qed.
Lemma group_diff_ok : forall (l : nat) i d0 d1, (addr + i) mod N = 0 -> 0 <= i -> i + 2 * N * Z.of_nat l <= zlen keys ->
  exists e0 e1, group_diff T N l addr keys pivot i d0 d1 = Some (e0, e1) /\ (e0 && e1 = true -> d0 && d1 = true /\ (upto i -> upto (i + 2 * N * Z.of_nat l))) /\
    (d0 && d1 = true -> upto (i + 2 * N * Z.of_nat l) -> e0 && e1 = true).
Proof.
  pose proof HN1 as N1. induction l as [|l IH]; intros i d0 d1 Ha Hi HL; cbn [group_diff].
  - replace (i + 2 * N * Z.of_nat 0) with i by lia. exists d0, d1. split; [reflexivity|]. split; tauto.
  - destruct (load_al_ok keys addr i Ha Hi) as (v0 & -> & _ & L0 & _ & NV0); [nia|].
    assert (Ha1 : (addr + (i + N)) mod N = 0) by (replace (addr + (i + N)) with (addr + i + 1 * N) by ring; rewrite Z.mod_add by lia; exact Ha).
    destruct (load_al_ok keys addr (i + N) Ha1 ltac:(lia)) as (v1 & -> & _ & L1 & _ & NV1); [nia|].
    assert (Ha2 : (addr + (i + 2 * N)) mod N = 0) by (replace (addr + (i + 2 * N)) with (addr + i + 2 * N) by ring; rewrite Z.mod_add by lia; exact Ha).
    set (f0 := forallb (fun x => eqk x pivot) v0). set (f1 := forallb (fun x => eqk x pivot) v1).
    destruct (IH (i + 2 * N) (d0 && f0) (d1 && f1) Ha2 ltac:(lia) ltac:(lia)) as (e0 & e1 & E & R1 & R2).
    exists e0, e1. split; [exact E|]. replace (i + 2 * N * Z.of_nat (S l)) with (i + 2 * N + 2 * N * Z.of_nat l) by lia. split.
    + intros H. destruct (R1 H) as (H1 & H2). rewrite !andb_true_iff in H1. destruct H1 as ((D0 & F0) & (D1 & F1)). split; [now rewrite D0, D1|]. intros U. apply H2.
      replace (i + 2 * N) with (i + N + N) by lia. apply (forallb_upto v1 (i + N) ltac:(lia) L1 NV1); [|exact F1]. apply (forallb_upto v0 i Hi L0 NV0 U). exact F0.
    + intros D U. assert (Ui : upto i) by (intros j x Hj; apply U; lia). assert (Ui1 : upto (i + N)) by (intros j x Hj; apply U; lia). assert (Ui2 : upto (i + N + N)) by (intros j x Hj; apply U; lia).
      apply R2; [|exact U]. rewrite andb_true_iff in D. destruct D as (-> & ->). unfold f0, f1. rewrite (proj2 (forallb_upto v0 i Hi L0 NV0 Ui) Ui1), (proj2 (forallb_upto v1 (i + N) ltac:(lia) L1 NV1 Ui1) Ui2). reflexivity.
Qed.
Lemma upto_dec i : {upto i} + {~ upto i}.
Proof.
  destruct (forallb (fun x => eqk x pivot) (firstn (Z.to_nat i) keys)) eqn:E.
  - left. rewrite forallb_forall in E. intros j x Hj Hx. apply E. apply (nth_error_In _ j). rewrite nth_error_firstn by lia. exact Hx.
  - right. intros U. apply forallb_false in E as (x & Hx & NE). apply In_nth_error in Hx as (j & Hj). assert (j < length (firstn (Z.to_nat i) keys))%nat by (apply nth_error_Some; congruence). rewrite firstn_length in H.
    rewrite nth_error_firstn in Hj by lia. rewrite (U j x) in NE; [discriminate|lia|exact Hj].
Qed.
Lemma group_loop_ok : forall (m fuel : nat) i d0 d1, (m < fuel)%nat -> zlen keys - i < 16 * N * Z.of_nat m + 16 * N -> (addr + i) mod N = 0 -> 0 <= i <= zlen keys -> d0 && d1 = true -> upto i ->
  exists r, group_loop T N fuel addr keys (zlen keys) pivot i d0 d1 = Some r /\
    match r with inl mm => mismatch mm | inr i' => i <= i' <= zlen keys /\ (addr + i') mod N = 0 /\ upto i' end.
Proof.
  pose proof HN1 as N1.
  induction m as [|m IH]; intros [|fuel] i d0 d1 Hf HM Ha Hi D U; try lia; cbn [group_loop]; change (8 * 2 * N) with (16 * N).
  - assert (G : (16 * N <=? zlen keys) && (i <=? wrap 64 (zlen keys - 16 * N)) = false).
    { destruct (Z.leb_spec (16 * N) (zlen keys)); [|reflexivity]. cbn [andb]. rewrite (wrap_small 64 (zlen keys - 16 * N)) by lia. apply Z.leb_gt. lia. }
    rewrite G. eexists. split; [reflexivity|]. cbn beta iota. repeat split; try lia; assumption.
  - destruct ((16 * N <=? zlen keys) && (i <=? wrap 64 (zlen keys - 16 * N))) eqn:G.
    2:{ eexists. split; [reflexivity|]. cbn beta iota. repeat split; try lia; assumption. }
    apply andb_true_iff in G as (G1 & G2). apply Z.leb_le in G1. rewrite (wrap_small 64 (zlen keys - 16 * N)) in G2 by lia. apply Z.leb_le in G2.
    destruct (group_diff_ok 8 i d0 d1 Ha ltac:(lia) ltac:(lia)) as (e0 & e1 & -> & R1 & R2). replace (i + 2 * N * Z.of_nat 8) with (i + 16 * N) in * by lia.
    destruct (e0 && e1) eqn:EE; cbn [negb].
    + destruct (R1 eq_refl) as (_ & U'). destruct (IH fuel (i + 16 * N) e0 e1 ltac:(lia) ltac:(lia)) as (r & E & R); [|lia|exact EE|apply U'; exact U|].
      { replace (addr + (i + 16 * N)) with (addr + i + 16 * N) by ring. rewrite Z.mod_add by lia. exact Ha. }
      exists r. split; [exact E|]. destruct r as [mm|i']; [exact R|]. destruct R as (R & R'). split; [lia|exact R'].
    + assert (NU : ~ upto (i + Z.of_nat 16 * N)). { replace (i + Z.of_nat 16 * N) with (i + 16 * N) by lia. intros U2. specialize (R2 D U2). discriminate. }
      destruct (find_mismatch_ok 16 (S (length keys)) i) as (r & -> & MM); [unfold zlen in *; lia|exact Ha|lia|exact U|lia|exact NU|]. eexists. split; [reflexivity|]. exact MM.
Qed.
Lemma whole_loop_ok : forall (m fuel : nat) i, (m < fuel)%nat -> zlen keys - i < N * Z.of_nat m + N -> (addr + i) mod N = 0 -> 0 <= i <= zlen keys -> upto i ->
  exists r, whole_loop T N fuel addr keys (zlen keys) pivot i = Some r /\ match r with Some mm => mismatch mm | None => upto (zlen keys - N + 1) end.
Proof.
  pose proof HN1 as N1.
  induction m as [|m IH]; intros [|fuel] i Hf HM Ha Hi U; try lia; cbn [whole_loop]; rewrite (wrap_small 64 (zlen keys - N)) by lia.
  - rewrite (proj2 (Z.leb_gt _ _)) by lia. eexists. split; [reflexivity|]. cbn beta iota. intros j x Hj. apply U. lia.
  - destruct (Z.leb_spec i (zlen keys - N)) as [G|G]; [|eexists; split; [reflexivity|]; cbn beta iota; intros j x Hj; apply U; lia].
    destruct (load_al_ok keys addr i Ha ltac:(lia)) as (v & -> & _ & LV & _ & NV); [lia|].
    destruct (vec_step v i N (ne_mask T v pivot) ltac:(lia) ltac:(lia) LV ltac:(lia) NV (fun k => ne_mask_true v k LV) U) as [(-> & U')|(-> & MM & _)]; [|eauto].
    apply IH; try lia; try assumption. replace (addr + (i + N)) with (addr + i + 1 * N) by ring. rewrite Z.mod_add by lia. exact Ha.
Qed.
Lemma all_equal_ok : 0 <= addr -> exists r, all_equal T N isfloat debug addr pivot keys (zlen keys) = Some r /\
  match r with None => forall x, In x keys -> eqk x pivot = true | Some i => mismatch i end.
Proof.
  intros Ha0. pose proof HN1 as N1. unfold all_equal. rewrite dassert_ok by (apply Z.leb_le; lia).
  assert (LA : Z.land addr (N - 1) = addr mod N) by (rewrite HN; replace (2 ^ n - 1) with (Z.ones n) by (rewrite Z.ones_equiv; lia); apply Z.land_ones; lia). rewrite LA.
  pose proof (Z.mod_pos_bound addr N ltac:(lia)) as MB. set (con := N - addr mod N). cbv zeta.
  assert (HC : 1 <= con <= N /\ (addr + con) mod N = 0).
  { unfold con. split; [lia|]. replace (addr + (N - addr mod N)) with ((addr / N + 1) * N); [apply Z.mod_mul; lia|]. rewrite (Z.mod_eq addr N) by lia. ring. }
  destruct HC as (HC & HA). destruct (loadu_incl keys 0 N ltac:(lia) ltac:(lia) ltac:(lia)) as (v & -> & LV & _ & NV).
  assert (U0 : upto 0) by (intros j x Hj; lia).
  destruct (vec_step v 0 con (mask_and (first_n N con) (ne_mask T v pivot)) ltac:(lia) ltac:(lia) LV ltac:(lia) NV (fun k => first_mask_true v con k LV ltac:(lia)) U0) as [(-> & U1)|(-> & MM & _)].
  2:{ eexists. split; [reflexivity|]. exact MM. }
  rewrite Z.add_0_l in U1. fold con.
  assert (GL : exists r, (if negb isfloat then group_loop T N (S (length keys)) addr keys (zlen keys) pivot con true true else Some (inr con)) = Some r /\
     match r with inl mm => mismatch mm | inr i' => con <= i' <= zlen keys /\ (addr + i') mod N = 0 /\ upto i' end).
  { destruct isfloat; cbn [negb].
    - eexists. split; [reflexivity|]. cbn beta iota. repeat split; try lia; assumption.
    - apply (group_loop_ok (length keys)); try lia; try assumption; try reflexivity. unfold zlen. nia. }
  destruct GL as (r & -> & R). destruct r as [mm|i]; [eexists; split; [reflexivity|exact R]|]. destruct R as (Ri & RA & RU).
  destruct (whole_loop_ok (length keys) (S (length keys)) i) as (r & -> & R); [lia|unfold zlen; nia|exact RA|lia|exact RU|].
  destruct r as [mm|]; [eexists; split; [reflexivity|exact R]|].
  rewrite (wrap_small 64 (zlen keys - N)) by lia. destruct (loadu_incl keys (zlen keys - N) N ltac:(lia) ltac:(lia) ltac:(lia)) as (w & -> & LW & _ & NW).
  assert (U2 : upto (zlen keys - N)) by (intros j x Hj; apply R; lia).
  destruct (vec_step w (zlen keys - N) N (ne_mask T w pivot) ltac:(lia) ltac:(lia) LW ltac:(lia) NW (fun k => ne_mask_true w k LW) U2) as [(-> & U')|(-> & MM & _)]; (eexists; split; [reflexivity|]); [|exact MM].
  cbn beta iota. intros x Hx. apply In_nth_error in Hx as (j & Hj). apply (U' j); [|exact Hj]. assert (j < length keys)%nat by (apply nth_error_Some; congruence). unfold zlen. lia.
Qed.
End AllEq.
(** ExistsAnyBefore, ExistsAnyAfter *)
Section Exists.
Variables (keys : list K) (sel : K -> K -> K) (hit : K -> bool) (pivot : K).
Hypothesis HS : forall a b, hit (sel a b) = hit a || hit b.
Hypothesis HP : hit pivot = false.
Hypothesis HK : N <= zlen keys < 2 ^ 62.
Definition hit_in (a b : Z) : Prop := exists j x, a <= Z.of_nat j < b /\ nth_error keys j = Some x /\ hit x = true.
Lemma existsb_vec v i : 0 <= i -> zlen v = N -> (forall j, (j < length v)%nat -> nth_error v j = nth_error keys (Z.to_nat i + j)) -> existsb hit v = true <-> hit_in i (i + N).
Proof.
  intros Hi LV NV. rewrite existsb_exists. unfold zlen in LV. split.
  - intros (x & Hx & H). apply In_nth_error in Hx as (j & Hj). assert (j < length v)%nat by (apply nth_error_Some; congruence). rewrite NV in Hj by lia. exists (Z.to_nat i + j)%nat, x. split; [lia|]. auto.
  - intros (j & x & Hj & Hx & H). exists x. split; [|exact H]. apply (nth_error_In v (j - Z.to_nat i)). rewrite NV by lia. replace (Z.to_nat i + (j - Z.to_nat i))%nat with j by lia. exact Hx.
Qed.
Lemma existsb_sel a b : length a = length b -> existsb hit (map (fun p : K * K => sel (fst p) (snd p)) (combine a b)) = existsb hit a || existsb hit b.
Proof.
  revert b. induction a as [|x a IH]; intros [|y b] H; try discriminate; [reflexivity|]. cbn in *. rewrite HS, IH by lia. destruct (hit x), (hit y), (existsb hit a); reflexivity.
Qed.
Lemma hit_in_app a b d : a <= b <= d -> hit_in a d <-> hit_in a b \/ hit_in b d.
Proof.
  intros H. split.
  - intros (j & x & Hj & R). destruct (Z.lt_ge_cases (Z.of_nat j) b); [left|right]; exists j, x; (split; [lia|exact R]).
  - intros [(j & x & Hj & R)|(j & x & Hj & R)]; exists j, x; (split; [lia|exact R]).
Qed.
Lemma scan_group_ok : forall (l : nat) i acc, 0 <= i -> i + N * Z.of_nat l <= zlen keys -> zlen acc = N ->
  exists acc', scan_group N l sel keys i acc = Some acc' /\ zlen acc' = N /\ (existsb hit acc' = true <-> existsb hit acc = true \/ hit_in i (i + N * Z.of_nat l)).
Proof.
  pose proof HN1 as N1. induction l as [|l IH]; intros i acc Hi HL LA; cbn [scan_group].
  - exists acc. split; [reflexivity|]. split; [exact LA|]. split; [tauto|]. intros [H|(j & x & Hj & _)]; [exact H|lia].
  - destruct (loadu_incl keys i N Hi ltac:(lia) ltac:(lia)) as (v & -> & LV & _ & NV).
    assert (LE : length acc = length v) by (unfold zlen in *; lia).
    destruct (IH (i + N) (map (fun p : K * K => sel (fst p) (snd p)) (combine acc v))) as (acc' & E & L' & R); [lia|lia| |].
    { unfold zlen in *. rewrite map_length, combine_length. lia. }
    exists acc'. split; [exact E|]. split; [exact L'|]. rewrite R, existsb_sel by exact LE. rewrite orb_true_iff, (existsb_vec v i Hi LV NV).
    rewrite (hit_in_app i (i + N) (i + N * Z.of_nat (S l))) by lia. replace (i + N * Z.of_nat (S l)) with (i + N + N * Z.of_nat l) by lia. tauto.
Qed.
Lemma scan_groups_ok : forall (m fuel : nat) i acc, (m < fuel)%nat -> zlen keys - i < 16 * N * Z.of_nat m + 16 * N -> 0 <= i <= zlen keys -> zlen acc = N -> existsb hit acc = false -> ~ hit_in 0 i ->
  exists r, scan_groups N fuel sel hit keys (zlen keys) i acc = Some r /\
    match r with None => hit_in 0 (zlen keys) | Some i' => i <= i' <= zlen keys /\ ~ hit_in 0 i' end.
Proof.
  pose proof HN1 as N1.
  induction m as [|m IH]; intros [|fuel] i acc Hf HM Hi LA EA NH; try lia; cbn [scan_groups].
  - assert (G : (16 * N <=? zlen keys) && (i <=? wrap 64 (zlen keys - 16 * N)) = false).
    { destruct (Z.leb_spec (16 * N) (zlen keys)); [|reflexivity]. cbn [andb]. rewrite (wrap_small 64 (zlen keys - 16 * N)) by lia. apply Z.leb_gt. lia. }
    rewrite G. eexists. split; [reflexivity|]. cbn beta iota. split; [lia|exact NH].
  - destruct ((16 * N <=? zlen keys) && (i <=? wrap 64 (zlen keys - 16 * N))) eqn:G.
    2:{ eexists. split; [reflexivity|]. cbn beta iota. split; [lia|exact NH]. }
    apply andb_true_iff in G as (G1 & G2). apply Z.leb_le in G1. rewrite (wrap_small 64 (zlen keys - 16 * N)) in G2 by lia. apply Z.leb_le in G2.
    destruct (scan_group_ok 16 i acc ltac:(lia) ltac:(lia) LA) as (acc' & -> & L' & R). replace (i + N * Z.of_nat 16) with (i + 16 * N) in R by lia.
    destruct (existsb hit acc') eqn:EB.
    + eexists. split; [reflexivity|]. cbn beta iota. apply (hit_in_app 0 i); [lia|]. right. apply (hit_in_app i (i + 16 * N)); [lia|]. left. destruct (proj1 R eq_refl); [congruence|assumption].
    + destruct (IH fuel (i + 16 * N) acc') as (r & E & RR); try lia; try assumption.
      { rewrite (hit_in_app 0 i) by lia. intros [H|H]; [auto|]. assert (false = true) by (apply R; now right). discriminate. }
      exists r. split; [exact E|]. destruct r; [|exact RR]. split; [lia|apply RR].
Qed.
Lemma scan_whole_ok : forall (m fuel : nat) i, (m < fuel)%nat -> zlen keys - i < N * Z.of_nat m + N -> 0 <= i <= zlen keys -> ~ hit_in 0 i ->
  exists r, scan_whole N fuel hit keys (zlen keys) i = Some r /\ match r with None => hit_in 0 (zlen keys) | Some i' => zlen keys - N < i' <= zlen keys /\ ~ hit_in 0 i' end.
Proof.
  pose proof HN1 as N1.
  induction m as [|m IH]; intros [|fuel] i Hf HM Hi NH; try lia; cbn [scan_whole]; rewrite (wrap_small 64 (zlen keys - N)) by lia.
  - rewrite (proj2 (Z.leb_gt _ _)) by lia. eexists. split; [reflexivity|]. cbn beta iota. split; [lia|exact NH].
  - destruct (Z.leb_spec i (zlen keys - N)) as [G|G]; [|eexists; split; [reflexivity|]; cbn beta iota; split; [lia|exact NH]].
    destruct (loadu_incl keys i N ltac:(lia) ltac:(lia) ltac:(lia)) as (v & -> & LV & _ & NV). pose proof (existsb_vec v i ltac:(lia) LV NV) as R.
    destruct (existsb hit v) eqn:EB.
    + eexists. split; [reflexivity|]. cbn beta iota. apply (hit_in_app 0 i); [lia|]. right. apply (hit_in_app i (i + N)); [lia|]. left. now apply R.
    + apply IH; try lia. rewrite (hit_in_app 0 i) by lia. intros [H|H]; [auto|]. apply R in H. discriminate.
Qed.
Lemma hit_in_all : hit_in 0 (zlen keys) <-> exists x, In x keys /\ hit x = true.
Proof.
  split.
  - intros (j & x & _ & Hx & H). exists x. split; [eapply nth_error_In; eauto|exact H].
  - intros (x & Hx & H). apply In_nth_error in Hx as (j & Hj). exists j, x. split; [|auto]. assert (j < length keys)%nat by (apply nth_error_Some; congruence). unfold zlen. lia.
Qed.
Lemma exists_any_ok : exists b, exists_any N debug sel hit pivot keys (zlen keys) = Some b /\ (b = true <-> exists x, In x keys /\ hit x = true).
Proof.
  pose proof HN1 as N1. unfold exists_any. rewrite dassert_ok by (apply Z.leb_le; lia). pose proof hit_in_all as HALL.
  match goal with |- exists b, ?X = Some b /\ _ => enough (exists b, X = Some b /\ (b = true <-> hit_in 0 (zlen keys))) as (b & E & R) by (exists b; split; [exact E|]; rewrite R; exact HALL) end.
  assert (NH0 : ~ hit_in 0 0) by (intros (j & x & Hj & _); lia).
  assert (ES : existsb hit (set N pivot) = false). { unfold set. induction (Z.to_nat N) as [|k IH]; [reflexivity|]. cbn. now rewrite HP, IH. }
  destruct (scan_groups_ok (length keys) (S (length keys)) 0 (set N pivot)) as (r & -> & R); [lia|unfold zlen; nia|lia|unfold set, zlen; rewrite repeat_length; lia|exact ES|exact NH0|].
  destruct r as [i|]; [|exists true; split; [reflexivity|tauto]]. destruct R as (Hi & NH).
  destruct (scan_whole_ok (length keys) (S (length keys)) i) as (r & -> & R); [lia|unfold zlen; nia|lia|exact NH|].
  destruct r as [i'|]; [|exists true; split; [reflexivity|tauto]]. destruct R as (Hi' & NH').
  destruct (Z.eqb_spec i' (zlen keys)) as [->|NE]; cbn [negb].
  - exists false. split; [reflexivity|]. split; [discriminate|contradiction].
  - rewrite (wrap_small 64 (zlen keys - N)) by lia. destruct (loadu_incl keys (zlen keys - N) N ltac:(lia) ltac:(lia) ltac:(lia)) as (v & -> & LV & _ & NV).
    exists (existsb hit v). split; [reflexivity|]. rewrite (existsb_vec v (zlen keys - N) ltac:(lia) LV NV). replace (zlen keys - N + N) with (zlen keys) by lia.
    rewrite (hit_in_app 0 (zlen keys - N) (zlen keys)) by lia. split; [tauto|]. intros [H|H]; [|exact H]. exfalso. apply NH'. apply (hit_in_app 0 (zlen keys - N)); [lia|]. now left.
Qed.
End Exists.
Lemma exists_any_before_ok keys pivot : N <= zlen keys < 2 ^ 62 -> exists b, exists_any_before T N debug keys (zlen keys) pivot = Some b /\ (b = true <-> exists x, In x keys /\ lt x pivot = true).
Proof.
  intros HK. apply exists_any_ok; [|apply sw_irr|exact HK]. intros a b. destruct (tok_first _ TOK a b) as (O & A & B).
  destruct (lt (t_first T a b) pivot) eqn:E.
  - destruct O as [O|O]; rewrite O in E; rewrite E; [reflexivity|]. symmetry. apply orb_true_r.
  - rewrite (sw_ntr _ _ _ A E), (sw_ntr _ _ _ B E). reflexivity.
Qed.
Lemma exists_any_after_ok keys pivot : N <= zlen keys < 2 ^ 62 -> exists b, exists_any_after T N debug keys (zlen keys) pivot = Some b /\ (b = true <-> exists x, In x keys /\ lt pivot x = true).
Proof.
  intros HK. apply (exists_any_ok keys (t_last T) (fun x => lt pivot x)); [|apply sw_irr|exact HK]. intros a b. cbv beta. destruct (tok_last _ TOK a b) as (O & A & B).
  destruct (lt pivot (t_last T a b)) eqn:E.
  - destruct O as [O|O]; rewrite O in E; rewrite E; [reflexivity|]. symmetry. apply orb_true_r.
  - rewrite (sw_ntr _ _ _ E A), (sw_ntr _ _ _ E B). reflexivity.
Qed.
(** what the choice of the pivot guarantees *)
Definition pivot_ok (keys : list K) (pr : K * pivot_result) : Prop :=
  let '(pivot, res) := pr in
  (exists x, In x keys /\ lt pivot x = false) /\ (exists y, In y keys /\ lt pivot y = true) /\
  (res = kIsFirst -> forall x, In x keys -> lt x pivot = false) /\
  (res = kWasLast -> exists v, (forall x, lt pivot x = negb (lt x v)) /\ forall x, In x keys -> lt v x = false).
Lemma lastv_last x : lt (t_lastv T) x = false.
Proof. destruct (lt (t_lastv T) x) eqn:E; [|reflexivity]. apply (tok_refine _ TOK) in E. rewrite (tok_pad _ TOK) in E. discriminate. Qed.
Lemma choose_equal_ok keys samples pivot second third : N <= zlen keys < 2 ^ 62 -> rd samples 0 = Some pivot -> rep keys pivot -> In second keys ->
  (if t_kv T then eqk second pivot = false else In third keys /\ eqk second third = false) ->
  exists pr, choose_pivot_for_equal_samples T N debug keys (zlen keys) samples second third = Some pr /\ pivot_ok keys pr.
Proof.
  intros HK HR (p & Hp & Ep) HS HC. unfold choose_pivot_for_equal_samples. rewrite HR.
  (* a key other than the pivot *)
  assert (OTH : exists o, In o keys /\ eqk o pivot = false).
  { destruct (t_kv T); [eauto|]. destruct HC as (I3 & NE). destruct (eqk second pivot) eqn:E1; [|eauto]. destruct (eqk third pivot) eqn:E2; [|eauto].
    rewrite eq_sym in E2. rewrite (eq_trans' _ _ _ E1 E2) in NE. discriminate. }
  destruct OTH as (o & Io & No).
  assert (PP : lt pivot p = false /\ lt p pivot = false) by (apply eq_spec; exact Ep).
  assert (WL : (forall x, In x keys -> lt pivot x = false) -> eqk pivot (t_firstv T) = false -> pivot_ok keys (t_prev T pivot, kWasLast)).
  { intros NA NF. assert (PV : forall x, lt (t_prev T pivot) x = negb (lt x pivot)) by (intros x; apply (tok_prev _ TOK); exact NF).
    split; [|split; [|split; [discriminate|]]].
    - exists o. split; [exact Io|]. rewrite PV. destruct (ne_cases _ _ No) as [E|E]; [now rewrite E|]. rewrite NA in E by exact Io. discriminate.
    - exists p. split; [exact Hp|]. rewrite PV. now rewrite (proj2 PP).
    - intros _. exists pivot. auto. }
  assert (IF : (forall x, In x keys -> lt x pivot = false) -> pivot_ok keys (pivot, kIsFirst)).
  { intros NB. split; [|split; [|split; [intros _; exact NB|discriminate]]].
    - exists p. split; [exact Hp|apply PP].
    - exists o. split; [exact Io|]. destruct (ne_cases _ _ No) as [E|E]; [|exact E]. rewrite NB in E by exact Io. discriminate. }
  assert (NO : (exists y, In y keys /\ lt pivot y = true) -> pivot_ok keys (pivot, kNormal)).
  { intros Y. split; [|split; [exact Y|split; discriminate]]. exists p. split; [exact Hp|apply PP]. }
  destruct (eqk pivot (t_firstv T)) eqn:EF.
  { eexists. split; [reflexivity|]. apply IF. intros x _. rewrite (eq_lt_r _ _ x EF). apply (tok_firstv _ TOK). }
  destruct (eqk pivot (t_lastv T)) eqn:EL.
  { eexists. split; [reflexivity|]. apply WL; [|reflexivity]. intros x _. rewrite (eq_lt_l _ _ x EL). apply lastv_last. }
  destruct (exists_any_after_ok keys pivot HK) as (ba & EA & RA). destruct (exists_any_before_ok keys pivot HK) as (bb & EB & RB).
  assert (AFT : ba = false -> forall x, In x keys -> lt pivot x = false). { intros -> x Hx. destruct (lt pivot x) eqn:E; [|reflexivity]. assert (false = true) by (apply RA; eauto). discriminate. }
  assert (BEF : bb = false -> forall x, In x keys -> lt x pivot = false). { intros -> x Hx. destruct (lt x pivot) eqn:E; [|reflexivity]. assert (false = true) by (apply RB; eauto). discriminate. }
  destruct (t_kv T) eqn:EKV.
  - cbv zeta. destruct (lt second pivot) eqn:ESP.
    + rewrite EA. destruct ba; eexists; (split; [reflexivity|]); [apply NO; now apply RA|apply WL; auto].
    + rewrite EB. destruct (ne_cases _ _ HC) as [E|E]; [congruence|]. destruct bb; eexists; (split; [reflexivity|]); [apply NO; eauto|apply IF; auto].
  - destruct HC as (I3 & NE).
    assert (S2 : exists a b, t_sort2 T second third = (a, b) /\ lt a b = true /\ In a keys /\ In b keys).
    { destruct (tok_sort2 _ TOK second third) as (O & NL). destruct (t_sort2 T second third) as (a & b). exists a, b. split; [reflexivity|]. cbn [fst snd] in NL.
      destruct O as [[= -> ->]|[= -> ->]]; (split; [|auto]); destruct (ne_cases _ _ NE) as [E|E]; congruence. }
    destruct S2 as (a & b & -> & LAB & Ia & Ib). rewrite dassert_ok by exact LAB. cbv zeta.
    assert (BA : lt a pivot || lt pivot b = true). { destruct (lt a pivot) eqn:E1; [reflexivity|]. destruct (lt pivot b) eqn:E2; [reflexivity|]. rewrite (sw_ntr _ _ _ E1 E2) in LAB. discriminate. }
    rewrite dassert_ok by exact BA. destruct (lt a pivot) eqn:E1.
    + destruct (lt pivot b) eqn:E2.
      * eexists. split; [reflexivity|]. apply NO. eauto.
      * rewrite EA. destruct ba; eexists; (split; [reflexivity|]); [apply NO; now apply RA|apply WL; auto].
    + cbn [orb] in BA. rewrite EB. destruct bb; eexists; (split; [reflexivity|]); [apply NO; eauto|apply IF; auto].
Qed.
Lemma all_eq_sorted l p : (forall x, In x l -> eqk x p = true) -> sorted lt l.
Proof.
  intros H i j x y _ Hx Hy. assert (E : eqk y x = true). { eapply eq_trans'; [apply H; eapply nth_error_In; exact Hy|]. rewrite eq_sym. apply H. eapply nth_error_In; exact Hx. }
  apply eq_spec in E. tauto.
Qed.
Lemma all_eq_repeat l p : t_kv T = false -> (forall x, In x l -> eqk x p = true) -> l = repeat p (length l).
Proof. intros KV. induction l as [|x l IH]; intros H; [reflexivity|]. cbn [length repeat]. f_equal; [apply (eq_id KV), H; now left|apply IH; intros; apply H; now right]. Qed.
Notation choose' addr keys buf s := (choose T N maxN kC lpk big fault isfloat debug zero addr keys (zlen keys) buf s).
Lemma choose_ok addr keys buf s : 0 <= addr -> base < zlen keys < 2 ^ 62 -> ns + base + N <= zlen buf -> rng_ok s ->
  exists keys' buf' s' o, choose' addr keys buf s = Some (keys', buf', s', o) /\ Permutation keys keys' /\ zlen buf' = zlen buf /\ rng_ok s' /\
    match o with None => sorted lt keys' | Some pr => pivot_ok keys' pr end.
Proof.
  intros Ha HK HB Hs. pose proof HN1 as N1. pose proof HkC32 as C32. assert (NSP : 2 <= ns) by (unfold nsamples; lia). unfold choose.
  destruct (draw_samples_ok addr keys buf s Ha ltac:(lia) ltac:(lia) Hs) as (b1 & s1 & -> & Hs1 & Lb1 & R1).
  destruct (unsorted_sample_equal_ok b1 ltac:(lia)) as (b & first & -> & F1 & RB). destruct b.
  - rewrite F1. assert (RP : rep keys first). { apply (R1 O); [lia|]. unfold rd in F1. exact F1. }
    destruct (all_equal_ok keys first ltac:(lia) addr Ha) as (r & -> & RE). destruct r as [idx|].
    2:{ exists keys, b1, s1, None. repeat (split; [first [reflexivity|assumption]|]). apply (all_eq_sorted keys first RE). }
    destruct RE as (Hidx & U & second & E2 & NE). rewrite E2.
    assert (I2 : In second keys). { unfold rd in E2. destruct (idx <? 0); [discriminate|]. eapply nth_error_In; eauto. }
    destruct (t_kv T) eqn:KV; cbn [negb].
    + destruct (choose_equal_ok keys b1 first second zero) as (pr & -> & PO); try lia; try assumption; [now rewrite KV|].
      exists keys, b1, s1, (Some pr). repeat (split; [first [reflexivity|assumption]|]). exact PO.
    + assert (SP : keys = repeat first (Z.to_nat idx) ++ second :: skipn (S (Z.to_nat idx)) keys).
      { assert (LF : length (firstn (Z.to_nat idx) keys) = Z.to_nat idx) by (rewrite firstn_length; unfold zlen in Hidx; lia).
        rewrite <- LF at 1. rewrite <- (all_eq_repeat (firstn (Z.to_nat idx) keys) first KV).
        - unfold rd in E2. rewrite (proj2 (Z.ltb_ge _ _)) in E2 by lia. clear - E2. revert keys E2. generalize (Z.to_nat idx). intros k. induction k as [|k IH]; intros [|x l] H; try discriminate; [cbn in H; injection H as ->; reflexivity|]. cbn in *. f_equal. apply IH, H.
        - intros x Hx. apply In_nth_error in Hx as (j & Hj). assert (j < length (firstn (Z.to_nat idx) keys))%nat by (apply nth_error_Some; congruence). rewrite nth_error_firstn in Hj by lia. apply (U j); [lia|exact Hj]. }
      assert (TOT : forall a b, a <> b -> lt a b = true \/ lt b a = true). { intros a b D. apply ne_cases. destruct (eqk a b) eqn:E; [|reflexivity]. apply (eq_id KV) in E. contradiction. }
      assert (D12 : first <> second). { intros ->. rewrite eq_refl' in NE. discriminate. }
      destruct (C29_two_keys lt eqk N (tok_sw _ TOK) (eq_id KV) ltac:(lia) TOT b1 first second (Z.to_nat idx) (skipn (S (Z.to_nat idx)) keys) ltac:(lia)) as (k' & b' & o & E & P & LB & SS); [exact D12|rewrite <- SP; lia|].
      rewrite <- SP in E, P, SS. rewrite Z2Nat.id in E by lia. rewrite E. destruct o as [third|u].
      2:{ exists k', b', s1, None. split; [reflexivity|]. split; [exact P|]. split; [lia|]. split; [exact Hs1|]. exact SS. }
      destruct SS as (I3 & D13 & D23 & RD). destruct (rd_nth b' 0 ltac:(lia)) as (p & Ep & _ & _).
      assert (LK : zlen k' = zlen keys) by (unfold zlen; f_equal; symmetry; now apply Permutation_length).
      rewrite <- LK in *. destruct (choose_equal_ok k' b' p second third) as (pr & -> & PO); [lia|exact Ep| |eapply Permutation_in; eauto| |].
      * apply (rep_perm _ _ _ P). destruct (RD p Ep) as [X|X]; [rewrite F1 in X; injection X as <-; exact RP|]. exists p. split; [exact X|apply eq_refl'].
      * rewrite KV. split; [eapply Permutation_in; eauto|]. destruct (eqk second third) eqn:X; [|reflexivity]. apply (eq_id KV) in X. congruence.
      * exists k', b', s1, (Some pr). repeat (split; [first [reflexivity|assumption|lia]|]). exact PO.
  - destruct (sort_samples_ok b1 ltac:(lia)) as (b2 & -> & Lb2 & P2 & S2).
    assert (R2 : forall j x, Z.of_nat j < ns -> nth_error b2 j = Some x -> rep keys x).
    { intros j x Hj Hx. assert (HI : In x (firstn (Z.to_nat ns) b1)). { apply (Permutation_in _ (Permutation_sym P2)). apply (nth_error_In _ j). rewrite nth_error_firstn by lia. exact Hx. }
      apply In_nth_error in HI as (j' & Hj'). assert (j' < length (firstn (Z.to_nat ns) b1))%nat by (apply nth_error_Some; congruence). rewrite firstn_length in H. rewrite nth_error_firstn in Hj' by lia. apply (R1 j'); [lia|exact Hj']. }
    destruct (rd_nth b2 0 ltac:(lia)) as (f2 & Ef2 & Nf2 & _).
    assert (NEQ : exists j x f, Z.of_nat j < ns /\ nth_error b2 j = Some x /\ rd b2 0 = Some f /\ eqk x f = false).
    { destruct (forallb (fun x => eqk x f2) (firstn (Z.to_nat ns) b2)) eqn:FB.
      - exfalso. rewrite forallb_forall in FB. assert (X : false = true); [|discriminate]. apply RB. intros j x Hj Hx.
        assert (G : forall k y, Z.of_nat k < ns -> nth_error b1 k = Some y -> eqk y f2 = true). { intros k y Hk Hy. apply FB. apply (Permutation_in _ P2). apply (nth_error_In _ k). rewrite nth_error_firstn by lia. exact Hy. }
        eapply eq_trans'; [apply (G j x Hj Hx)|]. rewrite eq_sym. apply (G O first); [lia|]. unfold rd in F1. exact F1.
      - apply forallb_false in FB as (x & Hx & NE). apply In_nth_error in Hx as (j & Hj). assert (j < length (firstn (Z.to_nat ns) b2))%nat by (apply nth_error_Some; congruence). rewrite firstn_length in H. rewrite nth_error_firstn in Hj by lia.
        exists j, x, f2. repeat (split; [first [assumption|lia]|]). exact NE. }
    assert (TS : exists k' b' r, (if negb (t_kv T) then partition_if_two_samples eqk N (t_prev T) ns keys (zlen keys) b2 else Some (keys, b2, false)) = Some (k', b', r) /\
       Permutation keys k' /\ zlen b' = zlen b2 /\ firstn (Z.to_nat ns) b' = firstn (Z.to_nat ns) b2 /\ (r = true -> sorted lt k')).
    { destruct (t_kv T) eqn:KV; cbn [negb]; [exists keys, b2, false; repeat (split; [reflexivity|]); discriminate|].
      destruct (choose_pivot_by_rank_ok b2 ltac:(lia) S2 NEQ) as (pv & la & j & l & _ & Hj & Nj & Hl & Nl & LT).
      destruct (rd_nth b2 (ns - 1) ltac:(lia)) as (la2 & El2 & Nl2 & _).
      assert (SO' : forall i j x y, (i <= j)%nat -> Z.of_nat j < ns -> nth_error b2 i = Some x -> nth_error b2 j = Some y -> lt y x = false).
      { intros i0 j0 x y Hij Hj0 Hx Hy. destruct (Nat.eq_dec i0 j0) as [->|]; [rewrite Hx in Hy; injection Hy as ->; apply sw_irr|]. apply (S2 i0 j0); [lia| |]; rewrite nth_error_firstn by lia; assumption. }
      assert (LT2 : lt f2 la2 = true).
      { assert (X1 : lt pv f2 = false) by (apply (SO' O j); [lia|lia|exact Nf2|exact Nj]). assert (X2 : lt la2 la = false) by (apply (SO' l (Z.to_nat (ns - 1))); [lia|lia|exact Nl|exact Nl2]).
        destruct (lt f2 la2) eqn:E; [reflexivity|]. rewrite <- LT. symmetry. eapply sw_ntr; [exact X1|]. eapply sw_ntr; eauto. }
      destruct (C29_two_samples lt eqk N (tok_sw _ TOK) (eq_id KV) ltac:(lia) (t_prev T) ns keys b2 f2 la2 ltac:(lia) ltac:(lia) ltac:(lia) Ef2 El2 LT2) as (k' & b' & r & E & P & LB & FN & T1 & _).
      exists k', b', r. repeat (split; [assumption|]). exact T1. }
    destruct TS as (k' & b3 & r & -> & P3 & Lb3 & FN & T1). destruct r.
    { exists k', b3, s1, None. repeat (split; [first [reflexivity|assumption|lia]|]). apply T1. reflexivity. }
    assert (N3 : forall j, Z.of_nat j < ns -> nth_error b3 j = nth_error b2 j). { intros j Hj. rewrite <- (nth_error_firstn b3 (Z.to_nat ns) j) by lia. rewrite FN. apply nth_error_firstn. lia. }
    destruct (choose_pivot_by_rank_ok b3 ltac:(lia)) as (pv & la & j & l & -> & Hj & Nj & Hl & Nl & LT).
    { rewrite FN. exact S2. }
    { destruct NEQ as (j & x & f & Hj & Hx & Hf & NE). exists j, x, f. split; [exact Hj|]. split; [rewrite N3 by lia; exact Hx|]. split; [|exact NE]. unfold rd in *. cbn [Z.ltb Z.compare] in *. rewrite N3 by lia. exact Hf. }
    exists k', b3, s1, (Some (pv, kNormal)). repeat (split; [first [reflexivity|assumption|lia]|]).
    rewrite N3 in Nj, Nl by lia. destruct (rep_perm _ _ _ P3 (R2 j pv Hj Nj)) as (x & Ix & Ex). destruct (rep_perm _ _ _ P3 (R2 l la Hl Nl)) as (y & Iy & Ey).
    split; [|split; [|split; discriminate]].
    + exists x. split; [exact Ix|]. apply eq_spec in Ex. tauto.
    + exists y. split; [exact Iy|]. rewrite <- (eq_lt_r _ _ pv Ey). exact LT.
Qed.
(** Recurse *)
Lemma app_sorted l r : sorted lt l -> sorted lt r -> (forall x y, In x l -> In y r -> lt y x = false) -> sorted lt (l ++ r).
Proof.
  intros SL SR X i j x y Hij Hx Hy. destruct (Nat.lt_ge_cases j (length l)).
  - rewrite nth_error_app1 in Hx, Hy by lia. exact (SL i j x y Hij Hx Hy).
  - rewrite nth_error_app2 in Hy by lia. destruct (Nat.lt_ge_cases i (length l)).
    + rewrite nth_error_app1 in Hx by lia. apply X; eapply nth_error_In; eauto.
    + rewrite nth_error_app2 in Hx by lia. apply (SR (i - length l)%nat (j - length l)%nat); [lia|exact Hx|exact Hy].
Qed.
Lemma sorted_selected l k : sorted lt l -> selected lt l k.
Proof. intros S x Hx. split; intros i y Hi Hy; [exact (S i k y x Hi Hy Hx)|exact (S k i x y Hi Hx Hy)]. Qed.
Lemma app_selected l r k : selected lt l k -> (k < length l)%nat -> (forall x y, In x l -> In y r -> lt y x = false) -> selected lt (l ++ r) k.
Proof.
  intros S Hk X x Hx. rewrite nth_error_app1 in Hx by lia. destruct (S x Hx) as (S1 & S2). split; intros i y Hi Hy.
  - rewrite nth_error_app1 in Hy by lia. apply (S1 i y); [lia|exact Hy].
  - destruct (Nat.lt_ge_cases i (length l)); [rewrite nth_error_app1 in Hy by lia; apply (S2 i y); [lia|exact Hy]|]. rewrite nth_error_app2 in Hy by lia. apply X; eapply nth_error_In; eauto.
Qed.
Lemma app_selected_r l r k : selected lt r k -> (forall x y, In x l -> In y r -> lt y x = false) -> selected lt (l ++ r) (length l + k).
Proof.
  intros S X x Hx. rewrite nth_error_app2 in Hx by lia. replace (length l + k - length l)%nat with k in Hx by lia. destruct (S x Hx) as (S1 & S2). split; intros i y Hi Hy.
  - destruct (Nat.lt_ge_cases i (length l)); [rewrite nth_error_app1 in Hy by lia; apply X; eapply nth_error_In; eauto|]. rewrite nth_error_app2 in Hy by lia. apply (S1 (i - length l)%nat y); [lia|exact Hy].
  - rewrite nth_error_app2 in Hy by lia. apply (S2 (i - length l)%nat y); [lia|exact Hy].
Qed.
Lemma heap_ok keys : 1 <= zlen keys < 2 ^ 60 -> exists keys', heap T lpk keys = Some keys' /\ Permutation keys keys' /\ sorted lt keys'.
Proof.
  intros HK. unfold heap. destruct keys as [|dk t] eqn:E; [cbn in HK; lia|]. rewrite <- E in *. clear E t.
  destruct (heap_sort_ok dk lt lpk (tok_sw _ TOK) ltac:(lia) (zlen keys) (Z.to_nat (2 * zlen keys + 3)) keys) as (l' & E & L & P & S & _); [lia|nia|lia|].
  exists l'. split; [exact E|]. split; [exact P|]. intros i j x y Hij Hi Hj.
  destruct (g_nth dk l' i x Hi) as (<- & HI). destruct (g_nth dk l' j y Hj) as (<- & HJ). apply S; lia.
Qed.
Lemma base_ok keys buf : zlen keys <= base -> base + N <= zlen buf -> exists keys' buf', base_case (t_ltn T) (t_lastv T) fault N maxN big keys (zlen keys) buf = Some (keys', buf') /\ zlen buf' = zlen buf /\ Permutation keys keys' /\ sorted lt keys'.
Proof.
  intros HK HB. destruct (base_case_ok (t_ltn T) (t_lastv T) (tok_net _ TOK) (tok_pad _ TOK) fault big lpk N maxN n keys buf HN ltac:(lia) HmaxN Hlpk HK HB) as (k & b & E & LB & P & S).
  exists k, b. repeat (split; [assumption|]). intros i j x y Hij Hx Hy. specialize (S i j x y Hij Hx Hy). destruct (lt y x) eqn:EL; [|reflexivity]. rewrite (tok_refine _ TOK _ _ EL) in S. discriminate.
Qed.
(** the partition step after a choice of pivot *)
Lemma split_ok keys buf pivot res : 2 * N < zlen keys < 2 ^ 62 -> 26 * N <= zlen buf -> pivot_ok keys (pivot, res) ->
  exists keys' buf' b, partition lt zero N tail upper part false pivot keys (zlen keys) buf = Some (keys', buf', b) /\ zlen buf' = zlen buf /\ Permutation keys keys' /\ 1 <= b < zlen keys /\
    (forall x y, In x (firstn (Z.to_nat b) keys') -> In y (skipn (Z.to_nat b) keys') -> lt y x = false) /\
    (res = kIsFirst -> forall x y, In x (firstn (Z.to_nat b) keys') -> In y (firstn (Z.to_nat b) keys') -> eqk x y = true) /\
    (res = kWasLast -> forall x y, In x (skipn (Z.to_nat b) keys') -> In y (skipn (Z.to_nat b) keys') -> eqk x y = true).
Proof.
  intros HK HB (PX & PY & PF & PW).
  destruct (partition_ok lt zero N tail upper part pivot HN1 HT HU n keys buf HN Hn) as (L & R & buf' & E & LB & P & FL & FR); try lia.
  exists (L ++ R), buf', (zlen L). split; [exact E|]. split; [lia|]. split; [now symmetry|].
  assert (LL : zlen (L ++ R) = zlen keys) by (unfold zlen; f_equal; now apply Permutation_length).
  rewrite Forall_forall in FL, FR.
  assert (F1 : firstn (Z.to_nat (zlen L)) (L ++ R) = L) by (unfold zlen; rewrite Nat2Z.id, firstn_app, Nat.sub_diag, firstn_all; cbn [firstn]; apply app_nil_r).
  assert (F2 : skipn (Z.to_nat (zlen L)) (L ++ R) = R) by (unfold zlen; rewrite Nat2Z.id, skipn_app, Nat.sub_diag, skipn_all; reflexivity).
  rewrite F1, F2. split; [|split; [|split]].
  - destruct PX as (x & Hx & LX). destruct PY as (y & Hy & LY). unfold zlen in *. rewrite app_length in LL.
    assert (IN : forall z, In z keys -> In z L \/ In z R) by (intros z Hz; apply in_app_or; eapply Permutation_in; [symmetry; exact P|exact Hz]).
    assert (L <> []). { intros ->. destruct (IN x Hx) as [[]|Hz]. apply FR in Hz. congruence. }
    assert (R <> []). { intros ->. destruct (IN y Hy) as [Hz|[]]. apply FL in Hz. rewrite LY in Hz. discriminate. }
    destruct L; [congruence|]. destruct R; [congruence|]. cbn [length] in *. lia.
  - intros x y Hx Hy. apply FL in Hx. apply FR in Hy. apply negb_true_iff in Hx. destruct (lt y x) eqn:EE; [|reflexivity]. rewrite (sw_tr _ _ _ Hy EE) in Hx. discriminate.
  - intros HF x y Hx Hy. assert (Q : forall z, In z L -> eqk z pivot = true).
    { intros z Hz. apply eq_spec. split; [|apply negb_true_iff; apply FL; exact Hz]. apply (PF HF). eapply Permutation_in; [exact P|]. apply in_or_app. now left. }
    eapply eq_trans'; [apply Q, Hx|]. rewrite eq_sym. apply Q, Hy.
  - intros HW x y Hx Hy. destruct (PW HW) as (v & PV & NV). assert (Q : forall z, In z R -> eqk z v = true).
    { intros z Hz. apply eq_spec. split; [|apply NV; eapply Permutation_in; [exact P|]; apply in_or_app; now right]. apply FR in Hz. rewrite PV in Hz. now apply negb_true_iff in Hz. }
    eapply eq_trans'; [apply Q, Hx|]. rewrite eq_sym. apply Q, Hy.
Qed.
Notation recurse' levels mode addr keys buf s k := (recurse T N maxN kC lpk big fault isfloat debug zero tail upper part levels mode addr keys buf s k).
Definition done (mode : rmode) (k : Z) (l : list K) : Prop := match mode with kSort => sorted lt l | kSelect => k < zlen l -> selected lt l (Z.to_nat k) end.
Lemma done_sorted mode k l : sorted lt l -> done mode k l.
Proof. intros S. destruct mode; [exact S|]. intros _. now apply sorted_selected. Qed.
Lemma pair_eq_sorted l : (forall x y, In x l -> In y l -> eqk x y = true) -> sorted lt l.
Proof. intros H i j x y _ Hx Hy. apply nth_error_In in Hx, Hy. specialize (H _ _ Hx Hy). apply eq_spec in H. tauto. Qed.
Lemma recurse_ok : forall levels mode addr keys buf s k, 0 <= addr -> 1 <= zlen keys < 2 ^ 60 -> ns + base + N <= zlen buf -> 26 * N <= zlen buf -> rng_ok s -> 0 <= k <= zlen keys ->
  exists keys' buf' s', recurse' levels mode addr keys buf s k = Some (keys', buf', s') /\ Permutation keys keys' /\ zlen buf' = zlen buf /\ rng_ok s' /\ done mode k keys'.
Proof.
  pose proof HN1 as N1. pose proof HkC32 as C32. assert (NSP : 2 <= ns) by (unfold nsamples; lia).
  induction levels as [levels IH] using (well_founded_induction Wf_nat.lt_wf). intros mode addr keys buf s k Ha HK HB HB2 Hs Hk.
  assert (UNF : recurse' levels mode addr keys buf s k =
    dassert debug (negb (zlen keys =? 0))
      (if zlen keys <=? base then match base_case (t_ltn T) (t_lastv T) fault N maxN big keys (zlen keys) buf with Some (keys, buf) => Some (keys, buf, s) | None => None end
       else match choose' addr keys buf s with
     | None => None
     | Some (keys0, buf, s, None) => Some (keys0, buf, s)
     | Some (keys0, buf, s, Some (pivot, result)) =>
         match levels with
         | O => match heap T lpk keys0 with Some keys => Some (keys, buf, s) | None => None end
         | S l =>
             match partition lt zero N tail upper part false pivot keys0 (zlen keys) buf with
             | None => None
             | Some (keys0, buf, bound) =>
                 dassert debug (negb (bound =? 0))
                 (dassert debug (negb (bound =? zlen keys) || was_last result)
                  (let lhs := firstn (Z.to_nat bound) keys0 in
                   let rhs := skipn (Z.to_nat bound) keys0 in
                   match mode with
                   | kSelect =>
                       if negb (is_first result) && (k <? bound) then
                         match recurse' l kSelect addr lhs buf s k with
                         | Some (lhs, buf, s) => Some (lhs ++ rhs, buf, s)
                         | None => None
                         end
                       else if negb (was_last result) && (bound <=? k) then
                         match recurse' l kSelect (addr + bound) rhs buf s (k - bound) with
                         | Some (rhs, buf, s) => Some (lhs ++ rhs, buf, s)
                         | None => None
                         end
                       else Some (keys0, buf, s)
                   | kSort =>
                       match (if negb (is_first result) then recurse' l kSort addr lhs buf s 0 else Some (lhs, buf, s)) with
                       | None => None
                       | Some (lhs, buf, s) =>
                           match (if negb (was_last result) then recurse' l kSort (addr + bound) rhs buf s 0 else Some (rhs, buf, s)) with
                           | None => None
                           | Some (rhs, buf, s) => Some (lhs ++ rhs, buf, s)
                           end
                       end
                   end))
             end
         end
     end)) by (destruct levels; reflexivity).
  rewrite UNF. clear UNF. rewrite dassert_ok by (rewrite (proj2 (Z.eqb_neq _ _)) by lia; reflexivity).
  destruct (Z.leb_spec (zlen keys) base) as [HBC|HBC].
  { destruct (base_ok keys buf HBC ltac:(lia)) as (k' & b' & -> & LB & P & S). exists k', b', s. repeat (split; [first [reflexivity|assumption]|]). now apply done_sorted. }
  destruct (choose_ok addr keys buf s Ha ltac:(lia) HB Hs) as (k1 & b1 & s1 & o & -> & P1 & LB1 & Hs1 & O1).
  assert (LK1 : zlen k1 = zlen keys) by (unfold zlen; f_equal; symmetry; now apply Permutation_length).
  destruct o as [(pivot & res)|].
  2:{ exists k1, b1, s1. repeat (split; [first [reflexivity|assumption]|]). now apply done_sorted. }
  destruct levels as [|l].
  { destruct (heap_ok k1 ltac:(lia)) as (k2 & -> & P2 & S2). exists k2, b1, s1. split; [reflexivity|]. split; [eapply Permutation_trans; eauto|]. repeat (split; [assumption|]). now apply done_sorted. }
  destruct (split_ok k1 b1 pivot res ltac:(lia) ltac:(lia) O1) as (k2 & b2 & b & E & LB2 & P2 & Hb & LR & QF & QW). rewrite LK1 in E. rewrite E.
  rewrite dassert_ok by (rewrite (proj2 (Z.eqb_neq _ _)) by lia; reflexivity). rewrite dassert_ok by (rewrite (proj2 (Z.eqb_neq _ _)) by lia; reflexivity). cbv zeta.
  assert (LK2 : zlen k2 = zlen keys) by (unfold zlen; f_equal; symmetry; apply Permutation_length; eapply Permutation_trans; eauto).
  set (lhs := firstn (Z.to_nat b) k2) in *. set (rhs := skipn (Z.to_nat b) k2) in *.
  assert (SPL : k2 = lhs ++ rhs) by (symmetry; apply firstn_skipn).
  assert (P12 : Permutation keys (lhs ++ rhs)) by (rewrite <- SPL; eapply Permutation_trans; eauto).
  assert (LLH : zlen lhs = b) by (unfold lhs; apply zlen_firstn; lia).
  assert (LRH : zlen rhs = zlen keys - b) by (unfold rhs; rewrite zlen_skipn by lia; lia).
  assert (CRS : forall l2 r2, Permutation lhs l2 -> Permutation rhs r2 -> forall x y, In x l2 -> In y r2 -> lt y x = false).
  { intros l2 r2 Pl Pr x y Hx Hy. apply LR; eapply Permutation_in; try (symmetry; eassumption); assumption. }
  assert (IHl : forall m a ks b0 s0 k0, 0 <= a -> 1 <= zlen ks < 2 ^ 60 -> zlen b0 = zlen buf -> rng_ok s0 -> 0 <= k0 <= zlen ks ->
     exists keys' buf' s', recurse' l m a ks b0 s0 k0 = Some (keys', buf', s') /\ Permutation ks keys' /\ zlen buf' = zlen buf /\ rng_ok s' /\ done m k0 keys').
  { intros m a ks b0 s0 k0 A1 A2 A3 A4 A5. destruct (IH l ltac:(lia) m a ks b0 s0 k0 A1 A2 ltac:(lia) ltac:(lia) A4 A5) as (x1 & x2 & x3 & X1 & X2 & X3 & X4 & X5). exists x1, x2, x3. repeat (split; [first [assumption|lia]|]). exact X5. }
  destruct mode.
  - (* sort *)
    assert (SL : exists l' b' s', (if negb (is_first res) then recurse' l kSort addr lhs b2 s1 0 else Some (lhs, b2, s1)) = Some (l', b', s') /\ Permutation lhs l' /\ zlen b' = zlen buf /\ rng_ok s' /\ sorted lt l').
    { destruct (is_first res) eqn:EF; cbn [negb].
      - exists lhs, b2, s1. repeat (split; [first [reflexivity|assumption|lia]|]). apply pair_eq_sorted, QF. destruct res; try discriminate; reflexivity.
      - apply (IHl kSort); try lia; assumption. }
    destruct SL as (l' & b3 & s2 & -> & PL & LB3 & Hs2 & SLs).
    assert (SR : exists r' b' s', (if negb (was_last res) then recurse' l kSort (addr + b) rhs b3 s2 0 else Some (rhs, b3, s2)) = Some (r', b', s') /\ Permutation rhs r' /\ zlen b' = zlen buf /\ rng_ok s' /\ sorted lt r').
    { destruct (was_last res) eqn:EW; cbn [negb].
      - exists rhs, b3, s2. repeat (split; [first [reflexivity|assumption|lia]|]). apply pair_eq_sorted, QW. destruct res; try discriminate; reflexivity.
      - apply (IHl kSort); try lia; assumption. }
    destruct SR as (r' & b4 & s3 & -> & PR & LB4 & Hs3 & SRs).
    exists (l' ++ r'), b4, s3. split; [reflexivity|]. split; [eapply Permutation_trans; [exact P12|]; now apply Permutation_app|]. repeat (split; [first [assumption|lia]|]). cbn [done]. apply app_sorted; [exact SLs|exact SRs|]. now apply CRS.
  - (* select *)
    destruct (negb (is_first res) && (k <? b)) eqn:C1.
    { apply andb_true_iff in C1 as (_ & C1). apply Z.ltb_lt in C1.
      destruct (IHl kSelect addr lhs b2 s1 k) as (l' & b3 & s2 & -> & PL & LB3 & Hs2 & D); try lia; try assumption.
      assert (LL' : zlen l' = b) by (rewrite <- LLH; unfold zlen; f_equal; symmetry; now apply Permutation_length).
      exists (l' ++ rhs), b3, s2. split; [reflexivity|]. split; [eapply Permutation_trans; [exact P12|]; now apply Permutation_app_tail|]. repeat (split; [first [assumption|lia]|]).
      cbn [done] in *. intros _. apply app_selected; [apply D; lia|unfold zlen in LL'; lia|]. apply CRS; [exact PL|apply Permutation_refl]. }
    destruct (negb (was_last res) && (b <=? k)) eqn:C2.
    { apply andb_true_iff in C2 as (_ & C2). apply Z.leb_le in C2.
      destruct (IHl kSelect (addr + b) rhs b2 s1 (k - b)) as (r' & b3 & s2 & -> & PR & LB3 & Hs2 & D); try lia; try assumption.
      assert (LR' : zlen r' = zlen rhs) by (unfold zlen; f_equal; symmetry; now apply Permutation_length).
      exists (lhs ++ r'), b3, s2. split; [reflexivity|]. split; [eapply Permutation_trans; [exact P12|]; now apply Permutation_app_head|]. repeat (split; [first [assumption|lia]|]).
      cbn [done] in *. intros HkL. rewrite zlen_app in HkL. replace (Z.to_nat k) with (length lhs + Z.to_nat (k - b))%nat by (unfold zlen in LLH; lia). apply app_selected_r; [apply D; lia|]. apply CRS; [apply Permutation_refl|exact PR]. }
    exists k2, b2, s1. split; [reflexivity|]. split; [rewrite SPL; exact P12|]. repeat (split; [first [assumption|lia]|]).
    cbn [done]. intros _. rewrite SPL. destruct (Z.lt_ge_cases k b) as [HLT|HGE].
    + rewrite (proj2 (Z.ltb_lt _ _) HLT), andb_true_r in C1. apply negb_false_iff in C1. apply app_selected; [|unfold zlen in LLH; lia|apply CRS; apply Permutation_refl]. apply sorted_selected, pair_eq_sorted, QF. destruct res; try discriminate; reflexivity.
    + rewrite (proj2 (Z.leb_le _ _) HGE), andb_true_r in C2. apply negb_false_iff in C2. replace (Z.to_nat k) with (length lhs + Z.to_nat (k - b))%nat by (unfold zlen in LLH; lia). apply app_selected_r; [|apply CRS; apply Permutation_refl]. apply sorted_selected, pair_eq_sorted, QW. destruct res; try discriminate; reflexivity.
Qed.
End P.
