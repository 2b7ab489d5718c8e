From Coq Require Import ZArith List Lia Bool.
From Verif Require Import Word Word_Proofs Vec_Model Vec_Proofs Tune_Model Tune_Spec.
Import ListNotations.
Local Open Scope Z_scope.

Lemma lor_add a n k : 0 <= k -> 0 <= a < 2 ^ k -> Z.lor a (n * 2 ^ k) = a + n * 2 ^ k.
Proof.
  intros Hk Ha. rewrite <- Z.shiftl_mul_pow2 by lia. rewrite Z.add_nocarry_lxor.
  - symmetry. apply Z.lxor_lor. apply Z.bits_inj'. intros j Hj. rewrite Z.land_spec, Z.shiftl_spec, Z.bits_0 by lia.
    destruct (Z_lt_ge_dec j k); [rewrite (Z.testbit_neg_r n) by lia; apply andb_false_r|]. rewrite (testbit_small a k j) by lia. reflexivity.
  - apply Z.bits_inj'. intros j Hj. rewrite Z.land_spec, Z.shiftl_spec, Z.bits_0 by lia.
    destruct (Z_lt_ge_dec j k); [rewrite (Z.testbit_neg_r n) by lia; apply andb_false_r|]. rewrite (testbit_small a k j) by lia. reflexivity.
Qed.

(** ** Link words *)
Definition rep (b n r p : Z) : Prop := b = (n * 16 + r) * 2 ^ 14 + p /\ 0 <= n < 2 ^ 14 /\ (r = 0 \/ r = 1) /\ 0 <= p < 2 ^ 14.
Lemma rep_next b n r p : rep b n r p -> link_next b = n.
Proof. intros (-> & Hn & Hr & Hp). unfold link_next, kShift. rewrite Z.shiftr_div_pow2 by lia. Z.div_mod_to_equations. lia. Qed.
Lemma rep_prev b n r p : rep b n r p -> link_prev b = p.
Proof. intros (-> & Hn & Hr & Hp). unfold link_prev, kMaxNum. rewrite land_ones' by lia. Z.div_mod_to_equations. lia. Qed.
Lemma rep_removed b n r p : rep b n r p -> link_removed b = (r =? 1).
Proof.
  intros (-> & Hn & Hr & Hp). unfold link_removed, kMaxNum.
  assert (E : Z.land ((n * 16 + r) * 2 ^ 14 + p) (2 ^ 14) = r * 2 ^ 14).
  { apply Z.bits_inj'. intros j Hj. rewrite Z.land_spec, Z.pow2_bits_eqb by lia. rewrite <- (Z.shiftl_mul_pow2 r) by lia. rewrite Z.shiftl_spec by lia.
    destruct (Z.eqb_spec 14 j) as [<-|NE]; rewrite ?andb_true_r, ?andb_false_r.
    - rewrite Z.sub_diag. rewrite Z.testbit_odd, Z.shiftr_div_pow2 by lia. replace (((n * 16 + r) * 2 ^ 14 + p) / 2 ^ 14) with (r + 2 * (n * 8)) by (Z.div_mod_to_equations; lia).
      rewrite Z.odd_add_mul_2. destruct Hr as [-> | ->]; reflexivity.
    - symmetry. destruct Hr as [-> | ->]; [apply Z.bits_0|]. change 1 with (2 ^ 0) at 1. rewrite Z.pow2_bits_eqb by lia. apply Z.eqb_neq. lia. }
  rewrite E. destruct Hr as [-> | ->]; reflexivity.
Qed.
Lemma rep_set_next b n r p n' : rep b n r p -> 0 <= n' < 2 ^ 14 -> rep (link_set_next b n') n' r p.
Proof.
  intros (-> & Hn & Hr & Hp) Hn'. split; [|auto]. unfold link_set_next, kShift, kBits.
  change (Z.shiftr (2 ^ 32 - 1) 14) with (2 ^ 18 - 1). rewrite land_ones' by lia. rewrite Z.shiftl_mul_pow2 by lia. rewrite (wrap_small 32 (n' * 2 ^ 18)) by lia.
  replace (((n * 16 + r) * 2 ^ 14 + p) mod 2 ^ 18) with (r * 2 ^ 14 + p) by (Z.div_mod_to_equations; lia). rewrite lor_add by lia. lia.
Qed.
Lemma rep_set_prev b n r p p' : rep b n r p -> 0 <= p' < 2 ^ 14 -> rep (link_set_prev b p') n r p'.
Proof.
  intros (-> & Hn & Hr & Hp) Hp'. split; [|auto]. unfold link_set_prev, kMaxNum. rewrite (wrap_small 32 p') by lia.
  assert (E : Z.land ((n * 16 + r) * 2 ^ 14 + p) (wrap 32 (Z.lnot (2 ^ 14 - 1))) = (n * 16 + r) * 2 ^ 14).
  { change (wrap 32 (Z.lnot (2 ^ 14 - 1))) with (Z.shiftl (Z.ones 18) 14). apply Z.bits_inj'. intros j Hj. rewrite Z.land_spec.
    rewrite <- (Z.shiftl_mul_pow2 (n * 16 + r)) by lia. rewrite !Z.shiftl_spec by lia.
    destruct (Z_lt_ge_dec j 14) as [Hlt|Hge]; [rewrite !(Z.testbit_neg_r _ (j - 14)) by lia; apply andb_false_r|].
    rewrite Z.shiftl_mul_pow2 by lia. rewrite Z.add_comm. rewrite <- lor_add by lia. rewrite Z.lor_spec. rewrite (testbit_small p 14) by lia. cbn [orb].
    rewrite <- (Z.shiftl_mul_pow2 (n * 16 + r)) by lia. rewrite !Z.shiftl_spec by lia. rewrite Z.testbit_ones_nonneg by lia.
    destruct (Z.ltb_spec (j - 14) 18); [apply andb_true_r|]. rewrite (testbit_small (n * 16 + r) 18) by lia. reflexivity. }
  rewrite E. rewrite Z.lor_comm, lor_add by lia. lia.
Qed.
Lemma rep_remove b n p : rep b n 0 p -> rep (link_remove b) n 1 p.
Proof.
  intros (-> & Hn & Hr & Hp). split; [|auto]. unfold link_remove, kMaxNum.
  replace ((n * 16 + 0) * 2 ^ 14 + p) with (p + (n * 16) * 2 ^ 14) by lia. rewrite <- (lor_add p) by lia. rewrite <- Z.lor_assoc.
  replace (Z.lor (n * 16 * 2 ^ 14) (2 ^ 14)) with ((n * 16 + 1) * 2 ^ 14); [rewrite lor_add by lia; lia|].
  replace (n * 16 * 2 ^ 14) with (n * 2 ^ 18) by lia. rewrite Z.lor_comm. rewrite lor_add by lia. lia.
Qed.
Lemma rep_ctor pos num : 0 <= pos < num -> num < 2 ^ 14 ->
  rep (link_ctor pos num) (if pos =? num - 1 then 0 else pos + 1) 0 (if pos =? 0 then num - 1 else pos - 1).
Proof.
  intros H1 H2. set (n := if pos =? num - 1 then 0 else pos + 1). set (p := if pos =? 0 then num - 1 else pos - 1).
  assert (Hn : 0 <= n < 2 ^ 14) by (unfold n; destruct (Z.eqb_spec pos (num - 1)); lia).
  assert (Hp : 0 <= p < 2 ^ 14) by (unfold p; destruct (Z.eqb_spec pos 0); lia).
  split; [|auto]. unfold link_ctor. fold n p. unfold kShift. rewrite Z.shiftl_mul_pow2 by lia. rewrite (wrap_small 32 (n * 2 ^ 18)), (wrap_small 32 p) by lia.
  rewrite Z.lor_comm, lor_add by lia. lia.
Qed.

(** ** list of links vs. set *)
Lemma rd_some {A} (l : list A) i : 0 <= i < zlen l -> exists x, rd l i = Some x.
Proof. intros H. unfold rd. destruct (Z.ltb_spec i 0); [lia|]. destruct (nth_error l (Z.to_nat i)) eqn:E; [eauto|]. apply nth_error_None in E. unfold zlen in H. lia. Qed.
Lemma rd_bound {A} (l : list A) i x : rd l i = Some x -> 0 <= i < zlen l.
Proof. unfold rd. destruct (Z.ltb_spec i 0); [discriminate|]. intros E. assert (nth_error l (Z.to_nat i) <> None) as H1 by congruence. apply nth_error_Some in H1. unfold zlen. lia. Qed.
Lemma wr_some {A} (l : list A) i x : 0 <= i < zlen l -> exists l', wr l i x = Some l' /\ zlen l' = zlen l /\ forall j, rd l' j = if j =? i then Some x else rd l j.
Proof.
  intros H. unfold wr. destruct (Z.leb_spec 0 i); [|lia]. destruct (Z.ltb_spec i (zlen l)); [|lia]. cbn [andb].
  eexists. split; [reflexivity|]. unfold zlen in *.
  assert (LF : length (firstn (Z.to_nat i) l) = Z.to_nat i) by (rewrite firstn_length; lia).
  split; [rewrite app_length; cbn [length]; rewrite LF, skipn_length; lia|].
  intros j. unfold rd. destruct (Z.ltb_spec j 0); destruct (Z.eqb_spec j i); try lia; [reflexivity| |].
  - subst j. rewrite nth_error_app2 by lia. rewrite LF, Nat.sub_diag. reflexivity.
  - destruct (Z_lt_ge_dec j i).
    + rewrite nth_error_app1 by lia. rewrite <- (firstn_skipn (Z.to_nat i) l) at 2. rewrite nth_error_app1 by lia. reflexivity.
    + rewrite nth_error_app2 by lia. rewrite LF. destruct (Z.to_nat j - Z.to_nat i)%nat as [|k] eqn:EK; [lia|]. cbn [nth_error].
      rewrite <- (firstn_skipn (S (Z.to_nat i)) l) at 2. rewrite nth_error_app2; rewrite firstn_length; [|lia]. f_equal. lia.
Qed.

Definition linv (num : Z) (links : list Z) (S : Z -> Prop) : Prop :=
  zlen links = num /\ (exists p, S p) /\ (forall p, S p -> 0 <= p < num) /\ (forall p, S p \/ ~ S p) /\
  (forall p, S p -> exists b n q, rd links p = Some b /\ rep b n 0 q /\ cyc_next S p n /\ cyc_prev S p q) /\
  (forall p, 0 <= p < num -> ~ S p -> exists b n q, rd links p = Some b /\ rep b n 1 q).

Lemma linv_init num : 1 <= num < 2 ^ 14 -> linv num (nws_ctor num) (fun p => 0 <= p < num).
Proof.
  intros H. split; [unfold zlen, nws_ctor; rewrite map_length, seq_length; lia|]. split; [exists 0; lia|]. split; [auto|]. split; [lia|]. split.
  - intros p Hp. exists (link_ctor p num), (if p =? num - 1 then 0 else p + 1), (if p =? 0 then num - 1 else p - 1).
    split; [|split; [apply rep_ctor; lia|]].
    + unfold rd. destruct (Z.ltb_spec p 0); [lia|]. unfold nws_ctor. rewrite nth_error_map.
      rewrite (nth_error_nth' _ 0%nat) by (rewrite seq_length; lia). rewrite seq_nth by lia. cbn [option_map Nat.add]. do 2 f_equal. lia.
    + split; [destruct (Z.eqb_spec p (num - 1))|destruct (Z.eqb_spec p 0)]; (split; [lia|]); [right|left|right|left]; split; intros; lia.
  - intros. lia.
Qed.

Lemma cyc_next_fun (S : Z -> Prop) p a b : cyc_next S p a -> cyc_next S p b -> a = b.
Proof. intros (Ha & [(A1 & A2)|(A1 & A2)]) (Hb & [(B1 & B2)|(B1 & B2)]).
  - specialize (A2 b Hb B1). specialize (B2 a Ha A1). lia.
  - specialize (B1 a Ha). lia.
  - specialize (A1 b Hb). lia.
  - specialize (A2 b Hb). specialize (B2 a Ha). lia.
Qed.
Lemma cyc_prev_fun (S : Z -> Prop) p a b : cyc_prev S p a -> cyc_prev S p b -> a = b.
Proof. intros (Ha & [(A1 & A2)|(A1 & A2)]) (Hb & [(B1 & B2)|(B1 & B2)]).
  - specialize (A2 b Hb B1). specialize (B2 a Ha A1). lia.
  - specialize (B1 a Ha). lia.
  - specialize (A1 b Hb). lia.
  - specialize (A2 b Hb). specialize (B2 a Ha). lia.
Qed.
(** next and prev are inverse *)
Lemma next_prev (S : Z -> Prop) p q : S p -> cyc_next S p q -> cyc_prev S q p.
Proof.
  intros Hp (Hq & [(A1 & A2)|(A1 & A2)]); (split; [exact Hp|]); [left|right].
  - split; [exact A1|]. intros r Hr Hlt. destruct (Z_le_gt_dec r p); [assumption|]. specialize (A2 r Hr ltac:(lia)). lia.
  - split; assumption.
Qed.
Lemma prev_next (S : Z -> Prop) p q : S p -> cyc_prev S p q -> cyc_next S q p.
Proof.
  intros Hp (Hq & [(A1 & A2)|(A1 & A2)]); (split; [exact Hp|]); [left|right].
  - split; [exact A1|]. intros r Hr Hlt. destruct (Z_le_gt_dec p r); [assumption|]. specialize (A2 r Hr ltac:(lia)). lia.
  - split; assumption.
Qed.
Lemma next_self (S : Z -> Prop) p : S p -> (cyc_next S p p <-> forall q, S q -> q = p).
Proof.
  intros Hp. split.
  - intros (_ & [(A & _)|(A1 & A2)]) q Hq; [lia|]. specialize (A1 q Hq). specialize (A2 q Hq). lia.
  - intros H. split; [exact Hp|]. right. split; intros r Hr; rewrite (H r Hr); lia.
Qed.
(** removing pos *)
Lemma next_other (S : Z -> Prop) pos p q : cyc_next S p q -> q <> pos -> p <> pos -> cyc_next (fun r => S r /\ r <> pos) p q.
Proof. intros (Hq & H) N1 N2. split; [tauto|]. destruct H as [(A1 & A2)|(A1 & A2)]; [left|right]; split; intros; intuition. Qed.
Lemma prev_other (S : Z -> Prop) pos p q : cyc_prev S p q -> q <> pos -> p <> pos -> cyc_prev (fun r => S r /\ r <> pos) p q.
Proof. intros (Hq & H) N1 N2. split; [tauto|]. destruct H as [(A1 & A2)|(A1 & A2)]; [left|right]; split; intros; intuition. Qed.
Lemma next_bridge (S : Z -> Prop) pos prev next : S pos -> cyc_prev S pos prev -> cyc_next S pos next -> prev <> pos -> next <> pos ->
  cyc_next (fun r => S r /\ r <> pos) prev next.
Proof.
  intros Hp (Sp & HP) (Sn & HN) N1 N2. split; [tauto|].
  destruct HP as [(A1 & A2)|(A1 & A2)]; destruct HN as [(B1 & B2)|(B1 & B2)].
  - left. split; [lia|]. intros r (Hr & Nr) Hlt. destruct (Z_le_gt_dec r pos) as [|]; [specialize (A2 r Hr ltac:(lia)); lia|]. apply B2; [exact Hr|lia].
  - right. split; intros r (Hr & Nr); [|now apply B2]. specialize (B1 r Hr). apply A2; [exact Hr|lia].
  - right. split; intros r (Hr & Nr); [now apply A2|]. specialize (A1 r Hr). apply B2; [exact Hr|lia].
  - exfalso. specialize (A1 prev Sp). specialize (B1 prev Sp). lia.
Qed.

Lemma linv_skip num links (S : Z -> Prop) pos : 1 <= num < 2 ^ 14 -> linv num links S -> S pos -> (exists q, S q /\ q <> pos) ->
  exists links', nws_skip links pos = Some links' /\ linv num links' (fun p => S p /\ p <> pos).
Proof.
  intros Hnum (HL & HE & HB & HD & HI & HR) Hpos (q0 & Hq0 & Nq0).
  destruct (HI pos Hpos) as (b & next & prev & E & R & CN & CP).
  assert (N1 : next <> pos). { intros ->. apply Nq0. now apply (proj1 (next_self S pos Hpos)). }
  assert (N2 : prev <> pos). { intros ->. apply Nq0. apply (proj1 (next_self S pos Hpos)); [apply prev_next; assumption|assumption]. }
  assert (Sn : S next) by apply CN. assert (Sp : S prev) by apply CP.
  unfold nws_skip. rewrite E. rewrite (rep_prev _ _ _ _ R), (rep_next _ _ _ _ R).
  destruct (Z.eqb_spec prev pos); [contradiction|]. destruct (Z.eqb_spec next pos); [contradiction|]. cbn [orb].
  destruct (HI next Sn) as (bn & nn & np & En & Rn & CNn & CPn). rewrite En.
  destruct (wr_some links next (link_set_prev bn prev)) as (l1 & W1 & L1 & R1); [rewrite HL; auto|]. rewrite W1.
  destruct (HI prev Sp) as (bp & pn & pp & Ep & Rp & CNp & CPp).
  assert (EB : exists bp' pp', rd l1 prev = Some bp' /\ rep bp' pn 0 pp' /\ (prev <> next -> bp' = bp /\ pp' = pp) /\ (prev = next -> pp' = prev)).
  { rewrite R1. destruct (Z.eqb_spec prev next) as [EE|NE].
    - exists (link_set_prev bn prev), prev. rewrite EE in Ep. rewrite En in Ep. injection Ep as Ep. split; [reflexivity|]. split; [|split; intros; [contradiction|reflexivity]].
      rewrite Ep. apply (rep_set_prev bp pn 0 pp); [exact Rp|]. specialize (HB prev Sp). lia.
    - exists bp, pp. split; [exact Ep|]. split; [exact Rp|]. split; intros; [auto|contradiction]. }
  destruct EB as (bp' & pp' & -> & Rp' & Hne & Heq).
  destruct (wr_some l1 prev (link_set_next bp' next)) as (l2 & W2 & L2 & R2); [rewrite L1, HL; auto|]. rewrite W2.
  assert (E2 : rd l2 pos = Some b). { rewrite R2. destruct (Z.eqb_spec pos prev); [congruence|]. rewrite R1. destruct (Z.eqb_spec pos next); [congruence|exact E]. }
  rewrite E2. destruct (wr_some l2 pos (link_remove b)) as (l3 & W3 & L3 & R3); [rewrite L2, L1, HL; auto|].
  exists l3. split; [exact W3|]. split; [congruence|]. split; [exists q0; tauto|]. split; [intros p (H & _); auto|].
  split; [intros p; destruct (HD p); destruct (Z.eq_dec p pos); tauto|].
  assert (RN : 0 <= next < 2 ^ 14) by (specialize (HB next Sn); lia). assert (RP : 0 <= prev < 2 ^ 14) by (specialize (HB prev Sp); lia).
  split.
  - intros p (Hp & Np). rewrite R3. destruct (Z.eqb_spec p pos); [contradiction|]. rewrite R2.
    destruct (HI p Hp) as (bb & n' & p' & Eb & Rb & CNb & CPb).
    pose proof (next_bridge S pos prev next Hpos CP CN N2 N1) as BR.
    destruct (Z.eqb_spec p prev) as [->|Npp].
    + exists (link_set_next bp' next), next, pp'. split; [reflexivity|]. split; [now apply (rep_set_next _ pn)|]. split; [exact BR|].
      destruct (Z.eq_dec prev next) as [EE|NE].
      * rewrite (Heq EE). apply next_prev; [tauto|]. rewrite EE at 2. exact BR.
      * destruct (Hne NE) as (-> & ->). rewrite Ep in Eb. injection Eb as <-. apply prev_other; [exact CPp| |assumption].
        intros ->. apply NE. pose proof (prev_next S prev pos Sp CPp) as X. eapply cyc_next_fun; [exact X|exact CN].
    + rewrite R1. destruct (Z.eqb_spec p next) as [->|Npn].
      * exists (link_set_prev bn prev), nn, prev. split; [reflexivity|]. split; [now apply (rep_set_prev _ _ _ np)|]. split.
        -- apply next_other; [exact CNn| |assumption]. intros ->. apply Npp. pose proof (next_prev S next pos Sn CNn) as X. eapply cyc_prev_fun; [exact X|exact CP].
        -- apply next_prev; [tauto|exact BR].
      * exists bb, n', p'. split; [exact Eb|]. split; [exact Rb|]. split.
        -- apply next_other; [exact CNb| |assumption]. intros ->. apply Npp. pose proof (next_prev S p pos Hp CNb) as X. eapply cyc_prev_fun; [exact X|exact CP].
        -- apply prev_other; [exact CPb| |assumption]. intros ->. apply Npn. pose proof (prev_next S p pos Hp CPb) as X. eapply cyc_next_fun; [exact X|exact CN].
  - intros p Hp HN. rewrite R3. destruct (Z.eqb_spec p pos) as [->|Npos].
    + exists (link_remove b), next, prev. split; [reflexivity|]. now apply rep_remove.
    + assert (NS : ~ S p) by tauto. rewrite R2. destruct (Z.eqb_spec p prev) as [->|]; [contradiction|]. rewrite R1. destruct (Z.eqb_spec p next) as [->|]; [contradiction|]. now apply HR.
Qed.
Lemma linv_skip_last num links (S : Z -> Prop) pos : linv num links S -> S pos -> (forall q, S q -> q = pos) -> nws_skip links pos = Some links.
Proof.
  intros (HL & HE & HB & HD & HI & HR) Hp H. destruct (HI pos Hp) as (b & n & q & E & R & CN & CP). unfold nws_skip. rewrite E.
  rewrite (rep_next _ _ _ _ R). rewrite (H n ltac:(apply CN)), Z.eqb_refl, orb_true_r. reflexivity.
Qed.
Lemma linv_next num links (S : Z -> Prop) pos : linv num links S -> S pos -> exists n, nws_next links pos = Some n /\ cyc_next S pos n.
Proof. intros (HL & HE & HB & HD & HI & HR) Hp. destruct (HI pos Hp) as (b & n & q & E & R & CN & CP). exists n. split; [|exact CN]. unfold nws_next. rewrite E. unfold option_map. now rewrite (rep_next _ _ _ _ R). Qed.

Lemma skips_ok num h (S : Z -> Prop) : 1 <= num < 2 ^ 14 -> rotation num h S -> exists links, skips (nws_ctor num) h = Some links /\ linv num links S.
Proof.
  intros Hn. induction 1 as [|h S pos H (links & E & I) Hp HE|h S pos H (links & E & I) Hp HE].
  - exists (nws_ctor num). split; [reflexivity|now apply linv_init].
  - destruct (linv_skip num links S pos Hn I Hp HE) as (l' & E' & I'). exists l'. cbn [skips]. rewrite E. auto.
  - exists links. cbn [skips]. rewrite E. split; [|exact I]. eapply linv_skip_last; eauto.
Qed.

(** ** AutoTune *)
Section AutoTune.
Context {D E : Type}.
Variables (d0 : D) (notify : D -> Z -> D) (estimate : D -> D * E) (elt : E -> E -> bool).
Variables (zero highest : E) (scale : E -> E) (kMin : Z).
Hypothesis HK : 1 <= kMin.
Hypothesis elt_irrefl : forall e, elt e e = false.
Hypothesis elt_trans : forall a b c, elt a b = true -> elt b c = true -> elt a c = true.
Hypothesis elt_negtrans : forall a b c, elt a b = false -> elt b c = false -> elt a c = false.

Let notify_cost := notify_cost notify estimate elt zero highest scale kMin.
Let tune := tune notify estimate elt zero highest scale kMin.
Notation scan := (scan_costs estimate elt).
Notation tuner := (@tuner D E).

Lemma elt_asym a b : elt a b = true -> elt b a = false.
Proof. intros H. destruct (elt b a) eqn:F; [|reflexivity]. pose proof (elt_irrefl a). pose proof (elt_trans a b a H F). congruence. Qed.

Lemma scan_spec : forall (costs : list D) i best im costs' b im', scan costs i best im = (costs', b, im') ->
  costs' = map (fun d => fst (estimate d)) costs /\
  (forall d, In d costs -> elt (snd (estimate d)) b = false) /\ elt best b = false /\
  ((b = best /\ im' = im) \/ (exists d, i <= im' /\ nth_error costs (Z.to_nat (im' - i)) = Some d /\ b = snd (estimate d) /\ im' < i + zlen costs)) .
Proof.
  induction costs as [|d r IH]; intros i best im costs' b im' H.
  - cbn [scan_costs] in H. injection H as <- <- <-. split; [reflexivity|]. split; [intros d []|]. split; [apply elt_irrefl|]. left; auto.
  - cbn [scan_costs] in H. destruct (estimate d) as [d' e] eqn:ED.
    destruct (elt e best) eqn:EL.
    + destruct (scan r (i + 1) e i) as [[r' b'] m'] eqn:ES.  injection H as <- <- <-.  destruct (IH _ _ _ _ _ _ ES) as (A & B & C & F).
      split; [cbn [map]; rewrite ED; cbn [fst]; congruence|]. split; [intros x [<-|Hx]; [rewrite ED; exact C|auto]|].
      split; [eapply elt_negtrans; [|exact C]; now apply elt_asym|].
      right. destruct F as [(-> & ->)|(x & X1 & X2 & X3 & X4)].
      * exists d. rewrite ED. replace (i - i) with 0 by lia. unfold zlen. cbn [length]. repeat split; auto; lia.
      * exists x. split; [lia|]. replace (Z.to_nat (m' - i)) with (S (Z.to_nat (m' - (i + 1)))) by lia. unfold zlen in *. cbn [length nth_error]. repeat split; auto; lia.
    + destruct (scan r (i + 1) best im) as [[r' b'] m'] eqn:ES.  injection H as <- <- <-.  destruct (IH _ _ _ _ _ _ ES) as (A & B & C & F).
      split; [cbn [map]; rewrite ED; cbn [fst]; congruence|]. split; [intros x [<-|Hx]; [rewrite ED; cbn [snd]; eapply elt_negtrans; [exact EL|exact C]|auto]|].
      split; [exact C|]. destruct F as [F|(x & X1 & X2 & X3 & X4)]; [left; exact F|]. right. exists x. split; [lia|].
      replace (Z.to_nat (m' - i)) with (S (Z.to_nat (m' - (i + 1)))) by lia. unfold zlen in *. cbn [length nth_error]. repeat split; auto; lia.
Qed.

(** invariant while tuning *)
Definition tinv (num : Z) (h : list Z) (S : Z -> Prop) (t : tuner) : Prop :=
  t_best t = None /\ t_num t = num /\ zlen (t_costs t) = num /\ rotation num h S /\ skips (nws_ctor num) h = Some (t_list t) /\
  linv num (t_list t) S /\ S (t_idx t) /\ 0 <= t_rounds t <= 3 * kMin / 2 /\ (t_rounds t < kMin -> t_skip t = zero /\ h = []).

Definition skip_cond (t : tuner) (cost : Z) (d : D) : bool :=
  let d := notify d cost in elt (t_skip t) (snd (if kMin <=? t_rounds t then estimate d else (d, zero))).

Lemma step_ok num h S t cost : 1 <= num < 2 ^ 14 -> tinv num h S t ->
  exists d t', rd (t_costs t) (t_idx t) = Some d /\ notify_cost t cost = Some t' /\
  cyc_next S (t_idx t) (t_idx t') /\
  t_rounds t' = (if t_idx t' <=? t_idx t then t_rounds t + 1 else t_rounds t) /\
  exists h' S', (if skip_cond t cost d then h' = t_idx t :: h else h' = h) /\ rotation num h' S' /\ skips (nws_ctor num) h' = Some (t_list t') /\
  ((t_best t' = None /\ tinv num h' S' t') \/
   (t_rounds t' = 3 * kMin / 2 + 1 /\ exists i di, t_best t' = Some i /\ 0 <= i < num /\
     ((forall d, elt (snd (estimate d)) highest = true) -> (forall d, snd (estimate (fst (estimate d))) = snd (estimate d)) ->
      rd (t_costs t') i = Some di /\ forall j dj, rd (t_costs t') j = Some dj -> elt (snd (estimate dj)) (snd (estimate di)) = false))).
Proof.
  intros Hn (IB & IN & IC & IR & IS & IL & II & IRd & IK).
  assert (HB : forall p, S p -> 0 <= p < num) by apply IL.
  destruct (rd_some (t_costs t) (t_idx t)) as (d & Ed); [rewrite IC; auto|].
  exists d. unfold skip_cond. set (P := if kMin <=? t_rounds t then estimate (notify d cost) else (notify d cost, zero)).
  destruct (wr_some (t_costs t) (t_idx t) (fst P)) as (cs & EW & LW & _); [rewrite IC; auto|].
  destruct (linv_next num (t_list t) S (t_idx t) IL II) as (n & EN & CN).
  assert (SK : exists links' h' S', (if elt (t_skip t) (snd P) then nws_skip (t_list t) (t_idx t) else Some (t_list t)) = Some links' /\
     (if elt (t_skip t) (snd P) then h' = t_idx t :: h else h' = h) /\ rotation num h' S' /\ skips (nws_ctor num) h' = Some links' /\ linv num links' S' /\ S' n).
  { destruct (elt (t_skip t) (snd P)).
    - destruct (Z.eq_dec n (t_idx t)) as [EQ|NE].
      + rewrite EQ in CN. pose proof (proj1 (next_self S (t_idx t) II) CN) as ON.
        exists (t_list t), (t_idx t :: h), S. assert (EE : nws_skip (t_list t) (t_idx t) = Some (t_list t)) by (eapply linv_skip_last; eauto).
        split; [exact EE|]. split; [reflexivity|]. split; [now apply rot_last|]. split; [cbn [skips]; now rewrite IS|]. split; [exact IL|]. rewrite EQ; exact II.
      + assert (HE : exists q, S q /\ q <> t_idx t) by (exists n; split; [apply CN|exact NE]).
        destruct (linv_skip num (t_list t) S (t_idx t) Hn IL II HE) as (l' & E1 & L1).
        exists l', (t_idx t :: h), (fun p => S p /\ p <> t_idx t). split; [exact E1|]. split; [reflexivity|]. split; [now apply rot_skip|].
        split; [cbn [skips]; now rewrite IS|]. split; [exact L1|]. split; [apply CN|exact NE].
    - exists (t_list t), h, S. split; [reflexivity|]. split; [reflexivity|]. split; [exact IR|]. split; [exact IS|]. split; [exact IL|]. apply CN. }
  destruct SK as (links' & h' & S' & E1 & E2 & E3 & E4 & E5 & E6).
  assert (HK2 : kMin <= 3 * kMin / 2 + 1) by (Z.div_mod_to_equations; lia).
  assert (HH : t_rounds t < kMin -> h' = []).
  { intros Hlt. destruct (IK Hlt) as (K1 & K2). unfold P in E2. destruct (Z.leb_spec kMin (t_rounds t)); [lia|]. cbn [snd] in E2. rewrite K1, elt_irrefl in E2. congruence. }
  unfold notify_cost, Tune_Model.notify_cost. rewrite Ed. cbn zeta. fold P. destruct P as [dP eP] eqn:EP. cbn [fst snd] in *. rewrite EW, EN, E1.
  destruct (Z.leb_spec n (t_idx t)) as [Hle|Hgt].
  - destruct (Z.leb_spec kMin (t_rounds t + 1)) as [Hk|Hk].
    + destruct (scan_costs estimate elt cs 0 highest 0) as [[cs' bc] im] eqn:ES. destruct (scan_spec _ _ _ _ _ _ _ ES) as (A & B & C & F).
      eexists. split; [reflexivity|]. split; [reflexivity|]. cbn [t_idx t_rounds t_best]. split; [exact CN|].
      split; [destruct (Z.leb_spec n (t_idx t)); [reflexivity|lia]|]. exists h', S'. split; [exact E2|]. split; [exact E3|]. split; [exact E4|].
      destruct (Z.eqb_spec (t_rounds t + 1) (3 * kMin / 2 + 1)) as [EQ|NE].
      * right. split; [exact EQ|]. exists im.
        assert (IM : 0 <= im < num). { destruct F as [(_ & ->)|(x & X1 & X2 & X3 & X4)]; unfold zlen in *; lia. }
        assert (exists di, nth_error cs (Z.to_nat im) = Some di) as (di & Edi).
        { destruct (rd_some cs im) as (x & Ex); [lia|]. unfold rd in Ex. destruct (im <? 0); [discriminate|]. eauto. }
        exists (fst (estimate di)). split; [reflexivity|]. split; [exact IM|]. intros HH1 HH2. cbn [t_costs].
        assert (RD : forall j, rd cs' j = option_map (fun d => fst (estimate d)) (rd cs j)).
        { intros j. unfold rd. destruct (j <? 0); [reflexivity|]. rewrite A. apply nth_error_map. }
        split; [rewrite RD; unfold rd; destruct (Z.ltb_spec im 0); [lia|]; now rewrite Edi|].
        intros j dj Ej. rewrite RD in Ej. destruct (rd cs j) as [dj0|] eqn:Ej0; [|discriminate]. injection Ej as <-. rewrite !HH2.
        assert (In dj0 cs) as IJ. { unfold rd in Ej0. destruct (j <? 0); [discriminate|]. eapply nth_error_In; eauto. }
        destruct F as [(-> & ->)|(x & X1 & X2 & X3 & X4)].
        -- exfalso. pose proof (B dj0 IJ) as X. rewrite HH1 in X. discriminate.
        -- rewrite Z.sub_0_r in X2. rewrite Edi in X2. injection X2 as <-. subst bc. now apply B.
      * left. cbn [t_best]. split; [exact IB|]. unfold tinv. cbn [t_best t_num t_costs t_idx t_list t_rounds t_skip].
        split; [exact IB|]. split; [exact IN|]. split; [rewrite A; unfold zlen in *; rewrite map_length; lia|]. split; [exact E3|]. split; [exact E4|]. split; [exact E5|]. split; [exact E6|].
        split; [lia|]. lia.
    + eexists. split; [reflexivity|]. split; [reflexivity|]. cbn [t_idx t_rounds t_best]. split; [exact CN|].
      split; [destruct (Z.leb_spec n (t_idx t)); [reflexivity|lia]|]. exists h', S'. split; [exact E2|]. split; [exact E3|]. split; [exact E4|].
      left. split; [exact IB|]. unfold tinv. cbn [t_best t_num t_costs t_idx t_list t_rounds t_skip].
      split; [exact IB|]. split; [exact IN|]. split; [lia|]. split; [exact E3|]. split; [exact E4|]. split; [exact E5|]. split; [exact E6|].
      split; [lia|]. intros _. split; [apply IK; lia|apply HH; lia].
  - eexists. split; [reflexivity|]. split; [reflexivity|]. cbn [t_idx t_rounds t_best]. split; [exact CN|].
      split; [destruct (Z.leb_spec n (t_idx t)); [lia|reflexivity]|]. exists h', S'. split; [exact E2|]. split; [exact E3|]. split; [exact E4|].
      left. split; [exact IB|]. unfold tinv. cbn [t_best t_num t_costs t_idx t_list t_rounds t_skip].
      split; [exact IB|]. split; [exact IN|]. split; [lia|]. split; [exact E3|]. split; [exact E4|]. split; [exact E5|]. split; [exact E6|].
      split; [lia|]. intros Hlt. split; [apply IK; lia|apply HH; lia].
Qed.

Lemma tinv_init num : 1 <= num < 2 ^ 14 -> tinv num [] (fun p => 0 <= p < num) (set_candidates d0 zero num).
Proof.
  intros H. unfold tinv, set_candidates. cbn [t_best t_num t_costs t_idx t_list t_rounds t_skip].
  split; [reflexivity|]. split; [reflexivity|]. split; [unfold zlen; rewrite repeat_length; lia|]. split; [constructor|]. split; [reflexivity|].
  split; [now apply linv_init|]. split; [lia|]. split; [split; [lia|]; apply Z.div_pos; lia|auto].
Qed.

Lemma tune_ok num cs : 1 <= num < 2 ^ 14 -> forall h S t, tinv num h S t ->
  exists t', tune t cs = Some t' /\
   ((t_best t' = None /\ (exists h' S', tinv num h' S' t') /\ t_rounds t * num + t_idx t + zlen cs <= t_rounds t' * num + t_idx t') \/
    (exists i di, t_best t' = Some i /\ 0 <= i < num /\
     ((forall d, elt (snd (estimate d)) highest = true) -> (forall d, snd (estimate (fst (estimate d))) = snd (estimate d)) ->
      rd (t_costs t') i = Some di /\ forall j dj, rd (t_costs t') j = Some dj -> elt (snd (estimate dj)) (snd (estimate di)) = false))).
Proof.
  intros Hn. induction cs as [|c cs IH]; intros h S t I.
  - exists t. split; [reflexivity|]. left. split; [apply I|]. split; [eauto|]. unfold zlen. cbn [length]. lia.
  - destruct (step_ok num h S t c Hn I) as (d & t1 & Ed & E1 & CN & RD & h' & S' & _ & _ & _ & H).
    unfold tune. cbn [Tune_Model.tune]. fold tune. assert (t_best t = None) as -> by apply I. unfold notify_cost in E1. rewrite E1.
    assert (B1 : 0 <= t_idx t < num) by (apply I; apply I). 
    destruct H as [(HB & I1)|(_ & i & di & HB & Hi & HM)].
    + destruct (IH h' S' t1 I1) as (t2 & E2 & H2). exists t2. split; [exact E2|]. destruct H2 as [(A & B & C)|H2]; [left|right; exact H2].
      split; [exact A|]. split; [exact B|]. assert (B2 : 0 <= t_idx t1 < num) by (apply I1; apply I1). unfold zlen in *. cbn [length].
      assert (t_rounds t * num + t_idx t + 1 <= t_rounds t1 * num + t_idx t1). { rewrite RD. destruct (Z.leb_spec (t_idx t1) (t_idx t)); nia. } lia.
    + exists t1. assert (tune t1 cs = Some t1) as ET by (unfold tune; destruct cs; cbn [Tune_Model.tune]; [|rewrite HB]; reflexivity). rewrite ET. split; [reflexivity|]. right. exists i, di. auto.
Qed.

(** first kMin rounds: round robin over all candidates *)
Lemma tune_rr num : 1 <= num < 2 ^ 14 -> forall cs, zlen cs < kMin * num ->
  exists t S, tune (set_candidates d0 zero num) cs = Some t /\ tinv num [] S t /\ t_rounds t = zlen cs / num /\ t_idx t = zlen cs mod num.
Proof.
  intros Hn. assert (APP : forall cs c t, tune (set_candidates d0 zero num) cs = Some t -> t_best t = None -> tune (set_candidates d0 zero num) (cs ++ [c]) = notify_cost t c).
  { intros cs c. generalize (set_candidates d0 zero num). induction cs as [|x cs IH]; intros t0 t H HB.
    - injection H as <-. unfold tune. cbn [app Tune_Model.tune]. rewrite HB. unfold notify_cost. destruct (Tune_Model.notify_cost _ _ _ _ _ _ _ _); reflexivity.
    - unfold tune in *. cbn [app Tune_Model.tune] in *. destruct (t_best t0) eqn:EB0; [injection H as <-; congruence|]. destruct (Tune_Model.notify_cost _ _ _ _ _ _ _ t0 x) eqn:EX; [|discriminate]. now apply IH. }
  induction cs as [|c cs IH] using rev_ind; intros HL.
  - exists (set_candidates d0 zero num), (fun p => 0 <= p < num). split; [reflexivity|]. split; [now apply tinv_init|]. change (zlen (@nil Z)) with 0. rewrite Z.mod_0_l, Z.div_0_l by lia. split; reflexivity.
  - unfold zlen in *. rewrite app_length in *. cbn [length] in *. destruct IH as (t & S & ET & I & RD & ID); [lia|].
    rewrite (APP cs c t ET ltac:(apply I)). destruct (step_ok num [] S t c Hn I) as (d & t1 & Ed & E1 & CN & RD1 & h' & S' & HS & HR & _ & H).
    assert (RK : t_rounds t < kMin) by (rewrite RD; apply Z.div_lt_upper_bound; lia).
    assert (HF : skip_cond t c d = false). { unfold skip_cond. destruct (Z.leb_spec kMin (t_rounds t)); [lia|]. cbn [snd]. destruct I as (_ & _ & _ & _ & _ & _ & _ & _ & IK). destruct (IK RK) as (-> & _). apply elt_irrefl. }
    rewrite HF in HS. subst h'.
    assert (AS : forall p, S p <-> 0 <= p < num). { destruct I as (_ & _ & _ & IR & _). inversion IR. tauto. }
    assert (IDX : t_idx t1 = (t_idx t + 1) mod num).
    { pose proof (Z.mod_pos_bound (Z.of_nat (length cs)) num ltac:(lia)) as MB. rewrite <- ID in MB.
      destruct CN as (A & [(B & C)|(B & C)]).
      - apply AS in A. assert (t_idx t1 <= t_idx t + 1) by (apply C; [apply AS|]; lia). rewrite Z.mod_small by lia. lia.
      - assert (t_idx t = num - 1) as -> by (assert (num - 1 <= t_idx t) by (apply B; apply AS; lia); lia).
        replace (num - 1 + 1) with num by lia. rewrite Z.mod_same by lia. assert (t_idx t1 <= 0) by (apply C; apply AS; lia). apply AS in A. lia. }
    assert (NEXT : (Z.of_nat (length cs + 1)) / num = t_rounds t1 /\ (Z.of_nat (length cs + 1)) mod num = t_idx t1).
    { rewrite RD1, IDX. rewrite Nat2Z.inj_add. rewrite RD, ID. rewrite Z.add_mod_idemp_l by lia.
      set (L := Z.of_nat (length cs)). split; [|reflexivity]. change (Z.of_nat 1) with 1. 
      pose proof (Z.div_mod L num ltac:(lia)). pose proof (Z.mod_pos_bound L num ltac:(lia)). pose proof (Z.div_mod (L + 1) num ltac:(lia)). pose proof (Z.mod_pos_bound (L + 1) num ltac:(lia)).
      destruct (Z.leb_spec ((L + 1) mod num) (L mod num)); nia. }
    destruct H as [(HB & I1)|(HE & _)].
    + exists t1, S'. split; [exact E1|]. split; [exact I1|]. intuition lia.
    + exfalso. destruct NEXT as (N1 & _). rewrite HE in N1. assert (kMin <= 3 * kMin / 2 + 1) by (Z.div_mod_to_equations; lia).
      assert (Z.of_nat (length cs + 1) / num < kMin) by (apply Z.div_lt_upper_bound; lia). lia.
Qed.
End AutoTune.
