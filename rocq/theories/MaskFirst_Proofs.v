From Coq Require Import ZArith List Arith Bool Lia.
From Verif Require Import Word Compress_Spec Compress_Model Compress_Bits Compress_Proofs MaskFirst_Spec MaskFirst_Model.
Import ListNotations.
Open Scope Z_scope.
Fixpoint aaf (m : list bool) : list bool := match m with [] => [] | b :: m' => if b then true :: repeat true (length m') else false :: aaf m' end.
Fixpoint onlyf (m : list bool) : list bool := match m with [] => [] | b :: m' => if b then true :: repeat false (length m') else false :: onlyf m' end.
Fixpoint abf (m : list bool) : list bool := match m with [] => [] | b :: m' => true :: if b then repeat false (length m') else abf m' end.
Definition bf (m : list bool) : list bool := map negb (aaf m).
Lemma aaf_length m : length (aaf m) = length m. Proof. induction m as [|[|] m IH]; cbn; rewrite ?repeat_length; auto. Qed.
Lemma onlyf_length m : length (onlyf m) = length m. Proof. induction m as [|[|] m IH]; cbn; rewrite ?repeat_length; auto. Qed.
Lemma abf_length m : length (abf m) = length m. Proof. induction m as [|[|] m IH]; cbn; rewrite ?repeat_length; auto. Qed.
Lemma nth_repeat' {A} (x d : A) n i : (i < n)%nat -> nth i (repeat x n) d = x. Proof. revert i; induction n as [|n IH]; intros [|i] H; cbn; try lia; auto. apply IH. lia. Qed.
Lemma nth_rep_false n i : nth i (repeat false n) false = false. Proof. revert i; induction n as [|n IH]; intros [|i]; cbn; auto. Qed.
Lemma aaf_spec m : at_or_after_first m (aaf m).
Proof.
  split; [apply aaf_length|]. induction m as [|b m IH]; intros i Hi; cbn in Hi; [lia|]. destruct b; cbn [aaf].
  - split; [intros _; exists O; split; [lia|reflexivity]|]. intros _. destruct i; cbn [nth]; [reflexivity|apply nth_repeat'; lia].
  - destruct i as [|i]; cbn [nth].
    + split; [discriminate|]. intros (j & Hj & E). replace j with O in E by lia. exact E.
    + rewrite IH by lia. split; intros (j & Hj & E); [exists (S j); split; [lia|exact E]|]. destruct j as [|j]; [discriminate|]. exists j. split; [lia|exact E].
Qed.
Lemma bf_spec m : before_first m (bf m).
Proof.
  unfold bf. split; [rewrite map_length; apply aaf_length|]. intros i Hi. change false with (negb true) at 1. rewrite map_nth. rewrite (nth_indep _ true false) by (rewrite aaf_length; exact Hi).
  destruct (aaf_spec m) as [_ H]. specialize (H i Hi). rewrite negb_true_iff. split.
  - intros E j Hj. destruct (nth j m false) eqn:Ej; [|reflexivity]. rewrite (proj2 H) in E; [discriminate|]. exists j. split; assumption.
  - intros E. destruct (nth i (aaf m) false); [|reflexivity]. destruct (proj1 H eq_refl) as (j & Hj & Ej). rewrite (E j Hj) in Ej. discriminate.
Qed.
Lemma onlyf_spec m : only_first m (onlyf m).
Proof.
  split; [apply onlyf_length|]. induction m as [|b m IH]; intros i Hi; cbn in Hi; [lia|]. destruct b; cbn [onlyf].
  - destruct i as [|i]; cbn [nth].
    + split; [intros _; split; [reflexivity|intros; lia]|reflexivity].
    + rewrite nth_rep_false. split; [discriminate|]. intros [_ H]. specialize (H O ltac:(lia)). discriminate.
  - destruct i as [|i]; cbn [nth].
    + split; [discriminate|]. intros [H _]. exact H.
    + rewrite IH by lia. split; intros [A B]; (split; [exact A|]); intros j Hj; [destruct j as [|j]; [reflexivity|apply B; lia]|apply (B (S j)); lia].
Qed.
Lemma abf_spec m : at_or_before_first m (abf m).
Proof.
  split; [apply abf_length|]. induction m as [|b m IH]; intros i Hi; cbn in Hi; [lia|]. cbn [abf].
  destruct i as [|i]; cbn [nth]. { split; [intros _ j Hj; lia|reflexivity]. }
  destruct b.
  - rewrite nth_rep_false. split; [discriminate|]. intros H. specialize (H O ltac:(lia)). discriminate.
  - rewrite IH by lia. split; intros H j Hj; [destruct j as [|j]; [reflexivity|apply H; lia]|apply (H (S j)); lia].
Qed.
Lemma bf_shift m : bf (shift_left_lanes1 m) = match m with [] => [true] | _ => abf m end.
Proof.
  unfold shift_left_lanes1, bf. destruct m as [|b m]; [reflexivity|]. cbn [length Nat.sub firstn aaf map negb]. rewrite Nat.sub_0_r.
  revert b. induction m as [|b' m IH]; intros b; [cbn; destruct b; reflexivity|]. cbn [length firstn aaf map negb abf]. destruct b.
  - cbn [aaf map negb]. rewrite firstn_length. cbn [length]. rewrite Nat.min_l by lia. f_equal. assert (G : forall n, map negb (repeat true n) = repeat false n) by (induction n as [|n IHn]; cbn; [reflexivity|rewrite IHn; reflexivity]). rewrite <- G. cbn [repeat map negb]. reflexivity.
  - cbn [aaf map negb]. f_equal. specialize (IH b'). cbn [abf] in IH. injection IH as IH. cbn [aaf map negb]. rewrite IH. reflexivity.
Qed.
(** EMU128 *)
Lemma ones_nonneg w : 0 <= w -> 0 <= 2 ^ w - 1. Proof. intros H. pose proof (Z.pow_pos_nonneg 2 w). lia. Qed.
Lemma ones_lor w b : 0 <= w -> Z.lor (2 ^ w - 1) (lane_ones w b) = 2 ^ w - 1. Proof. intros H. destruct b; cbn [lane_ones]; [apply Z.lor_diag|apply Z.lor_0_r]. Qed.
Lemma emu_after_ok w m : 0 <= w -> emu_after_loop 0 (lanes_of w m) = lanes_of w (aaf m).
Proof.
  intros Hw. assert (G : forall m, emu_after_loop (2 ^ w - 1) (lanes_of w m) = lanes_of w (repeat true (length m))).
  { clear m. induction m as [|b m IH]; [reflexivity|]. cbn [lanes_of map emu_after_loop length repeat]. rewrite ones_lor by exact Hw. f_equal. exact IH. }
  induction m as [|b m IH]; [reflexivity|]. cbn [lanes_of map emu_after_loop aaf]. rewrite Z.lor_0_l. destruct b; cbn [lane_ones map]; f_equal; [apply G|exact IH].
Qed.
Lemma emu_at_or_after_ok w m : 0 <= w -> emu_at_or_after_first (lanes_of w m) = lanes_of w (aaf m).
Proof. intros Hw. rewrite <- emu_after_ok by exact Hw. destruct m as [|b [|b' m]]; [reflexivity| |reflexivity]. cbn. rewrite Z.lor_0_l || idtac. destruct b; reflexivity. Qed.
Lemma not_lane_ones w b : not_lane w (lane_ones w b) = lane_ones w (negb b). Proof. unfold not_lane. destruct b; cbn [lane_ones negb]; lia. Qed.
Lemma not_all_ok w m : not_all w (lanes_of w m) = lanes_of w (map negb m).
Proof. unfold not_all, lanes_of. rewrite !map_map. apply map_ext. intros b. apply not_lane_ones. Qed.
Lemma emu_before_ok w m : 0 <= w -> emu_before_first w (lanes_of w m) = lanes_of w (bf m).
Proof. intros Hw. unfold emu_before_first. rewrite emu_at_or_after_ok by exact Hw. apply not_all_ok. Qed.
Lemma zero_ones_ok w b : 0 < w -> is_zero_ones w (lane_ones w b) = lane_ones w (negb b).
Proof.
  intros Hw. unfold is_zero_ones. pose proof (proj1 (Z.pow_gt_1 2 w ltac:(lia)) Hw). destruct b; cbn [lane_ones negb].
  - destruct (Z.eqb_spec (2 ^ w - 1) 0); [lia|]. unfold wrap. rewrite Z.mod_0_l by lia. reflexivity.
  - cbn [Z.eqb]. unfold wrap. symmetry. apply (Z.mod_unique _ _ (-1)); lia.
Qed.
Lemma land_ones2 w a b : Z.land (lane_ones w a) (lane_ones w b) = lane_ones w (a && b). Proof. destruct a, b; cbn [lane_ones andb]; rewrite ?Z.land_diag, ?Z.land_0_r, ?Z.land_0_l; reflexivity. Qed.
Lemma lor_ones2 w a b : Z.lor (lane_ones w a) (lane_ones w b) = lane_ones w (a || b). Proof. destruct a, b; cbn [lane_ones orb]; rewrite ?Z.lor_diag, ?Z.lor_0_r, ?Z.lor_0_l; reflexivity. Qed.
Lemma emu_only_loop_ok w m a : 0 < w -> emu_only_loop w (lane_ones w a) (lanes_of w m) = lanes_of w (if a then onlyf m else repeat false (length m)).
Proof.
  intros Hw. revert a. induction m as [|b m IH]; intros a; [destruct a; reflexivity|]. cbn [lanes_of map emu_only_loop length repeat onlyf]. rewrite zero_ones_ok, !land_ones2 by exact Hw. fold (lanes_of w m). rewrite IH. destruct a, b; reflexivity.
Qed.
Lemma emu_to_first_loop_ok w m a : 0 < w -> emu_to_first_loop w (lane_ones w a) (lanes_of w m) = lanes_of w (if a then abf m else repeat false (length m)).
Proof.
  intros Hw. revert a. induction m as [|b m IH]; intros a; [destruct a; reflexivity|]. cbn [lanes_of map emu_to_first_loop length repeat abf]. rewrite zero_ones_ok, !land_ones2 by exact Hw. fold (lanes_of w m). rewrite IH. destruct a, b; reflexivity.
Qed.
(** AVX3: the lowest one bit *)
Lemma split_first m k : is_first m k -> exists q, 0 <= q /\ bits_from_mask m = 2 ^ Z.of_nat k * (1 + 2 * q).
Proof.
  revert k. induction m as [|b m IH]; intros k [H1 H2]; [destruct k; discriminate|]. pose proof (bfm_range m) as R. cbn [bits_from_mask]. destruct k as [|k].
  - cbn in H1. subst b. exists (bits_from_mask m). split; [lia|]. change (2 ^ Z.of_nat 0) with 1. lia.
  - specialize (H2 O ltac:(lia)) as H0. cbn in H0. subst b. destruct (IH k) as (q & Hq & E). { split; [exact H1|]. intros j Hj. apply (H2 (S j)). lia. }
    exists q. split; [exact Hq|]. rewrite E, Nat2Z.inj_succ, Z.pow_succ_r by lia. ring.
Qed.
Lemma low_bits k q i : 0 <= k -> 0 <= i -> Z.testbit (2 ^ k * (1 + 2 * q)) i = if i <? k then false else if i =? k then true else Z.testbit q (i - k - 1).
Proof.
  intros Hk Hi. rewrite Z.mul_comm, Z.mul_pow2_bits by lia. destruct (Z.ltb_spec i k). { apply Z.testbit_neg_r. lia. }
  destruct (Z.eqb_spec i k) as [->|Hn]. { rewrite Z.sub_diag, Z.add_comm. apply Z.testbit_odd_0. }
  replace (i - k) with (Z.succ (i - k - 1)) at 1 by lia. rewrite Z.add_comm. apply Z.testbit_odd_succ. lia.
Qed.
Lemma opp_low k q : - (2 ^ k * (1 + 2 * q)) = 2 ^ k * (1 + 2 * Z.lnot q). Proof. unfold Z.lnot. lia. Qed.
Lemma blsi_ok u k q : 0 <= k < u -> 0 <= q -> 2 ^ k * (1 + 2 * q) < 2 ^ u -> blsi u (2 ^ k * (1 + 2 * q)) = 2 ^ k.
Proof.
  intros Hk Hq Hx. unfold blsi, wrap. rewrite opp_low. apply Z.bits_inj'. intros i Hi. rewrite Z.land_spec, Z.pow2_bits_eqb by lia. destruct (Z.ltb_spec i u) as [Hu|Hu].
  - rewrite Z.mod_pow2_bits_low by lia. rewrite !low_bits by lia. rewrite (Z.eqb_sym k i). destruct (Z.ltb_spec i k), (Z.eqb_spec i k); try lia; try reflexivity. rewrite Z.lnot_spec by lia. apply andb_negb_r.
  - rewrite Z.mod_pow2_bits_high by lia. rewrite andb_false_r. symmetry. apply Z.eqb_neq. lia.
Qed.
Lemma bits_small x u i : 0 <= x < 2 ^ u -> 0 <= u <= i -> Z.testbit x i = false.
Proof. intros Hx Hi. rewrite <- (Z.mod_small x (2 ^ u)) by lia. apply Z.mod_pow2_bits_high. lia. Qed.
Lemma blsmsk_ok u k q : 0 <= k < u -> 0 <= q -> 2 ^ k * (1 + 2 * q) < 2 ^ u -> blsmsk u (2 ^ k * (1 + 2 * q)) = Z.ones (k + 1).
Proof.
  intros Hk Hq Hx. unfold blsmsk. pose proof (Z.pow_pos_nonneg 2 k ltac:(lia) ltac:(lia)) as P. assert (Hx0 : 0 < 2 ^ k * (1 + 2 * q)) by nia.
  unfold wrap. rewrite (Z.mod_small (_ - 1)) by lia. assert (E : 2 ^ k * (1 + 2 * q) - 1 = Z.lnot (2 ^ k * (1 + 2 * Z.lnot q))) by (rewrite <- opp_low; unfold Z.lnot; lia). rewrite E.
  apply Z.bits_inj'. intros i Hi. rewrite Z.lxor_spec, Z.lnot_spec by lia. rewrite !low_bits by lia. destruct (Z.ltb_spec i k). { rewrite Z.ones_spec_low by lia. reflexivity. }
  destruct (Z.eqb_spec i k). { rewrite Z.ones_spec_low by lia. reflexivity. } rewrite Z.ones_spec_high by lia. rewrite Z.lnot_spec by lia. rewrite negb_involutive. apply xorb_nilpotent.
Qed.
Lemma first_dec m : (exists k, is_first m k /\ (k < length m)%nat) \/ all_false m.
Proof.
  destruct (emu_first_ok m) as [(k & H & _)|[_ H]]; [left|right; exact H]. exists k. split; [exact H|]. destruct (le_lt_dec (length m) k) as [L|L]; [|exact L]. destruct H as [H _]. rewrite nth_overflow in H by lia. discriminate.
Qed.
Lemma nth_bool_ext (a b : list bool) : length a = length b -> (forall i, (i < length a)%nat -> (nth i a false = true <-> nth i b false = true)) -> a = b.
Proof. intros L H. apply nth_ext with (d := false) (d' := false); [exact L|]. intros i Hi. specialize (H i Hi). destruct (nth i a false), (nth i b false); intuition congruence. Qed.
Lemma is_bits x r n : length r = n -> 0 <= x < 2 ^ Z.of_nat n -> (forall i, (i < n)%nat -> Z.testbit x (Z.of_nat i) = nth i r false) -> x = bits_from_mask r.
Proof. intros L Hx H. apply bfm_unique; [lia|]. intros i. destruct (le_lt_dec n i) as [G|G]; [|apply H, G]. rewrite nth_overflow by lia. apply (bits_small x (Z.of_nat n)); lia. Qed.
Lemma is_first_unique m k i : is_first m k -> is_first m i -> i = k.
Proof. intros [A B] [C D]. destruct (lt_eq_lt_dec i k) as [[H|H]|H]; [rewrite (B i H) in C; discriminate|exact H|rewrite (D k H) in A; discriminate]. Qed.
(** the lanes by position of the first true one *)
Lemma nth_onlyf m k i : is_first m k -> (i < length m)%nat -> nth i (onlyf m) false = (i =? k)%nat.
Proof.
  intros F Hi. destruct (onlyf_spec m) as [_ H]. specialize (H i Hi). destruct (Nat.eqb_spec i k) as [->|N]; [apply H, F|]. destruct (nth i (onlyf m) false); [|reflexivity]. exfalso. apply N. eapply is_first_unique; [exact F|apply H; reflexivity].
Qed.
Lemma nth_aaf m k i : is_first m k -> (i < length m)%nat -> nth i (aaf m) false = (k <=? i)%nat.
Proof.
  intros [A B] Hi. destruct (aaf_spec m) as [_ H]. specialize (H i Hi). destruct (Nat.leb_spec k i) as [L|L]; [apply H; exists k; split; [exact L|exact A]|]. destruct (nth i (aaf m) false); [|reflexivity]. destruct (proj1 H eq_refl) as (j & Hj & E). rewrite B in E by lia. discriminate.
Qed.
Lemma nth_abf m k i : is_first m k -> (i < length m)%nat -> nth i (abf m) false = (i <=? k)%nat.
Proof.
  intros [A B] Hi. destruct (abf_spec m) as [_ H]. specialize (H i Hi). destruct (Nat.leb_spec i k) as [L|L]; [apply H; intros j Hj; apply B; lia|]. destruct (nth i (abf m) false); [|reflexivity]. rewrite (proj1 H eq_refl k) in A by lia. discriminate.
Qed.
Lemma all_false_repeat m : all_false m -> m = repeat false (length m).
Proof. intros H. apply nth_ext with (d := false) (d' := false); [rewrite repeat_length; reflexivity|]. intros i Hi. rewrite nth_rep_false. apply H, Hi. Qed.
Lemma aaf_none n : aaf (repeat false n) = repeat false n. Proof. induction n as [|n IH]; cbn; [reflexivity|rewrite IH; reflexivity]. Qed.
Lemma onlyf_none n : onlyf (repeat false n) = repeat false n. Proof. induction n as [|n IH]; cbn; [reflexivity|rewrite IH; reflexivity]. Qed.
Lemma abf_none n : abf (repeat false n) = repeat true n. Proof. induction n as [|n IH]; cbn; [reflexivity|rewrite IH; reflexivity]. Qed.
Lemma bfm_none n : bits_from_mask (repeat false n) = 0. Proof. induction n as [|n IH]; cbn [repeat bits_from_mask]; [reflexivity|rewrite IH; reflexivity]. Qed.
Lemma bfm_all n : bits_from_mask (repeat true n) = Z.ones (Z.of_nat n).
Proof. rewrite Z.ones_equiv. induction n as [|n IH]; [reflexivity|]. cbn [repeat bits_from_mask]. rewrite IH, Nat2Z.inj_succ, Z.pow_succ_r by lia. lia. Qed.
Lemma negb_rep n b : map negb (repeat b n) = repeat (negb b) n. Proof. induction n as [|n IH]; cbn; [reflexivity|rewrite IH; reflexivity]. Qed.
Section AVX3.
Context (u : Z) (m : list bool) (Hu : (Z.of_nat (length m) <= u)).
Let n := length m.
Let x := bits_from_mask m.
Lemma active_ones : active n = Z.ones (Z.of_nat n). Proof. rewrite Z.ones_equiv. unfold active. lia. Qed.
Lemma land_active y : Z.land y (active n) = y mod 2 ^ Z.of_nat n. Proof. rewrite active_ones, Z.land_ones by lia. reflexivity. Qed.
Lemma wrap_wrap y : wrap (Z.of_nat n) (wrap u y) = y mod 2 ^ Z.of_nat n.
Proof. unfold wrap. apply Z.bits_inj'. intros i Hi. destruct (Z.ltb_spec i (Z.of_nat n)); [rewrite !Z.mod_pow2_bits_low by (try lia; unfold n in *; lia); reflexivity|rewrite !Z.mod_pow2_bits_high by lia; reflexivity]. Qed.
Lemma mod_range y : 0 <= y mod 2 ^ Z.of_nat n < 2 ^ Z.of_nat n. Proof. apply Z.mod_pos_bound. apply Z.pow_pos_nonneg; lia. Qed.
Lemma first_form k : is_first m k -> (k < n)%nat -> exists q, 0 <= q /\ x = 2 ^ Z.of_nat k * (1 + 2 * q) /\ x < 2 ^ u /\ 0 <= Z.of_nat k < u.
Proof. intros F Hk. destruct (split_first m k F) as (q & Hq & E). exists q. split; [exact Hq|]. split; [exact E|]. pose proof (bfm_range m). assert (2 ^ Z.of_nat (length m) <= 2 ^ u) by (apply Z.pow_le_mono_r; lia). split; [unfold x; lia|unfold n in Hk; lia]. Qed.
Lemma after_bits : (- blsi u x) mod 2 ^ Z.of_nat n = bits_from_mask (aaf m).
Proof.
  destruct (first_dec m) as [(k & F & Hk)|A].
  - destruct (first_form k F Hk) as (q & Hq & E & Hx & Hku). rewrite E, blsi_ok by (rewrite <- ?E; assumption). apply (is_bits _ _ n); [apply aaf_length|apply mod_range|]. intros i Hi. rewrite Z.mod_pow2_bits_low by lia. rewrite (nth_aaf m k i F Hi).
    replace (- 2 ^ Z.of_nat k) with (2 ^ Z.of_nat k * (1 + 2 * (-1))) by lia. rewrite low_bits by lia. destruct (Z.ltb_spec (Z.of_nat i) (Z.of_nat k)), (Nat.leb_spec k i); try lia; try reflexivity. destruct (Z.eqb_spec (Z.of_nat i) (Z.of_nat k)); [reflexivity|]. apply Z.bits_m1. lia.
  - apply all_false_repeat in A. unfold x. rewrite A, bfm_none, aaf_none, bfm_none. unfold blsi. rewrite Z.land_0_l. apply Z.mod_0_l. pose proof (Z.pow_pos_nonneg 2 (Z.of_nat n)); lia.
Qed.
Lemma before_bits : (blsi u x - 1) mod 2 ^ Z.of_nat n = bits_from_mask (bf m).
Proof.
  destruct (first_dec m) as [(k & F & Hk)|A].
  - destruct (first_form k F Hk) as (q & Hq & E & Hx & Hku). rewrite E, blsi_ok by (rewrite <- ?E; assumption). apply (is_bits _ _ n); [unfold bf; rewrite map_length; apply aaf_length|apply mod_range|]. intros i Hi. rewrite Z.mod_pow2_bits_low by lia.
    unfold bf. change false with (negb true). rewrite map_nth. rewrite (nth_indep _ true false) by (rewrite aaf_length; exact Hi). rewrite (nth_aaf m k i F Hi). rewrite Z.sub_1_r, <- Z.ones_equiv. destruct (Nat.leb_spec k i); [apply Z.ones_spec_high|apply Z.ones_spec_low]; lia.
  - apply all_false_repeat in A. unfold x. rewrite A, bfm_none. unfold bf. rewrite aaf_none, negb_rep. cbn [negb]. rewrite bfm_all. unfold blsi. rewrite Z.land_0_l. fold n. rewrite Z.ones_equiv. symmetry. apply (Z.mod_unique _ _ (-1)); [left; pose proof (Z.pow_pos_nonneg 2 (Z.of_nat n)); lia|lia].
Qed.
Lemma to_first_bits : (blsmsk u x) mod 2 ^ Z.of_nat n = bits_from_mask (abf m).
Proof.
  destruct (first_dec m) as [(k & F & Hk)|A].
  - destruct (first_form k F Hk) as (q & Hq & E & Hx & Hku). rewrite E, blsmsk_ok by (rewrite <- ?E; assumption). apply (is_bits _ _ n); [apply abf_length|apply mod_range|]. intros i Hi. rewrite Z.mod_pow2_bits_low by lia. rewrite (nth_abf m k i F Hi).
    destruct (Nat.leb_spec i k); [apply Z.ones_spec_low|apply Z.ones_spec_high]; lia.
  - apply all_false_repeat in A. unfold x. rewrite A, bfm_none, abf_none, bfm_all. unfold blsmsk. rewrite Z.lxor_0_l. fold (wrap (Z.of_nat n) (wrap u (0 - 1))). rewrite wrap_wrap. fold n. rewrite Z.ones_equiv. symmetry. apply (Z.mod_unique _ _ (-1)); [left; pose proof (Z.pow_pos_nonneg 2 (Z.of_nat n)); lia|lia].
Qed.
Lemma only_bits : wrap (Z.of_nat n) (blsi u x) = bits_from_mask (onlyf m).
Proof.
  destruct (first_dec m) as [(k & F & Hk)|A].
  - destruct (first_form k F Hk) as (q & Hq & E & Hx & Hku). rewrite E, blsi_ok by (rewrite <- ?E; assumption). unfold wrap. apply (is_bits _ _ n); [apply onlyf_length|apply mod_range|]. intros i Hi. rewrite Z.mod_pow2_bits_low by lia. rewrite (nth_onlyf m k i F Hi).
    rewrite Z.pow2_bits_eqb by lia. destruct (Z.eqb_spec (Z.of_nat k) (Z.of_nat i)), (Nat.eqb_spec i k); try lia; reflexivity.
  - apply all_false_repeat in A. unfold x. rewrite A, bfm_none, onlyf_none, bfm_none. unfold blsi. rewrite Z.land_0_l. apply Z.mod_0_l. pose proof (Z.pow_pos_nonneg 2 (Z.of_nat n)); lia.
Qed.
End AVX3.
(** SSE2 to AVX2: chunks *)
Lemma masks_z n (f g : list bool -> Z) : forallb (fun m => f m =? g m) (all_masks n) = true -> forall m, length m = n -> f m = g m.
Proof. intros H m Hm. rewrite forallb_forall in H. apply Z.eqb_eq, H, all_masks_in, Hm. Qed.
Ltac widths H := unfold chunk_lanes in H; cbn [In] in H; repeat match type of H with _ \/ _ => destruct H as [H|H] end; try contradiction; subst.
Lemma chunk_after w m : chunk_lanes w -> length m = per_chunk w -> Z.lor (chunk w m) (neg64 (chunk w m)) = chunk w (aaf m).
Proof. intros Hw Hm. revert m Hm. widths Hw; apply masks_z; vm_cast_no_check (@eq_refl bool true). Qed.
Lemma chunk_only w m : chunk_lanes w -> length m = per_chunk w -> chunk_neg_lanes w (Z.land (chunk w m) (neg64 (chunk w m))) = chunk w (onlyf m).
Proof. intros Hw Hm. revert m Hm. widths Hw; apply masks_z; vm_cast_no_check (@eq_refl bool true). Qed.
Lemma chunk_sign w m : chunk_lanes w -> length m = per_chunk w -> broadcast_sign32 (hi32 (chunk w (aaf m))) = if existsb (fun b => b) m then 2 ^ 32 - 1 else 0.
Proof. intros Hw Hm. revert m Hm. widths Hw; apply masks_z; vm_cast_no_check (@eq_refl bool true). Qed.
Lemma chunk_zero w m : chunk_lanes w -> length m = per_chunk w -> eq_zero_ones 64 (chunk w m) = lane_ones 64 (negb (existsb (fun b => b) m)).
Proof. intros Hw Hm. revert m Hm. widths Hw; apply masks_z; vm_cast_no_check (@eq_refl bool true). Qed.
Lemma chunk_true w : chunk_lanes w -> chunk w (repeat true (per_chunk w)) = 2 ^ 64 - 1. Proof. intros Hw. widths Hw; reflexivity. Qed.
Lemma chunk_false w n : chunk w (repeat false n) = 0. Proof. induction n as [|n IH]; [reflexivity|]. unfold chunk in *. cbn [repeat lanes_of map pack lane_ones] in *. fold (lanes_of w (repeat false n)). rewrite IH. lia. Qed.
Lemma chunk_or_true w m : chunk_lanes w -> length m = per_chunk w -> Z.lor (chunk w m) (2 ^ 64 - 1) = 2 ^ 64 - 1.
Proof. intros Hw Hm. revert m Hm. widths Hw; apply masks_z; vm_cast_no_check (@eq_refl bool true). Qed.
Lemma chunk_and_true w m : chunk_lanes w -> length m = per_chunk w -> Z.land (chunk w m) (2 ^ 64 - 1) = chunk w m.
Proof. intros Hw Hm. revert m Hm. widths Hw; apply masks_z; vm_cast_no_check (@eq_refl bool true). Qed.
Lemma chunk_not0 w m : chunk_lanes w -> length m = per_chunk w -> not_lane 64 (chunk w m) = chunk w (map negb m).
Proof. intros Hw Hm. revert m Hm. widths Hw; apply masks_z; vm_cast_no_check (@eq_refl bool true). Qed.
Definition anyb (m : list bool) : bool := existsb (fun b => b) m.
Lemma aaf_app a b : aaf (a ++ b) = aaf a ++ if anyb a then repeat true (length b) else aaf b.
Proof. induction a as [|x a IH]; [reflexivity|]. cbn [app aaf anyb existsb]. destruct x; cbn [orb]. - rewrite app_length, repeat_app. reflexivity. - cbn [app]. f_equal. exact IH. Qed.
Lemma onlyf_app a b : onlyf (a ++ b) = onlyf a ++ if anyb a then repeat false (length b) else onlyf b.
Proof. induction a as [|x a IH]; [reflexivity|]. cbn [app onlyf anyb existsb]. destruct x; cbn [orb]. - rewrite app_length, repeat_app. reflexivity. - cbn [app]. f_equal. exact IH. Qed.
Lemma anyb_app a b : anyb (a ++ b) = anyb a || anyb b. Proof. apply existsb_app. Qed.
Section Chunks.
Context (w : Z) (Hw : chunk_lanes w).
Let k := per_chunk w.
Lemma pair_ones s : pair32 (if s : bool then 2 ^ 32 - 1 else 0) (if s then 2 ^ 32 - 1 else 0) = lane_ones 64 s. Proof. destruct s; reflexivity. Qed.
Lemma or_sign s m : length m = k -> Z.lor (chunk w m) (lane_ones 64 s) = chunk w (if s then repeat true k else m).
Proof. intros Hm. destruct s; cbn [lane_ones]; [rewrite chunk_or_true, chunk_true by assumption; reflexivity|apply Z.lor_0_r]. Qed.
Lemma and_sign s m : length m = k -> Z.land (chunk w m) (lane_ones 64 s) = chunk w (if s then m else repeat false k).
Proof. intros Hm. destruct s; cbn [lane_ones]; [apply chunk_and_true; assumption|rewrite chunk_false; apply Z.land_0_r]. Qed.
Lemma copy_sign_ok a b : length a = k -> length b = k -> copy_sign [chunk w (aaf a); chunk w (aaf b)] = [chunk w (aaf a); chunk w (if anyb a then repeat true k else aaf b)].
Proof.
  intros La Lb. unfold copy_sign. cbn [nth]. change (pair32 (broadcast_sign32 0) (broadcast_sign32 0)) with 0. rewrite Z.lor_0_r. rewrite chunk_sign by assumption. rewrite pair_ones, or_sign by (rewrite aaf_length; exact Lb). reflexivity.
Qed.
Lemma after128 a b : length a = k -> length b = k -> sse_at_or_after_first128 [chunk w a; chunk w b] = [chunk w (aaf a); chunk w (if anyb a then repeat true k else aaf b)].
Proof. intros La Lb. unfold sse_at_or_after_first128, or_neg. cbn [map]. rewrite !chunk_after by assumption. apply copy_sign_ok; assumption. Qed.
Lemma aaf_hi a b : length b = k -> aaf (a ++ b) = aaf a ++ (if anyb a then repeat true k else aaf b). Proof. intros Lb. rewrite aaf_app, Lb. reflexivity. Qed.
Lemma after256 a b c d : length a = k -> length b = k -> length c = k -> length d = k -> avx2_at_or_after_first [chunk w a; chunk w b; chunk w c; chunk w d] =
  [chunk w (aaf a); chunk w (if anyb a then repeat true k else aaf b); chunk w (if anyb (a ++ b) then repeat true k else aaf c); chunk w (if anyb (a ++ b ++ c) then repeat true k else aaf d)].
Proof.
  intros La Lb Lc Ld. unfold avx2_at_or_after_first, or_neg. cbn [map firstn skipn]. rewrite !chunk_after by assumption. rewrite !copy_sign_ok by assumption. cbn [app nth].
  assert (Es : broadcast_sign32 (hi32 (chunk w (if anyb a then repeat true k else aaf b))) = if anyb (a ++ b) then 2 ^ 32 - 1 else 0).
  { rewrite anyb_app. destruct (anyb a); cbn [orb]; [unfold k; rewrite chunk_true by exact Hw; reflexivity|]. apply chunk_sign; assumption. }
  rewrite Es, pair_ones. unfold map2. cbn [combine map fst snd]. rewrite !Z.lor_0_r. rewrite !or_sign by (try (destruct (anyb c)); rewrite ?repeat_length, ?aaf_length; auto). rewrite !anyb_app.
  destruct (anyb a), (anyb b), (anyb c); reflexivity.
Qed.
Lemma only_low l : Forall (fun a => length a = k) l -> only_lowest w (map (chunk w) l) = map (fun a => chunk w (onlyf a)) l.
Proof. intros F. unfold only_lowest. rewrite map_map. apply map_ext_Forall. induction F; constructor; auto. apply chunk_only; assumption. Qed.
Lemma only128 a b : length a = k -> length b = k -> sse_only_first128 w [chunk w a; chunk w b] = [chunk w (onlyf a); chunk w (if anyb a then repeat false k else onlyf b)].
Proof.
  intros La Lb. unfold sse_only_first128. change (only_lowest w [chunk w a; chunk w b]) with (only_lowest w (map (chunk w) [a; b])). rewrite (only_low [a; b]) by (repeat constructor; assumption). unfold interleave_lower2. cbn [map nth]. rewrite chunk_zero by assumption. change (eq_zero_ones 64 0) with (lane_ones 64 true). unfold map2. cbn [combine map fst snd].
  rewrite !and_sign by (rewrite onlyf_length; assumption). fold (anyb a). destruct (anyb a); reflexivity.
Qed.
Lemma only256 a b c d : length a = k -> length b = k -> length c = k -> length d = k -> avx2_only_first w [chunk w a; chunk w b; chunk w c; chunk w d] =
  [chunk w (onlyf a); chunk w (if anyb a then repeat false k else onlyf b); chunk w (if anyb (a ++ b) then repeat false k else onlyf c); chunk w (if anyb (a ++ b ++ c) then repeat false k else onlyf d)].
Proof.
  intros La Lb Lc Ld. unfold avx2_only_first. change (only_lowest w [chunk w a; chunk w b; chunk w c; chunk w d]) with (only_lowest w (map (chunk w) [a; b; c; d])). rewrite (only_low [a; b; c; d]) by (repeat constructor; assumption). cbn [map]. rewrite !chunk_zero by assumption. fold (anyb a) (anyb b) (anyb c) (anyb d). unfold map2, interleave_lower2. cbn [firstn skipn nth combine map fst snd app].
  rewrite !land_ones2. change (2 ^ 64 - 1) with (lane_ones 64 true). rewrite !and_sign by (rewrite onlyf_length; assumption). rewrite !anyb_app. destruct (anyb a), (anyb b), (anyb c); reflexivity.
Qed.
Lemma only_hi a b : length b = k -> onlyf (a ++ b) = onlyf a ++ (if anyb a then repeat false k else onlyf b). Proof. intros Lb. rewrite onlyf_app, Lb. reflexivity. Qed.
Lemma chunks_app c m1 m2 : length m1 = k -> chunks w (S c) (m1 ++ m2) = chunk w m1 :: chunks w c m2.
Proof.
  intros H. unfold chunks. fold k. cbn [seq map]. cbn [Nat.mul skipn]. rewrite firstn_app, H, Nat.sub_diag, <- H, firstn_all. cbn [firstn]. rewrite app_nil_r. f_equal. rewrite <- seq_shift, map_map. apply map_ext. intros i.
  rewrite skipn_app, skipn_all2 by lia. cbn [app]. replace (S i * length m1 - length m1)%nat with (i * length m1)%nat by lia. reflexivity.
Qed.
Lemma chunks_1 m1 : length m1 = k -> chunks w 1 m1 = [chunk w m1]. Proof. intros H. rewrite <- (app_nil_r m1) at 1. rewrite chunks_app by exact H. reflexivity. Qed.
Lemma cut c (m : list bool) : length m = (S c * k)%nat -> exists m1 m2, m = m1 ++ m2 /\ length m1 = k /\ length m2 = (c * k)%nat.
Proof. intros H. exists (firstn k m), (skipn k m). split; [symmetry; apply firstn_skipn|]. rewrite firstn_length, skipn_length. lia. Qed.
Lemma sse_after128_ok m : length m = (2 * k)%nat -> sse_at_or_after_first128 (chunks w 2 m) = chunks w 2 (aaf m).
Proof.
  intros H. destruct (cut 1 m H) as (a & b & -> & La & Lb). assert (Lb' : length b = k) by lia. rewrite aaf_hi by lia. rewrite !chunks_app, !chunks_1 by (rewrite ?aaf_length; auto; destruct (anyb a); rewrite ?repeat_length, ?aaf_length; auto). apply after128; assumption.
Qed.
Lemma sse_only128_ok m : length m = (2 * k)%nat -> sse_only_first128 w (chunks w 2 m) = chunks w 2 (onlyf m).
Proof.
  intros H. destruct (cut 1 m H) as (a & b & -> & La & Lb). assert (Lb' : length b = k) by lia. rewrite only_hi by lia. rewrite !chunks_app, !chunks_1 by (rewrite ?onlyf_length; auto; destruct (anyb a); rewrite ?repeat_length, ?onlyf_length; auto). apply only128; assumption.
Qed.
Lemma four_chunks (m : list bool) : length m = (4 * k)%nat -> exists a b c d, m = a ++ b ++ c ++ d /\ length a = k /\ length b = k /\ length c = k /\ length d = k.
Proof.
  intros H. destruct (cut 3 m H) as (a & m1 & -> & La & L1). destruct (cut 2 m1 L1) as (b & m2 & -> & Lb & L2). destruct (cut 1 m2 L2) as (c & d & -> & Lc & Ld). exists a, b, c, d. repeat split; try assumption. lia.
Qed.
Lemma len_if (s : bool) x (y : list bool) : length y = k -> length (if s then repeat x k else y) = k. Proof. intros H. destruct s; [apply repeat_length|exact H]. Qed.
Lemma avx2_after_ok m : length m = (4 * k)%nat -> avx2_at_or_after_first (chunks w 4 m) = chunks w 4 (aaf m).
Proof.
  intros H. destruct (four_chunks m H) as (a & b & c & d & -> & La & Lb & Lc & Ld). rewrite !chunks_app, chunks_1 by assumption. rewrite after256 by assumption.
  assert (E : aaf (a ++ b ++ c ++ d) = aaf a ++ (if anyb a then repeat true k else aaf b) ++ (if anyb (a ++ b) then repeat true k else aaf c) ++ (if anyb (a ++ b ++ c) then repeat true k else aaf d)).
  { rewrite !app_assoc. rewrite aaf_hi by exact Ld. rewrite aaf_hi by exact Lc. rewrite aaf_hi by exact Lb. rewrite <- !app_assoc. reflexivity. }
  rewrite E. rewrite !chunks_app, chunks_1 by (rewrite ?aaf_length; auto; apply len_if; rewrite aaf_length; assumption). reflexivity.
Qed.
Lemma avx2_only_ok m : length m = (4 * k)%nat -> avx2_only_first w (chunks w 4 m) = chunks w 4 (onlyf m).
Proof.
  intros H. destruct (four_chunks m H) as (a & b & c & d & -> & La & Lb & Lc & Ld). rewrite !chunks_app, chunks_1 by assumption. rewrite only256 by assumption.
  assert (E : onlyf (a ++ b ++ c ++ d) = onlyf a ++ (if anyb a then repeat false k else onlyf b) ++ (if anyb (a ++ b) then repeat false k else onlyf c) ++ (if anyb (a ++ b ++ c) then repeat false k else onlyf d)).
  { rewrite !app_assoc. rewrite only_hi by exact Ld. rewrite only_hi by exact Lc. rewrite only_hi by exact Lb. rewrite <- !app_assoc. reflexivity. }
  rewrite E. rewrite !chunks_app, chunks_1 by (rewrite ?onlyf_length; auto; apply len_if; rewrite onlyf_length; assumption). reflexivity.
Qed.
(** Not *)
Lemma chunk_not m : length m = k -> not_lane 64 (chunk w m) = chunk w (map negb m). Proof. apply chunk_not0, Hw. Qed.
Lemma chunks_not c : forall m, length m = (c * k)%nat -> not_all 64 (chunks w c m) = chunks w c (map negb m).
Proof.
  induction c as [|c IH]; intros m H; [reflexivity|]. destruct (cut c m H) as (a & b & -> & La & Lb). rewrite map_app, !chunks_app by (rewrite ?map_length; exact La). cbn [not_all map]. f_equal; [apply chunk_not, La|apply IH, Lb].
Qed.
End Chunks.
(** up to 64 bits, undefined upper bits *)
Lemma lane_at_low w n x junk i : 0 < w -> (i < n)%nat -> lane_at w (x + 2 ^ (w * Z.of_nat n) * junk) i = lane_at w x i.
Proof.
  intros Hw Hi. unfold lane_at, wrap. apply Z.bits_inj'. intros j Hj. destruct (Z.ltb_spec j w) as [L|L]; [|rewrite !Z.mod_pow2_bits_high by lia; reflexivity]. rewrite !Z.mod_pow2_bits_low, !Z.shiftr_spec by lia.
  set (L' := w * Z.of_nat n). assert (HL : 0 <= j + w * Z.of_nat i < L') by (unfold L'; nia). rewrite <- (Z.mod_pow2_bits_low (x + _) L') by lia. rewrite <- (Z.mod_pow2_bits_low x L') by lia. f_equal. rewrite Z.mul_comm. apply Z_mod_plus_full.
Qed.
Lemma lane_at_low' w n y z i : 0 < w -> (i < n)%nat -> (forall j, 0 <= j < w * Z.of_nat n -> Z.testbit y j = Z.testbit z j) -> lane_at w y i = lane_at w z i.
Proof.
  intros Hw Hi H. unfold lane_at, wrap. apply Z.bits_inj'. intros j Hj. destruct (Z.ltb_spec j w) as [L|L]; [|rewrite !Z.mod_pow2_bits_high by lia; reflexivity]. rewrite !Z.mod_pow2_bits_low, !Z.shiftr_spec by lia. apply H. nia.
Qed.
Lemma low_resized w n x junk j : 0 <= j < w * Z.of_nat n -> Z.testbit (resized w n x junk) j = Z.testbit x j.
Proof. intros H. unfold resized. rewrite <- (Z.mod_pow2_bits_low _ (w * Z.of_nat n)) by lia. rewrite Z.mul_comm, Z_mod_plus_full. apply Z.mod_pow2_bits_low. lia. Qed.
Lemma low_neg w n x junk j : w * Z.of_nat n <= 64 -> 0 <= j < w * Z.of_nat n -> Z.testbit (neg64 (resized w n x junk)) j = Z.testbit (neg64 x) j.
Proof.
  intros HL H. unfold neg64, wrap. rewrite !Z.mod_pow2_bits_low by lia. rewrite <- (Z.mod_pow2_bits_low (- resized _ _ _ _) (w * Z.of_nat n)) by lia. rewrite <- (Z.mod_pow2_bits_low (- x) (w * Z.of_nat n)) by lia. f_equal.
  unfold resized. replace (- (x + 2 ^ (w * Z.of_nat n) * junk)) with (- x + (- junk) * 2 ^ (w * Z.of_nat n)) by ring. apply Z_mod_plus_full.
Qed.
Lemma small_w w n : small_config w n -> 0 < w /\ w * Z.of_nat n <= 64.
Proof. unfold small_config. cbn [In]. intros H. repeat match goal with H : _ \/ _ |- _ => destruct H as [H|H] end; try contradiction; injection H as <- <-; split; [reflexivity|cbv; discriminate|reflexivity|cbv; discriminate|reflexivity|cbv; discriminate]. Qed.
Lemma lists_ok n (f g : list bool -> list Z) : forallb (fun m => leq (f m) (g m)) (all_masks n) = true -> forall m, length m = n -> f m = g m.
Proof. apply masks_ok. Qed.
Lemma small_after w n m junk : small_config w n -> length m = n -> sse_at_or_after_first64 w n junk (chunk w m) = lanes_of w (aaf m).
Proof.
  intros Hc Hm. destruct (small_w w n Hc) as [Hw HL]. unfold sse_at_or_after_first64. cbv zeta.
  transitivity (lanes_in w n (Z.lor (chunk w m) (neg64 (chunk w m)))).
  - apply map_ext_in. intros i Hi. apply in_seq in Hi. apply (lane_at_low' w n); [exact Hw|lia|]. intros j Hj. rewrite !Z.lor_spec, low_resized, low_neg by lia. reflexivity.
  - revert m Hm. unfold small_config in Hc. cbn [In] in Hc. repeat match goal with H : _ \/ _ |- _ => destruct H as [H|H] end; try contradiction; injection Hc as <- <-; apply masks_ok; vm_cast_no_check (@eq_refl bool true).
Qed.
Lemma small_only w n m junk : small_config w n -> length m = n -> sse_only_first64 w n junk (chunk w m) = lanes_of w (onlyf m).
Proof.
  intros Hc Hm. destruct (small_w w n Hc) as [Hw HL]. unfold sse_only_first64. cbv zeta.
  transitivity (neg_lanes w (lanes_in w n (Z.land (chunk w m) (neg64 (chunk w m))))).
  - f_equal. apply map_ext_in. intros i Hi. apply in_seq in Hi. apply (lane_at_low' w n); [exact Hw|lia|]. intros j Hj. rewrite !Z.land_spec, low_resized, low_neg by lia. reflexivity.
  - revert m Hm. unfold small_config in Hc. cbn [In] in Hc. repeat match goal with H : _ \/ _ |- _ => destruct H as [H|H] end; try contradiction; injection Hc as <- <-; apply masks_ok; vm_cast_no_check (@eq_refl bool true).
Qed.
(** one and two lanes *)
Lemma one_after w m : length m = 1%nat -> sse_at_or_after_first1 (lanes_of w m) = lanes_of w (aaf m). Proof. intros H. destruct (one m H) as ([|] & ->); reflexivity. Qed.
Lemma one_only w m : length m = 1%nat -> sse_only_first1 (lanes_of w m) = lanes_of w (onlyf m). Proof. intros H. destruct (one m H) as ([|] & ->); reflexivity. Qed.
Lemma one_to w m : length m = 1%nat -> sse_at_or_before_first1 w (lanes_of w m) = lanes_of w (abf m). Proof. intros H. destruct (one m H) as ([|] & ->); reflexivity. Qed.
Lemma two_after w m : length m = 2%nat -> sse_at_or_after_first2 (lanes_of w m) = lanes_of w (aaf m).
Proof. intros H. destruct (two m H) as (a & b & ->). unfold sse_at_or_after_first2, map2, interleave_lower2. cbn [lanes_of map combine nth fst snd]. rewrite !lor_ones2. destruct a, b; reflexivity. Qed.
Lemma two_only w m : 0 < w -> length m = 2%nat -> sse_only_first2 w (lanes_of w m) = lanes_of w (onlyf m).
Proof.
  intros Hw H. destruct (two m H) as (a & b & ->). unfold sse_only_first2, map2, interleave_lower2. cbn [lanes_of map combine nth fst snd]. assert (E : forall c, eq_zero_ones w (lane_ones w c) = lane_ones w (negb c)).
  { intros c. pose proof (proj1 (Z.pow_gt_1 2 w ltac:(lia)) Hw). unfold eq_zero_ones. destruct c; cbn [lane_ones negb]; [destruct (Z.eqb_spec (2 ^ w - 1) 0); [lia|reflexivity]|reflexivity]. }
  change (eq_zero_ones w 0) with (eq_zero_ones w (lane_ones w false)). rewrite !E, !land_ones2. destruct a, b; reflexivity.
Qed.
(** AVX2 shift by one lane *)
Lemma avx2_shift_ok m l : (1 <= l)%nat -> length m = (2 * l)%nat -> avx2_shift_left1 m = shift_left_lanes1 m.
Proof.
  intros Hl Hm. unfold avx2_shift_left1. replace (length m / 2)%nat with l by (rewrite Hm, Nat.mul_comm, Nat.div_mul; lia). set (a := firstn l m). set (b := skipn l m). assert (E : m = a ++ b) by (symmetry; apply firstn_skipn).
  assert (La : length a = l) by (unfold a; rewrite firstn_length; lia). assert (Lb : length b = l) by (unfold b; rewrite skipn_length; lia). unfold shift_left_lanes1. rewrite Hm. rewrite E at 1. clearbody a b. clear E Hm m.
  assert (F1 : firstn l (repeat false l ++ a) = repeat false l) by (rewrite firstn_app, repeat_length, Nat.sub_diag, firstn_all2 by (rewrite repeat_length; lia); apply app_nil_r).
  assert (F2 : skipn l (repeat false l ++ a) = a) by (rewrite skipn_app, repeat_length, Nat.sub_diag, skipn_all2 by (rewrite repeat_length; lia); reflexivity).
  rewrite F1, F2. unfold combine_shift_right. rewrite !skipn_app, repeat_length, La. replace (l - 1 - l)%nat with O by lia. cbn [skipn].
  assert (S1 : skipn (l - 1) (repeat false l) = [false]). { replace l with (l - 1 + 1)%nat at 2 by lia. rewrite repeat_app, skipn_app, repeat_length, Nat.sub_diag, skipn_all2 by (rewrite repeat_length; lia). reflexivity. }
  rewrite S1. rewrite !firstn_app. assert (L2 : length (skipn (l - 1) a) = 1%nat) by (rewrite skipn_length; lia). rewrite L2. cbn [length]. rewrite (firstn_all2 [false]) by (cbn; lia). rewrite (firstn_all2 (skipn _ a)) by lia. rewrite La. cbn [app]. f_equal. rewrite app_assoc. f_equal.
  - rewrite firstn_skipn. symmetry. apply firstn_all2. lia.
  - f_equal. lia.
Qed.
