From Coq Require Import ZArith List Lia Bool.
From Verif Require Import Word Word_Proofs Arith_Model Arith_Spec Arith_Proofs BitSet_Model BitSet_Spec.
Import ListNotations.
Local Open Scope Z_scope.

Lemma bit_ok i : 0 <= i < 64 -> bit i = Some (Z.shiftl 1 i).
Proof.
  intros H. unfold bit. destruct (Z.leb_spec 0 i), (Z.ltb_spec i 64); try lia. cbn [andb].
  rewrite wrap_small; [reflexivity|]. rewrite Z.shiftl_1_l. split; [apply Z.pow_nonneg; lia|].
  apply Z.pow_lt_mono_r; lia.
Qed.
Lemma bit_none i : ~ (0 <= i < 64) -> bit i = None.
Proof. intros H. unfold bit. destruct (Z.leb_spec 0 i), (Z.ltb_spec i 64); try lia; reflexivity. Qed.

(** [b] represents the set S of integers below 64 *)
Definition R64 (b : Z) (S : zset) : Prop :=
  0 <= b < 2 ^ 64 /\ (forall i, 0 <= i -> Z.testbit b i = S i) /\ (forall i, S i = true -> 0 <= i < 64).

Lemma shl1_range i : 0 <= i < 64 -> 0 <= Z.shiftl 1 i < 2 ^ 64.
Proof. intros. rewrite Z.shiftl_1_l. split; [apply Z.pow_nonneg; lia|apply Z.pow_lt_mono_r; lia]. Qed.

Lemma R64_init : R64 bs64_init empty.
Proof. split; [unfold bs64_init; lia|]. split; [intros; apply Z.testbit_0_l|discriminate]. Qed.

Lemma R64_Set b S i : R64 b S -> 0 <= i < 64 ->
  exists b', bs64_Set b i = Some b' /\ R64 b' (spec_step S (OSet i)).
Proof.
  intros (H1 & H2 & H3) Hi. unfold bs64_Set. rewrite bit_ok by auto. cbn [bind].
  eexists; split; [reflexivity|]. split; [|split].
  - apply lor_range; [lia|auto|apply shl1_range; auto].
  - intros j Hj. rewrite Z.lor_spec, testbit_one_shl, H2 by lia. cbn. apply orb_comm.
  - cbn. intros j. destruct (Z.eqb_spec j i); [lia|]. apply H3.
Qed.

Lemma R64_Clear b S i : R64 b S -> 0 <= i < 64 ->
  exists b', bs64_Clear b i = Some b' /\ R64 b' (spec_step S (OClear i)).
Proof.
  intros (H1 & H2 & H3) Hi. unfold bs64_Clear. rewrite bit_ok by auto. cbn [bind].
  eexists; split; [reflexivity|]. split; [|split].
  - apply land_range; [lia|auto].
  - intros j Hj. rewrite Z.land_spec, testbit_wrap, Z.lnot_spec, testbit_one_shl, H2 by lia. cbn.
    destruct (Z.ltb_spec j 64).
    + apply andb_comm.
    + assert (S j = false) as ->.
      { destruct (S j) eqn:E; [|reflexivity]. apply H3 in E. lia. }
      rewrite !andb_false_r. reflexivity.
  - cbn. intros j Hj. apply andb_prop in Hj. apply H3, Hj.
Qed.

Lemma R64_SetNZ b S bits : R64 b S -> 0 <= bits < 2 ^ 64 ->
  R64 (bs64_SetNonzeroBitsFrom64 b bits) (spec_step S (OSetNZ bits)).
Proof.
  intros (H1 & H2 & H3) Hb. split; [|split].
  - apply lor_range; auto; lia.
  - intros j Hj. unfold bs64_SetNonzeroBitsFrom64. rewrite Z.lor_spec, H2 by lia. cbn.
    destruct (Z.leb_spec 0 j); [|lia]. destruct (Z.ltb_spec j 64); [reflexivity|].
    cbn. rewrite (testbit_small bits 64) by lia. reflexivity.
  - cbn. intros j Hj. apply orb_prop in Hj as [Hj|Hj]; [apply H3, Hj|].
    destruct (Z.leb_spec 0 j), (Z.ltb_spec j 64); cbn in Hj; try discriminate; lia.
Qed.

Lemma R64_step b S o : R64 b S -> op_ok 64 o ->
  exists b', bs64_step b o = Some b' /\ R64 b' (spec_step S o).
Proof.
  intros HR Ho. destruct o as [i|i|bits]; cbn [bs64_step op_ok] in *.
  - apply R64_Set; auto. - apply R64_Clear; auto.
  - eexists; split; [reflexivity|]. apply R64_SetNZ; auto.
Qed.

Lemma R64_run ops : forall b S, R64 b S -> Forall (op_ok 64) ops ->
  exists b', bs64_run b ops = Some b' /\ R64 b' (spec_run S ops).
Proof.
  induction ops as [|o ops IH]; intros b S HR HF.
  - exists b. split; [reflexivity|exact HR].
  - inversion HF; subst. destruct (R64_step b S o) as (b' & E & HR'); auto.
    cbn [bs64_run]. rewrite E. cbn [bind]. apply IH; auto.
Qed.

Lemma R64_Get b S i : R64 b S -> 0 <= i < 64 -> bs64_Get b i = Some (S i).
Proof.
  intros (H1 & H2 & H3) Hi. unfold bs64_Get. rewrite bit_ok by auto. cbn [bind]. f_equal.
  rewrite <- H2 by lia.
  destruct (Z.eqb_spec (Z.land b (Z.shiftl 1 i)) 0) as [E|E].
  - assert (T : Z.testbit (Z.land b (Z.shiftl 1 i)) i = false) by (rewrite E; apply Z.testbit_0_l).
    rewrite Z.land_spec, testbit_one_shl, Z.eqb_refl, andb_true_r in T by lia. rewrite T. reflexivity.
  - destruct (Z.testbit b i) eqn:T; [reflexivity|]. exfalso. apply E.
    apply Z.bits_inj'. intros k Hk. rewrite Z.land_spec, testbit_one_shl, Z.testbit_0_l by lia.
    destruct (Z.eqb_spec k i) as [->|]; [rewrite T; reflexivity|apply andb_false_r].
Qed.

Lemma nonzero_exists b : 0 <= b < 2 ^ 64 -> (b <> 0 <-> exists i, 0 <= i < 64 /\ Z.testbit b i = true).
Proof.
  intros Hb. split.
  - intros Hn. exists (Z.log2 b). pose proof (Z.log2_nonneg b).
    pose proof (Z.log2_lt_pow2 b 64 ltac:(lia)). split; [lia|]. apply Z.bit_log2. lia.
  - intros (i & Hi & Ht) ->. rewrite Z.testbit_0_l in Ht. discriminate.
Qed.

Lemma R64_Any b S : R64 b S -> (bs64_Any b = true <-> exists i, S i = true).
Proof.
  intros (H1 & H2 & H3). unfold bs64_Any. rewrite negb_true_iff, Z.eqb_neq.
  rewrite nonzero_exists by auto. split.
  - intros (i & Hi & Ht). exists i. rewrite <- H2 by lia. exact Ht.
  - intros (i & Hi). exists i. specialize (H3 i Hi). rewrite H2 by lia. auto.
Qed.

Lemma R64_First b S : R64 b S -> (exists i, S i = true) ->
  exists r, bs64_First b = Some r /\ S r = true /\ (forall j, S j = true -> r <= j) /\ 0 <= r < 64.
Proof.
  intros HR Hex. pose proof HR as (H1 & H2 & H3).
  assert (Hn : b <> 0). { apply (R64_Any b S HR) in Hex. unfold bs64_Any in Hex.
    apply negb_true_iff, Z.eqb_neq in Hex. exact Hex. }
  destruct (ctz64_fallback_correct b H1 Hn) as (r & E & (L1 & L2) & Hr).
  exists r. split; [exact E|]. split; [rewrite <- H2 by lia; exact L1|]. split; [|exact Hr].
  intros j Hj. destruct (Z_le_dec r j); [assumption|].
  pose proof (H3 j Hj). rewrite <- H2 in Hj by lia. rewrite L2 in Hj by lia. discriminate.
Qed.

(** members *)
Lemma filter_none {A} (f : A -> bool) l : (forall x, In x l -> f x = false) -> filter f l = [].
Proof.
  induction l as [|a l IH]; intros H; [reflexivity|]. cbn. rewrite H by (left; auto).
  apply IH. intros; apply H; right; auto.
Qed.
Lemma filter_ext_in' {A} (f g : A -> bool) l : (forall x, In x l -> f x = g x) -> filter f l = filter g l.
Proof.
  induction l as [|a l IH]; intros H; [reflexivity|]. cbn. rewrite H by (left; auto).
  rewrite IH by (intros; apply H; right; auto). reflexivity.
Qed.

Lemma in_zseq x a n : In x (map Z.of_nat (seq a n)) <-> Z.of_nat a <= x < Z.of_nat (a + n).
Proof.
  rewrite in_map_iff. split.
  - intros (k & <- & Hk). apply in_seq in Hk. lia.
  - intros H. exists (Z.to_nat x). split; [lia|]. apply in_seq. lia.
Qed.

Lemma members_split (n k : nat) S : (k < n)%nat -> S (Z.of_nat k) = true ->
  (forall j, 0 <= j < Z.of_nat k -> S j = false) ->
  members n S = Z.of_nat k :: filter S (map Z.of_nat (seq (k + 1) (n - k - 1))).
Proof.
  intros Hk Hs Hl. unfold members.
  replace n with (k + (1 + (n - k - 1)))%nat at 1 by lia.
  rewrite seq_app, map_app, filter_app. rewrite filter_none.
  - cbn [app Nat.add seq map filter]. rewrite Hs. f_equal. f_equal. f_equal. f_equal; lia.
  - intros x Hx. apply in_zseq in Hx. apply Hl. lia.
Qed.

Lemma Foreach_loop_ok fuel : forall b, 0 <= b < 2 ^ 64 ->
  (length (members 64 (Z.testbit b)) < fuel)%nat ->
  bs64_Foreach_loop fuel b = Some (members 64 (Z.testbit b)).
Proof.
  induction fuel as [|fuel IH]; intros b Hb Hf; [lia|].
  cbn [bs64_Foreach_loop]. destruct (Z.eqb_spec b 0) as [->|Hn]; cbn [negb].
  - reflexivity.
  - destruct (ctz64_fallback_correct b Hb Hn) as (r & E & (L1 & L2) & Hr).
    rewrite E. cbn [bind]. rewrite wrap_small by lia.
    destruct (clear_lowest b r ltac:(lia) L1 L2) as [C1 C2].
    assert (M : members 64 (Z.testbit b) = r :: members 64 (Z.testbit (Z.land b (b - 1)))).
    { rewrite (members_split 64 (Z.to_nat r)); [|lia|rewrite Z2Nat.id by lia; exact L1|
        intros j Hj; apply L2; lia].
      rewrite Z2Nat.id by lia. f_equal.
      unfold members. set (k := Z.to_nat r). replace 64%nat with ((k + 1) + (64 - k - 1))%nat at 2 by lia.
      rewrite seq_app, map_app, filter_app. rewrite (filter_none _ (map _ (seq 0 (k + 1)))).
      - cbn [app]. apply filter_ext_in'. intros x Hx. apply in_zseq in Hx. rewrite C2 by lia.
        destruct (Z.leb_spec x r); [lia|reflexivity].
      - intros x Hx. apply in_zseq in Hx. rewrite C2 by lia.
        destruct (Z.leb_spec x r); [reflexivity|lia]. }
    rewrite M in Hf. cbn [length] in Hf.
    rewrite IH; [|apply land_range; [lia|exact Hb]|lia].
    cbn [bind]. rewrite M. reflexivity.
Qed.

Lemma members_length n S : (length (members n S) <= n)%nat.
Proof.
  unfold members. rewrite <- (seq_length n 0) at 2. rewrite <- (map_length Z.of_nat (seq 0 n)).
  induction (map Z.of_nat (seq 0 n)) as [|x l IH]; cbn; [lia|]. destruct (S x); cbn; lia.
Qed.

Lemma members_ext n S T : (forall i, 0 <= i < Z.of_nat n -> S i = T i) -> members n S = members n T.
Proof. intros H. apply filter_ext_in'. intros x Hx. apply in_zseq in Hx. apply H. lia. Qed.

Lemma R64_Foreach b S : R64 b S -> bs64_Foreach b = Some (members 64 S).
Proof.
  intros (H1 & H2 & H3). unfold bs64_Foreach. rewrite Foreach_loop_ok; [|exact H1|].
  - f_equal. apply members_ext. intros i Hi. apply H2. lia.
  - pose proof (members_length 64 (Z.testbit b)). lia.
Qed.

Lemma map_of_nat_filter (f : Z -> bool) l :
  length (filter f (map Z.of_nat l)) = length (filter (fun i => f (Z.of_nat i)) l).
Proof. induction l as [|a l IH]; [reflexivity|]. cbn. destruct (f (Z.of_nat a)); cbn; lia. Qed.

Lemma R64_Count b S : R64 b S -> bs64_Count b = Z.of_nat (length (members 64 S)).
Proof.
  intros (H1 & H2 & H3). unfold bs64_Count. rewrite PopCount64_correct by exact H1.
  unfold count_ones. f_equal. rewrite (members_ext 64 S (Z.testbit b)).
  - unfold members. symmetry. apply map_of_nat_filter.
  - intros i Hi. symmetry. apply H2. lia.
Qed.

Lemma bs64_correct ops : Forall (op_ok 64) ops ->
  exists b, bs64_run bs64_init ops = Some b /\
  let S := spec_run empty ops in
  (forall i, S i = true -> 0 <= i < 64) /\
  (forall i, 0 <= i < 64 -> bs64_Get b i = Some (S i)) /\
  (bs64_Any b = true <-> exists i, S i = true) /\
  ((exists i, S i = true) -> exists r, bs64_First b = Some r /\ S r = true /\ forall j, S j = true -> r <= j) /\
  (0 <= bs64_Get64 b < 2 ^ 64 /\ forall i, 0 <= i < 64 -> Z.testbit (bs64_Get64 b) i = S i) /\
  bs64_Foreach b = Some (members 64 S) /\
  bs64_Count b = Z.of_nat (length (members 64 S)).
Proof.
  intros HF. destruct (R64_run ops _ _ R64_init HF) as (b & E & HR). exists b. split; [exact E|].
  cbv zeta. pose proof HR as (H1 & H2 & H3). split; [exact H3|]. split.
  { intros; apply R64_Get; auto. }
  split; [apply R64_Any, HR|]. split.
  { intros Hex. destruct (R64_First b _ HR Hex) as (r & ? & ? & ? & ?). eauto. }
  split. { split; [exact H1|]. intros; apply H2; lia. }
  split; [apply R64_Foreach, HR|apply R64_Count, HR].
Qed.

Lemma bs64_undefined b i : ~ (0 <= i < 64) ->
  bs64_Set b i = None /\ bs64_Clear b i = None /\ bs64_Get b i = None.
Proof. intros H. unfold bs64_Set, bs64_Clear, bs64_Get. rewrite bit_none by auto. auto. Qed.

Lemma bs64_run_app b o1 o2 b1 : bs64_run b o1 = Some b1 -> bs64_run b (o1 ++ o2) = bs64_run b1 o2.
Proof.
  revert b. induction o1 as [|o o1 IH]; intros b H; cbn in *; [congruence|].
  destruct (bs64_step b o); cbn [bind] in *; [auto|discriminate].
Qed.

(* ------------------------------ BitSet4096 ---------------------------- *)
Definition R4096 (K : nat) (s : bs4096) (S : zset) : Prop :=
  length (words s) = K /\
  (forall j w, nth_error (words s) j = Some w -> R64 w (fun m => (0 <=? m) && (m <? 64) && S (Z.of_nat j * 64 + m))) /\
  R64 (nonzero s) (fun j => (0 <=? j) && match nth_error (words s) (Z.to_nat j) with Some w => negb (w =? 0) | None => false end) /\
  (forall i, S i = true -> 0 <= i < Z.of_nat K * 64).

Lemma upd_length l n x : length (upd l n x) = length l.
Proof. revert n; induction l; intros [|n]; cbn; auto. Qed.
Lemma nth_error_upd l n x j : (n < length l)%nat ->
  nth_error (upd l n x) j = if Nat.eqb j n then Some x else nth_error l j.
Proof.
  revert n j. induction l as [|y l IH]; intros [|n] [|j] H; cbn in *; try lia; auto.
  apply IH. lia.
Qed.

Lemma R64_ext b S T : R64 b S -> (forall i, S i = T i) -> R64 b T.
Proof.
  intros (H1 & H2 & H3) H. split; [exact H1|]. split.
  - intros i Hi. rewrite H2 by auto. apply H.
  - intros i Hi. apply H3. rewrite H. exact Hi.
Qed.

Lemma divmod64 i : 0 <= i -> 0 <= i / 64 /\ 0 <= i mod 64 < 64 /\ i = i / 64 * 64 + i mod 64.
Proof.
  intros. pose proof (Z.div_mod i 64 ltac:(lia)). pose proof (Z.mod_pos_bound i 64 ltac:(lia)).
  split; [apply Z.div_pos; lia|]. lia.
Qed.

Lemma R4096_word K s S i : R4096 K s S -> 0 <= i < Z.of_nat K * 64 ->
  exists w, word_at s (i / 64) = Some w /\ nth_error (words s) (Z.to_nat (i / 64)) = Some w /\
  R64 w (fun m => (0 <=? m) && (m <? 64) && S (i / 64 * 64 + m)).
Proof.
  intros (HL & HW & HN & HS) Hi. destruct (divmod64 i) as (D1 & D2 & D3); [lia|].
  unfold word_at. destruct (Z.leb_spec 0 (i / 64)); [|lia].
  destruct (nth_error (words s) (Z.to_nat (i / 64))) as [w|] eqn:E.
  - exists w. split; auto. split; auto. specialize (HW _ _ E). rewrite Z2Nat.id in HW by lia. exact HW.
  - apply nth_error_None in E. lia.
Qed.

Lemma R64_nonzero w S i : R64 w S -> S i = true -> w <> 0.
Proof.
  intros (H1 & H2 & H3) Hi ->. pose proof (H3 i Hi). rewrite <- H2 in Hi by lia.
  rewrite Z.testbit_0_l in Hi. discriminate.
Qed.

Lemma R64_zero w S : R64 w S -> (forall i, S i = false) -> w = 0.
Proof.
  intros (H1 & H2 & H3) H. apply Z.bits_inj'. intros k Hk. rewrite H2, H, Z.testbit_0_l by lia. reflexivity.
Qed.

(** replacing one word *)
Lemma R4096_upd K s S T i w' nz :
  R4096 K s S -> 0 <= i < Z.of_nat K * 64 ->
  R64 w' (fun m => (0 <=? m) && (m <? 64) && T (i / 64 * 64 + m)) ->
  (forall x, x / 64 <> i / 64 -> T x = S x) ->
  R64 nz (fun j => if j =? i / 64 then negb (w' =? 0) else
      (0 <=? j) && match nth_error (words s) (Z.to_nat j) with Some w => negb (w =? 0) | None => false end) ->
  R4096 K {| nonzero := nz; words := upd (words s) (Z.to_nat (i / 64)) w' |} T.
Proof.
  intros HR Hi Hw Ho Hnz. destruct (R4096_word K s S i HR Hi) as (w & _ & Ew & _).
  destruct HR as (HL & HW & HN & HS). destruct (divmod64 i) as (D1 & D2 & D3); [lia|].
  assert (Hlt : (Z.to_nat (i / 64) < length (words s))%nat) by (apply nth_error_Some; congruence).
  unfold R4096. cbn [words nonzero]. split; [rewrite upd_length; exact HL|]. split; [|split].
  - intros j v Hj. rewrite nth_error_upd in Hj by auto.
    destruct (Nat.eqb_spec j (Z.to_nat (i / 64))) as [->|Hne].
    + injection Hj as <-. rewrite Z2Nat.id by lia. exact Hw.
    + specialize (HW j v Hj). eapply R64_ext; [exact HW|]. intros m. cbv beta.
      destruct (Z.leb_spec 0 m), (Z.ltb_spec m 64); cbn [andb]; try reflexivity.
      symmetry. apply Ho. rewrite Z.div_add_l by lia. rewrite Z.div_small by lia. lia.
  - eapply R64_ext; [exact Hnz|]. intros j. cbv beta.
    destruct (Z.leb_spec 0 j).
    + rewrite nth_error_upd by auto. destruct (Z.eqb_spec j (i / 64)) as [->|].
      * rewrite Nat.eqb_refl. reflexivity.
      * destruct (Nat.eqb_spec (Z.to_nat j) (Z.to_nat (i / 64))); [lia|reflexivity].
    + destruct (Z.eqb_spec j (i / 64)); [lia|reflexivity].
  - intros x Hx. destruct (Z.eq_dec (x / 64) (i / 64)) as [E|E].
    + pose proof (Z.div_mod x 64 ltac:(lia)). pose proof (Z.mod_pos_bound x 64 ltac:(lia)). nia.
    + rewrite Ho in Hx by auto. apply HS, Hx.
Qed.

Lemma R4096_step K s S o : (0 < K <= 64)%nat -> R4096 K s S -> op_ok (Z.of_nat K * 64) o ->
  exists s', bs4096_step s o = Some s' /\ R4096 K s' (spec_step S o).
Proof.
  intros HK HR Ho. destruct o as [i|i|bits]; cbn [bs4096_step op_ok] in *.
  - destruct (R4096_word K s S i HR Ho) as (w & E1 & E2 & Hw). destruct (divmod64 i) as (D1 & D2 & D3); [lia|].
    unfold bs4096_Set. rewrite E1. cbn [bind].
    destruct (R64_Set w _ (i mod 64) Hw D2) as (w' & -> & Hw'). cbn [bind].
    pose proof HR as (HL & HW & HN & HS).
    destruct (R64_Set (nonzero s) _ (i / 64) HN) as (nz & -> & Hnz). { split; [lia|]. apply Z.div_lt_upper_bound; lia. }
    cbn [bind]. eexists; split; [reflexivity|]. eapply R4096_upd; eauto.
    + eapply R64_ext; [exact Hw'|]. intros m. cbn.
      destruct (Z.leb_spec 0 m), (Z.ltb_spec m 64); cbn [andb];
        destruct (Z.eqb_spec m (i mod 64)), (Z.eqb_spec (i / 64 * 64 + m) i); try lia; try reflexivity.
    + intros x Hx. cbn. destruct (Z.eqb_spec x i); [congruence|reflexivity].
    + eapply R64_ext; [exact Hnz|]. intros j. cbn. destruct (Z.eqb_spec j (i / 64)) as [->|]; [|reflexivity].
      cbn. symmetry. apply negb_true_iff, Z.eqb_neq. apply (R64_nonzero w' _ (i mod 64) Hw').
      cbn. rewrite Z.eqb_refl. reflexivity.
  - destruct (R4096_word K s S i HR Ho) as (w & E1 & E2 & Hw). destruct (divmod64 i) as (D1 & D2 & D3); [lia|].
    unfold bs4096_Clear. rewrite E1. cbn [bind].
    destruct (R64_Clear w _ (i mod 64) Hw D2) as (w' & -> & Hw'). cbn [bind].
    pose proof HR as (HL & HW & HN & HS).
    assert (Hw2 : R64 w' (fun m => (0 <=? m) && (m <? 64) && spec_step S (OClear i) (i / 64 * 64 + m))).
    { eapply R64_ext; [exact Hw'|]. intros m. cbn.
      destruct (Z.leb_spec 0 m), (Z.ltb_spec m 64); cbn [andb]; rewrite ?andb_false_r;
        destruct (Z.eqb_spec m (i mod 64)), (Z.eqb_spec (i / 64 * 64 + m) i); try lia; try reflexivity. }
    assert (Hot : forall x, x / 64 <> i / 64 -> spec_step S (OClear i) x = S x).
    { intros x Hx. cbn. destruct (Z.eqb_spec x i); [congruence|reflexivity]. }
    assert (Hlt : 0 <= i / 64 < 64) by (split; [lia|apply Z.div_lt_upper_bound; lia]).
    unfold bs64_Any. rewrite negb_involutive. destruct (Z.eqb_spec w' 0) as [Hz|Hz].
    + destruct (R64_Clear (nonzero s) _ (i / 64) HN Hlt) as (nz & -> & Hnz).
      cbn [bind]. eexists; split; [reflexivity|]. eapply R4096_upd; eauto.
      eapply R64_ext; [exact Hnz|]. intros j. cbn. rewrite Hz. destruct (Z.eqb_spec j (i / 64)); reflexivity.
    + eexists; split; [reflexivity|]. eapply R4096_upd; eauto.
      eapply R64_ext; [exact HN|]. intros j. cbn. destruct (Z.eqb_spec j (i / 64)) as [->|]; [|reflexivity].
      rewrite E2. destruct (Z.leb_spec 0 (i / 64)); [|lia]. cbn [andb].
      destruct (Z.eqb_spec w' 0); [contradiction|]. cbn [negb]. apply negb_true_iff, Z.eqb_neq.
      intros ->. apply Hz. apply (R64_zero w' _ Hw'). intros m. cbn.
      pose proof (R64_zero) as _. destruct Hw as (_ & Hw & Hw3).
      destruct ((0 <=? m) && (m <? 64) && S (i / 64 * 64 + m)) eqn:Em; [|rewrite andb_false_r; reflexivity].
      exfalso. pose proof (Hw3 m Em). rewrite <- Hw, Z.testbit_0_l in Em by lia. discriminate.
  - unfold bs4096_SetNonzeroBitsFrom64.
    destruct (R4096_word K s S 0 HR ltac:(lia)) as (w & E1 & E2 & Hw).
    change (0 / 64) with 0 in *. rewrite E1. cbn [bind].
    pose proof HR as (HL & HW & HN & HS).
    pose proof (R64_SetNZ w _ bits Hw Ho) as Hw'.
    assert (Hw2 : R64 (bs64_SetNonzeroBitsFrom64 w bits) (fun m => (0 <=? m) && (m <? 64) && spec_step S (OSetNZ bits) (0 / 64 * 64 + m))).
    { eapply R64_ext; [exact Hw'|]. intros m. cbn.
      destruct (Z.leb_spec 0 m), (Z.ltb_spec m 64); cbn [andb]; reflexivity. }
    assert (Hot : forall x, x / 64 <> 0 / 64 -> spec_step S (OSetNZ bits) x = S x).
    { intros x Hx. cbn. destruct (Z.leb_spec 0 x), (Z.ltb_spec x 64); cbn [andb]; try apply orb_false_r.
      exfalso. apply Hx. apply Z.div_small. lia. }
    destruct (Z.eqb_spec bits 0) as [Hz|Hz]; cbn [negb].
    + eexists; split; [reflexivity|]. apply (R4096_upd K s S _ 0 _ _ HR ltac:(lia) Hw2 Hot).
      eapply R64_ext; [exact HN|]. intros j. cbn. destruct (Z.eqb_spec j 0) as [->|]; [|reflexivity].
      unfold bs64_SetNonzeroBitsFrom64. rewrite Hz, Z.lor_0_r.
      change (Z.to_nat 0) with 0%nat in *. rewrite E2. reflexivity.
    + destruct (R64_Set (nonzero s) _ 0 HN ltac:(lia)) as (nz & -> & Hnz). cbn [bind].
      eexists; split; [reflexivity|]. apply (R4096_upd K s S _ 0 _ _ HR ltac:(lia) Hw2 Hot).
      eapply R64_ext; [exact Hnz|]. intros j. cbn. destruct (Z.eqb_spec j 0) as [->|]; [|reflexivity].
      cbn. symmetry. apply negb_true_iff, Z.eqb_neq. unfold bs64_SetNonzeroBitsFrom64.
      intros E. apply Z.lor_eq_0_iff in E. lia.
Qed.

Lemma R4096_init K : R4096 K (bs4096_init (Z.of_nat K * 64)) empty.
Proof.
  unfold R4096, bs4096_init. cbn [words nonzero]. rewrite Z.div_mul by lia. rewrite Nat2Z.id.
  split; [apply repeat_length|]. split; [|split].
  - intros j w Hj. apply nth_error_In, repeat_spec in Hj. subst. eapply R64_ext; [apply R64_init|].
    intros m. cbn. rewrite andb_false_r. reflexivity.
  - eapply R64_ext; [apply R64_init|]. intros j. cbn. destruct (nth_error (repeat 0 K) (Z.to_nat j)) eqn:E.
    + apply nth_error_In, repeat_spec in E. subst. rewrite andb_false_r. reflexivity.
    + rewrite andb_false_r. reflexivity.
  - discriminate.
Qed.

Lemma R4096_run K ops : (0 < K <= 64)%nat -> forall s S, R4096 K s S -> Forall (op_ok (Z.of_nat K * 64)) ops ->
  exists s', bs4096_run s ops = Some s' /\ R4096 K s' (spec_run S ops).
Proof.
  intros HK. induction ops as [|o ops IH]; intros s S HR HF.
  - exists s. split; [reflexivity|exact HR].
  - inversion HF; subst. destruct (R4096_step K s S o) as (s' & E & HR'); auto.
    cbn [bs4096_run]. rewrite E. cbn [bind]. apply IH; auto.
Qed.

Lemma R4096_Get K s S i : R4096 K s S -> 0 <= i < Z.of_nat K * 64 -> bs4096_Get s i = Some (S i).
Proof.
  intros HR Hi. destruct (R4096_word K s S i HR Hi) as (w & E1 & E2 & Hw). destruct (divmod64 i) as (D1 & D2 & D3); [lia|].
  unfold bs4096_Get. rewrite E1. cbn [bind]. rewrite (R64_Get w _ _ Hw D2). f_equal.
  destruct (Z.leb_spec 0 (i mod 64)), (Z.ltb_spec (i mod 64) 64); try lia. cbn [andb]. f_equal. lia.
Qed.

Lemma R4096_summary K s S j : R4096 K s S -> 0 <= j ->
  ((0 <=? j) && match nth_error (words s) (Z.to_nat j) with Some w => negb (w =? 0) | None => false end = true
   <-> exists m, 0 <= m < 64 /\ S (j * 64 + m) = true).
Proof.
  intros (HL & HW & HN & HS) Hj. destruct (Z.leb_spec 0 j); [|lia]. cbn [andb].
  destruct (nth_error (words s) (Z.to_nat j)) as [w|] eqn:E.
  - specialize (HW _ _ E). rewrite Z2Nat.id in HW by lia. pose proof (R64_Any w _ HW) as HA.
    change (negb (w =? 0)) with (bs64_Any w). rewrite HA. split.
    + intros (m & Hm). exists m. destruct (Z.leb_spec 0 m), (Z.ltb_spec m 64); cbn in Hm; try discriminate. auto.
    + intros (m & Hm1 & Hm2). exists m. destruct (Z.leb_spec 0 m), (Z.ltb_spec m 64); try lia. exact Hm2.
  - split; [discriminate|]. intros (m & Hm1 & Hm2). apply nth_error_None in E. apply HS in Hm2. nia.
Qed.

Lemma R4096_Any K s S : R4096 K s S -> (bs4096_Any s = true <-> exists i, S i = true).
Proof.
  intros HR. pose proof HR as (HL & HW & HN & HS). unfold bs4096_Any. rewrite (R64_Any _ _ HN). split.
  - intros (j & Hj). assert (0 <= j) by (destruct (Z.leb_spec 0 j); [auto|discriminate]).
    apply (R4096_summary K s S j HR) in Hj; auto. destruct Hj as (m & _ & Hm). eauto.
  - intros (i & Hi). pose proof (HS i Hi). destruct (divmod64 i) as (D1 & D2 & D3); [lia|].
    exists (i / 64). apply (R4096_summary K s S _ HR D1). exists (i mod 64). split; auto. rewrite <- D3. exact Hi.
Qed.

Lemma R4096_First K s S : (K <= 64)%nat -> R4096 K s S -> (exists i, S i = true) ->
  exists r, bs4096_First s = Some r /\ S r = true /\ forall j, S j = true -> r <= j.
Proof.
  intros HK HR Hex. pose proof HR as (HL & HW & HN & HS).
  unfold bs4096_First. pose proof (proj2 (R4096_Any K s S HR) Hex) as HA.
  unfold bs4096_Any in HA. apply (R64_Any _ _ HN) in HA.
  destruct (R64_First _ _ HN HA) as (idx & -> & HF1 & HF2 & HF3). cbn [bind].
  pose proof HF1 as HFs. apply (R4096_summary K s S idx HR ltac:(lia)) in HFs. destruct HFs as (m & Hm1 & Hm2).
  pose proof (HS _ Hm2).
  destruct (R4096_word K s S (idx * 64 + m) HR ltac:(lia)) as (w & E1 & E2 & Hw).
  rewrite Z.div_add_l, (Z.div_small m), Z.add_0_r in E1, E2, Hw by lia. rewrite E1. cbn [bind].
  destruct (R64_First w _ Hw) as (r & -> & Hr1 & Hr2 & Hr3).
  { exists m. destruct (Z.leb_spec 0 m), (Z.ltb_spec m 64); try lia. exact Hm2. }
  cbn [bind]. rewrite wrap_small by lia. eexists; split; [reflexivity|].
  destruct (Z.leb_spec 0 r), (Z.ltb_spec r 64); try lia. cbn [andb] in Hr1. split; [exact Hr1|].
  intros j Hj. pose proof (HS j Hj). destruct (divmod64 j) as (D1 & D2 & D3); [lia|].
  assert (idx <= j / 64).
  { apply HF2. apply (R4096_summary K s S _ HR D1). exists (j mod 64). split; auto. rewrite <- D3. exact Hj. }
  destruct (Z.eq_dec idx (j / 64)) as [E|]; [|nia].
  assert (r <= j mod 64); [|nia]. apply Hr2.
  destruct (Z.leb_spec 0 (j mod 64)), (Z.ltb_spec (j mod 64) 64); try lia. cbn [andb]. rewrite E, <- D3. exact Hj.
Qed.

(** members of a union of 64-blocks *)
Definition block (S : zset) (j : Z) : list Z := map (fun m => j * 64 + m) (members 64 (fun m => S (j * 64 + m))).

Lemma seq_shift_map a n : map Z.of_nat (seq a n) = map (fun m => Z.of_nat a + m) (map Z.of_nat (seq 0 n)).
Proof.
  rewrite map_map. revert a. induction n as [|n IH]; intros a; [reflexivity|].
  cbn [seq map]. f_equal; [lia|]. rewrite IH. rewrite <- (seq_shift n 0), map_map.
  apply map_ext. intros; lia.
Qed.
Lemma filter_map_comm {A B} (f : A -> B) (p : B -> bool) l : filter p (map f l) = map f (filter (fun x => p (f x)) l).
Proof. induction l as [|a l IH]; [reflexivity|]. cbn. destruct (p (f a)); cbn; rewrite IH; reflexivity. Qed.

Lemma members_blocks K S : members (K * 64) S = flat_map (block S) (map Z.of_nat (seq 0 K)).
Proof.
  unfold members. induction K as [|K IH]; [reflexivity|].
  replace (Datatypes.S K * 64)%nat with (K * 64 + 64)%nat by lia.
  rewrite seq_app, map_app, filter_app, IH. rewrite (seq_S K 0), map_app, flat_map_app. f_equal.
  cbn [map flat_map]. rewrite app_nil_r. rewrite seq_shift_map, filter_map_comm. unfold block, members.
  rewrite !Nat.add_0_l. replace (Z.of_nat (K * 64)) with (Z.of_nat K * 64) by lia. reflexivity.
Qed.

Lemma flat_map_filter {A B} (f : A -> list B) p l : (forall x, In x l -> p x = false -> f x = []) ->
  flat_map f l = flat_map f (filter p l).
Proof.
  induction l as [|a l IH]; intros H; [reflexivity|]. cbn. destruct (p a) eqn:E; cbn.
  - rewrite IH; [reflexivity|]. intros; apply H; auto. right; auto.
  - rewrite H by (auto; left; auto). cbn. apply IH. intros; apply H; auto. right; auto.
Qed.

Lemma in_members x n S : In x (members n S) <-> 0 <= x < Z.of_nat n /\ S x = true.
Proof. unfold members. rewrite filter_In, in_zseq. rewrite Nat.add_0_l. reflexivity. Qed.

Definition summary (s : bs4096) (j : Z) : bool :=
  (0 <=? j) && match nth_error (words s) (Z.to_nat j) with Some w => negb (w =? 0) | None => false end.

Lemma R4096_members K s S : (K <= 64)%nat -> R4096 K s S ->
  members (K * 64) S = flat_map (block S) (members 64 (summary s)).
Proof.
  intros HK HR. rewrite members_blocks.
  rewrite (flat_map_filter (block S) (summary s)).
  - f_equal. unfold members. replace 64%nat with (K + (64 - K))%nat at 1 by lia.
    rewrite seq_app, map_app, filter_app. rewrite (filter_none _ (map Z.of_nat (seq (0 + K) _))).
    + rewrite app_nil_r. reflexivity.
    + intros x Hx. apply in_zseq in Hx. unfold summary. destruct HR as (HL & _).
      destruct (nth_error (words s) (Z.to_nat x)) eqn:E; [|apply andb_false_r].
      assert (Z.to_nat x < length (words s))%nat by (apply nth_error_Some; congruence). lia.
  - intros j Hj Hf. apply in_zseq in Hj. unfold block, members.
    rewrite (filter_none _ (map Z.of_nat (seq 0 64))); [reflexivity|].
    intros m Hm. apply in_zseq in Hm. destruct (S (j * 64 + m)) eqn:E; [|reflexivity].
    assert (summary s j = true).
    { apply (R4096_summary K s S j HR ltac:(lia)). exists m. split; [lia|exact E]. }
    congruence.
Qed.

Local Opaque members.

Lemma in_summary_word K s S j : (K <= 64)%nat -> R4096 K s S -> In j (members 64 (summary s)) ->
  0 <= j < 64 /\ exists w, word_at s j = Some w /\ R64 w (fun m => (0 <=? m) && (m <? 64) && S (j * 64 + m)).
Proof.
  intros HK HR Hj. apply in_members in Hj as [H1 H2]. split; [lia|].
  unfold summary in H2. unfold word_at. destruct (Z.leb_spec 0 j); [|lia]. cbn [andb] in H2.
  destruct (nth_error (words s) (Z.to_nat j)) as [w|] eqn:E; [|discriminate].
  exists w. split; auto. destruct HR as (_ & HW & _). specialize (HW _ _ E). rewrite Z2Nat.id in HW by lia. exact HW.
Qed.

Lemma block_word S j : 0 <= j < 64 ->
  map (fun m => wrap 64 (j * 64 + m)) (members 64 (fun m => (0 <=? m) && (m <? 64) && S (j * 64 + m))) = block S j.
Proof.
  intros Hj. unfold block. rewrite (members_ext 64 _ (fun m => S (j * 64 + m))).
  - apply map_ext_in. intros m Hm. apply in_members in Hm as [Hm _]. apply wrap_small. lia.
  - intros m Hm. destruct (Z.leb_spec 0 m), (Z.ltb_spec m 64); try lia. reflexivity.
Qed.

Lemma R4096_Foreach K s S : (K <= 64)%nat -> R4096 K s S -> bs4096_Foreach s = Some (members (K * 64) S).
Proof.
  intros HK HR. pose proof HR as (HL & HW & HN & HS). unfold bs4096_Foreach.
  rewrite (R64_Foreach _ _ HN). cbn [bind]. fold (summary s). rewrite (R4096_members K s S HK HR).
  assert (H : forall l, (forall j, In j l -> In j (members 64 (summary s))) ->
     bs4096_Foreach_over s l = Some (flat_map (block S) l)).
  { induction l as [|j l IH]; intros Hl; [reflexivity|]. cbn [bs4096_Foreach_over flat_map].
    destruct (in_summary_word K s S j HK HR (Hl j (or_introl eq_refl))) as (Hj & w & -> & Hw). cbn [bind].
    rewrite (R64_Foreach w _ Hw). cbn [bind]. rewrite IH by (intros; apply Hl; right; auto). cbn [bind].
    rewrite block_word by auto. reflexivity. }
  apply H. auto.
Qed.

Lemma flat_map_length_sum {A B} (f : A -> list B) l :
  length (flat_map f l) = fold_right (fun x n => (length (f x) + n)%nat) 0%nat l.
Proof. induction l; cbn; [reflexivity|]. rewrite app_length. lia. Qed.

Lemma R4096_Count K s S : (K <= 64)%nat -> R4096 K s S ->
  bs4096_Count s = Some (Z.of_nat (length (members (K * 64) S))).
Proof.
  intros HK HR. pose proof HR as (HL & HW & HN & HS). unfold bs4096_Count.
  rewrite (R64_Foreach _ _ HN). cbn [bind]. fold (summary s). rewrite (R4096_members K s S HK HR).
  assert (HB : forall l, (length l <= 64)%nat -> Z.of_nat (length (flat_map (block S) l)) <= 64 * Z.of_nat (length l)).
  { induction l as [|j l IH]; intros Hl; [cbn; lia|]. cbn [flat_map length] in *. rewrite app_length.
    unfold block at 1. rewrite map_length. pose proof (members_length 64 (fun m => S (j * 64 + m))). lia. }
  assert (H : forall l t, (length l <= 64)%nat -> 0 <= t -> t + Z.of_nat (length (flat_map (block S) l)) <= 64 * 64 ->
      (forall j, In j l -> In j (members 64 (summary s))) ->
     bs4096_Count_over s t l = Some (t + Z.of_nat (length (flat_map (block S) l)))).
  { induction l as [|j l IH]; intros t Hlen Ht0 Ht Hl; [cbn; f_equal; lia|]. cbn [bs4096_Count_over flat_map length] in *.
    destruct (in_summary_word K s S j HK HR (Hl j (or_introl eq_refl))) as (Hj & w & -> & Hw). cbn [bind].
    rewrite (R64_Count w _ Hw). rewrite app_length in *.
    assert (E : length (block S j) = length (members 64 (fun m => (0 <=? m) && (m <? 64) && S (j * 64 + m)))).
    { rewrite <- (block_word S j Hj), map_length. reflexivity. }
    rewrite <- E in *. rewrite wrap_small by lia. rewrite IH; [f_equal; lia|lia|lia|lia|].
    intros; apply Hl; right; auto. }
  rewrite H; [f_equal; lia|apply members_length|lia| |auto].
  pose proof (HB (members 64 (summary s)) (members_length 64 _)). pose proof (members_length 64 (summary s)). lia.
Qed.

Lemma bs4096_correct kMaxSize ops : 0 < kMaxSize <= 4096 -> (64 | kMaxSize) -> Forall (op_ok kMaxSize) ops ->
  exists s, bs4096_run (bs4096_init kMaxSize) ops = Some s /\
  let S := spec_run empty ops in
  (forall i, S i = true -> 0 <= i < kMaxSize) /\
  (forall i, 0 <= i < kMaxSize -> bs4096_Get s i = Some (S i)) /\
  (bs4096_Any s = true <-> exists i, S i = true) /\
  ((exists i, S i = true) -> exists r, bs4096_First s = Some r /\ S r = true /\ forall j, S j = true -> r <= j) /\
  (exists g, bs4096_Get64 s = Some g /\ 0 <= g < 2 ^ 64 /\ forall i, 0 <= i < 64 -> Z.testbit g i = S i) /\
  bs4096_Foreach s = Some (members (Z.to_nat kMaxSize) S) /\
  bs4096_Count s = Some (Z.of_nat (length (members (Z.to_nat kMaxSize) S))).
Proof.
  intros Hk (q & Hq) HF. set (K := Z.to_nat q).
  assert (EK : kMaxSize = Z.of_nat K * 64) by (unfold K; lia).
  assert (HK : (0 < K <= 64)%nat) by lia.
  assert (EN : Z.to_nat kMaxSize = (K * 64)%nat) by lia.
  rewrite EK in *. rewrite EN. clear EN.
  destruct (R4096_run K ops HK _ _ (R4096_init K) HF) as (s & E & HR). exists s. split; [exact E|].
  cbv zeta. pose proof HR as (HL & HW & HN & HS). split; [exact HS|]. split.
  { intros; eapply R4096_Get; eauto. }
  split; [eapply R4096_Any, HR|]. split.
  { apply (R4096_First K); [lia|exact HR]. }
  split.
  { unfold bs4096_Get64. destruct (R4096_word K s _ 0 HR ltac:(lia)) as (w & E1 & E2 & Hw1 & Hw2 & Hw3).
    change (0 / 64) with 0 in E1. exists w. split; [exact E1|]. split; [exact Hw1|].
    intros i Hi. rewrite Hw2 by lia. destruct (Z.leb_spec 0 i), (Z.ltb_spec i 64); try lia. cbn [andb]. f_equal. }
  split; [apply R4096_Foreach; auto; lia|apply R4096_Count; auto; lia].
Qed.

(** C09: with kMaxSize not a multiple of 64 the last indices fall outside bits_. *)
Lemma bs4096_oob kMaxSize i s : 0 <= kMaxSize <= 4096 -> length (words s) = length (words (bs4096_init kMaxSize)) ->
  kMaxSize / 64 * 64 <= i < kMaxSize ->
  bs4096_Set s i = None /\ bs4096_Get s i = None /\ bs4096_Clear s i = None.
Proof.
  intros Hk HL Hi. cbn in HL. rewrite repeat_length in HL.
  pose proof (Z.div_mod kMaxSize 64 ltac:(lia)). pose proof (Z.mod_pos_bound kMaxSize 64 ltac:(lia)).
  assert (0 <= kMaxSize / 64) by (apply Z.div_pos; lia).
  assert (E : i / 64 = kMaxSize / 64).
  { symmetry. apply Z.div_unique with (i - kMaxSize / 64 * 64); lia. }
  assert (N : word_at s (i / 64) = None).
  { unfold word_at. rewrite E. destruct (Z.leb_spec 0 (kMaxSize / 64)); [|lia].
    apply nth_error_None. lia. }
  unfold bs4096_Set, bs4096_Get, bs4096_Clear. rewrite N. auto.
Qed.

Lemma bs4096_oob_witness : exists kMaxSize i, 0 < kMaxSize <= 4096 /\ 0 <= i < kMaxSize /\
  bs4096_Set (bs4096_init kMaxSize) i = None /\ bs4096_Get (bs4096_init kMaxSize) i = None /\
  bs4096_Clear (bs4096_init kMaxSize) i = None.
Proof. exists 100, 99. repeat split; vm_compute; congruence. Qed.
