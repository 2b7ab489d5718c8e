(** Masks as bits: lemmas about Compress_Model. *)
From Coq Require Import ZArith List Arith Bool Lia.
From Verif Require Import Word Compress_Tables Compress_Spec Compress_Model.
Import ListNotations.
Open Scope Z_scope.
Lemma bfm_range m : 0 <= bits_from_mask m < 2 ^ Z.of_nat (length m).
Proof. induction m as [|b m IH]; cbn [bits_from_mask length]. - cbn; lia. - rewrite Nat2Z.inj_succ, Z.pow_succ_r by lia. destruct b; lia. Qed.
Lemma bfm_testbit m : forall i, Z.testbit (bits_from_mask m) (Z.of_nat i) = nth i m false.
Proof.
  induction m as [|b m IH]; intros i; cbn [bits_from_mask]. { rewrite Z.testbit_0_l. destruct i; reflexivity. }
  destruct i as [|i]; cbn [nth].
  - change (Z.of_nat 0) with 0. destruct b; [rewrite Z.add_comm, Z.testbit_odd_0|rewrite Z.add_0_l, Z.testbit_even_0]; reflexivity.
  - rewrite Nat2Z.inj_succ. destruct b; [rewrite Z.add_comm, Z.testbit_odd_succ by lia|rewrite Z.add_0_l, Z.testbit_even_succ by lia]; apply IH.
Qed.
Lemma bits_ext x y : 0 <= x -> 0 <= y -> (forall i, Z.testbit x (Z.of_nat i) = Z.testbit y (Z.of_nat i)) -> x = y.
Proof. intros Hx Hy H. apply Z.bits_inj'. intros n Hn. specialize (H (Z.to_nat n)). rewrite Z2Nat.id in H by lia. exact H. Qed.
Lemma bfm_unique m x : 0 <= x -> (forall i, Z.testbit x (Z.of_nat i) = nth i m false) -> x = bits_from_mask m.
Proof. intros Hx H. apply bits_ext; [exact Hx|apply bfm_range|]. intros i. rewrite H, bfm_testbit. reflexivity. Qed.
Lemma bfm_app m1 m2 : bits_from_mask (m1 ++ m2) = bits_from_mask m1 + 2 ^ Z.of_nat (length m1) * bits_from_mask m2.
Proof. induction m1 as [|b m1 IH]; cbn [bits_from_mask length app]. - change (2 ^ Z.of_nat 0) with 1. lia. - rewrite IH, Nat2Z.inj_succ, Z.pow_succ_r by lia. ring. Qed.
Lemma count_cons b m : count (b :: m) = ((if b then 1 else 0) + count m)%nat. Proof. unfold count. cbn. destruct b; reflexivity. Qed.
Lemma count_app m1 m2 : count (m1 ++ m2) = (count m1 + count m2)%nat. Proof. unfold count. rewrite filter_app, app_length. reflexivity. Qed.
Lemma count_le m : (count m <= length m)%nat. Proof. induction m as [|b m IH]; [cbn; lia|rewrite count_cons; cbn [length]; destruct b; lia]. Qed.
Lemma popcount_fuel_0 n : popcount_fuel n 0 = O. Proof. induction n as [|n IH]; [reflexivity|]. cbn [popcount_fuel]. change (Z.odd 0) with false. change (0 / 2) with 0. rewrite IH. reflexivity. Qed.
Lemma popcount_fuel_bfm n : forall m, (length m <= n)%nat -> popcount_fuel n (bits_from_mask m) = count m.
Proof.
  induction n as [|n IH]; intros [|b m] H; cbn [length] in H; try lia; try reflexivity.
  { cbn [bits_from_mask]. apply popcount_fuel_0. }
  cbn [popcount_fuel bits_from_mask]. rewrite count_cons.
  assert (E1 : Z.odd ((if b then 1 else 0) + 2 * bits_from_mask m) = b) by (rewrite Z.odd_add, Z.odd_mul; destruct b; reflexivity).
  assert (E2 : ((if b then 1 else 0) + 2 * bits_from_mask m) / 2 = bits_from_mask m) by (symmetry; apply (Z.div_unique _ 2 _ (if b then 1 else 0)); destruct b; lia).
  rewrite E1, E2, IH by lia. reflexivity.
Qed.
Lemma popcount_bfm m : (length m <= 64)%nat -> popcount (bits_from_mask m) = count m. Proof. apply popcount_fuel_bfm. Qed.
(** bytes *)
Lemma bytes_tl b bs : bytes_ok (b :: bs) -> 0 <= b < 256 /\ bytes_ok bs. Proof. intros H. split; [apply H; left; reflexivity|intros x Hx; apply H; right; exact Hx]. Qed.
Lemma bytes_nth bs k : bytes_ok bs -> 0 <= nth k bs 0 < 256.
Proof. intros H. destruct (nth_in_or_default k bs 0) as [Hin|E]; [apply H, Hin|rewrite E; lia]. Qed.
Lemma from_bytes_nonneg bs : bytes_ok bs -> 0 <= from_bytes bs.
Proof. induction bs as [|b bs IH]; cbn [from_bytes]; intros H; [lia|]. destruct (bytes_tl _ _ H) as [H1 H2]. specialize (IH H2). lia. Qed.
Lemma byte_high b k : 0 <= b < 256 -> 8 <= k -> Z.testbit b k = false.
Proof. intros Hb Hk. destruct (Z.eq_dec b 0) as [->|Hn]; [apply Z.testbit_0_l|]. apply Z.bits_above_log2; [lia|]. assert (Z.log2 b < 8) by (apply Z.log2_lt_pow2; [lia|change (2 ^ 8) with 256; lia]). lia. Qed.
Lemma from_bytes_testbit bs : bytes_ok bs -> forall i, Z.testbit (from_bytes bs) (Z.of_nat i) = bit_at bs i.
Proof.
  induction bs as [|b bs IH]; intros H i; cbn [from_bytes].
  { unfold bit_at. rewrite Z.testbit_0_l. destruct (i / 8)%nat; cbn [nth]; rewrite Z.testbit_0_l; reflexivity. }
  destruct (bytes_tl _ _ H) as [H1 H2]. specialize (IH H2). unfold bit_at.
  destruct (le_lt_dec 8 i) as [Hi|Hi].
  - assert (Ei : i = (i - 8 + 1 * 8)%nat) by lia. rewrite Ei at 2 3. rewrite Nat.div_add, Nat.mod_add by lia. rewrite Nat.add_1_r. cbn [nth].
    fold (bit_at bs (i - 8)). rewrite <- IH. assert (Ez : Z.of_nat i = Z.of_nat (i - 8) + 8) by lia. rewrite Ez, <- Z.div_pow2_bits by lia. change (2 ^ 8) with 256.
    f_equal. symmetry. apply (Z.div_unique _ 256 _ b); lia.
  - rewrite Nat.div_small, Nat.mod_small by lia. cbn [nth]. rewrite <- (Z.mod_pow2_bits_low _ 8) by lia. change (2 ^ 8) with 256. f_equal. symmetry. apply (Z.mod_unique _ 256 (from_bytes bs)); lia.
Qed.
Lemma bit_at_firstn bs n i : (i < 8 * n)%nat -> bit_at (firstn n bs) i = bit_at bs i.
Proof.
  intros H. unfold bit_at. f_equal. assert (i / 8 < n)%nat by (apply Nat.div_lt_upper_bound; lia). clear H. revert bs n H0. generalize (i / 8)%nat. intros k. induction k as [|k IH]; intros [|b bs] [|n] H; cbn; try lia; try reflexivity. apply IH. lia.
Qed.
Lemma bit_at_beyond bs i : (8 * length bs <= i)%nat -> bit_at bs i = false.
Proof. intros H. unfold bit_at. rewrite nth_overflow, Z.testbit_0_l; [reflexivity|]. apply Nat.div_le_lower_bound; lia. Qed.
Lemma bytes_firstn n bs : bytes_ok bs -> bytes_ok (firstn n bs).
Proof. intros H b Hb. apply H. rewrite <- (firstn_skipn n bs). apply in_or_app. left. exact Hb. Qed.
Lemma mask_of_length n bits : length (mask_of n bits) = n. Proof. unfold mask_of. rewrite map_length, seq_length. reflexivity. Qed.
Lemma nth_mask_of n bits i : nth i (mask_of n bits) false = (i <? n)%nat && bit_at bits i.
Proof.
  unfold mask_of. destruct (Nat.ltb_spec i n) as [H|H]; cbn [andb].
  - rewrite (nth_indep _ false (bit_at bits 0)) by (rewrite map_length, seq_length; exact H). rewrite map_nth, seq_nth by exact H. reflexivity.
  - apply nth_overflow. rewrite map_length, seq_length. exact H.
Qed.
Lemma copy_mask_bits_ok n bits : bytes_ok bits -> (n < 8 \/ n = 8 * (n / 8))%nat -> copy_mask_bits n bits = bits_from_mask (mask_of n bits).
Proof.
  intros H Hn. apply bfm_unique.
  { unfold copy_mask_bits. pose proof (from_bytes_nonneg _ (bytes_firstn (num_bytes n) _ H)) as H0. destruct (n <? 8)%nat; [|exact H0]. apply Z.land_nonneg. left; exact H0. }
  intros i. rewrite nth_mask_of. unfold copy_mask_bits. pose proof (from_bytes_testbit _ (bytes_firstn (num_bytes n) _ H) i) as E.
  destruct (Nat.ltb_spec n 8) as [H8|H8].
  - rewrite Z.land_spec, E, Z.shiftl_1_l, Z.sub_1_r, <- Z.ones_equiv.
    replace (Z.testbit _ (Z.of_nat i)) with (i <? n)%nat.
    2:{ destruct (Nat.ltb_spec i n); symmetry; [apply Z.ones_spec_low; lia|apply Z.ones_spec_high; lia]. }
    rewrite andb_comm. destruct (Nat.ltb_spec i n) as [Hi|Hi]; [|reflexivity]. cbn [andb]. apply bit_at_firstn.
    unfold num_bytes. assert (1 <= (n + 7) / 8)%nat by (apply Nat.div_le_lower_bound; lia). lia.
  - rewrite E. assert (En : n = (8 * (n / 8))%nat) by lia. assert (Eb : num_bytes n = (n / 8)%nat).
    { unfold num_bytes. rewrite En at 1. rewrite (Nat.mul_comm 8), Nat.add_comm, Nat.div_add by lia. reflexivity. }
    destruct (Nat.ltb_spec i n) as [Hi|Hi]; cbn [andb].
    + apply bit_at_firstn. lia.
    + apply bit_at_beyond. rewrite firstn_length. lia.
Qed.
(** LoadMaskBits *)
Lemma land_pow2_eqb v k : 0 <= k -> negb (Z.land v (Z.shiftl 1 k) =? 0) = Z.testbit v k.
Proof.
  intros Hk. rewrite Z.shiftl_1_l. destruct (Z.testbit v k) eqn:E.
  - apply negb_true_iff, Z.eqb_neq. intros C. assert (Z.testbit (Z.land v (2 ^ k)) k = false) as C2 by (rewrite C; apply Z.testbit_0_l). rewrite Z.land_spec, E, Z.pow2_bits_true in C2 by lia. discriminate.
  - apply negb_false_iff, Z.eqb_eq. apply Z.bits_inj'. intros j Hj. rewrite Z.land_spec, Z.testbit_0_l. destruct (Z.eq_dec j k) as [->|Hn]; [rewrite E; reflexivity|rewrite Z.pow2_bits_false by lia; apply andb_false_r].
Qed.
Lemma test_bit_ok v k : 0 <= k -> test_bit v (Z.shiftl 1 k) = Z.testbit v k.
Proof.
  intros Hk. rewrite <- (land_pow2_eqb v k Hk). unfold test_bit. destruct (Z.testbit v k) eqn:E.
  - pose proof (land_pow2_eqb v k Hk) as H. rewrite H, E. apply Z.eqb_eq. rewrite Z.shiftl_1_l. apply Z.bits_inj'. intros j Hj. rewrite Z.land_spec. destruct (Z.eq_dec j k) as [->|Hn]; [rewrite E; reflexivity|rewrite Z.pow2_bits_false by lia; apply andb_false_r].
  - pose proof (land_pow2_eqb v k Hk) as H. rewrite H, E. rewrite E in H. apply negb_false_iff, Z.eqb_eq in H. rewrite H. apply Z.eqb_neq. rewrite Z.shiftl_1_l. pose proof (Z.pow_pos_nonneg 2 k). lia.
Qed.
Lemma emu_load_ok n bits : emu_load_mask_bits n bits = mask_of n bits.
Proof. unfold emu_load_mask_bits, mask_of. apply map_ext. intros i. apply land_pow2_eqb. lia. Qed.
Lemma testbit_wrap8 x k : 0 <= k < 8 -> Z.testbit (wrap 8 x) k = Z.testbit x k. Proof. intros H. unfold wrap. apply Z.mod_pow2_bits_low. lia. Qed.
Lemma x86_load_ok sz n bits : bytes_ok bits -> (n < 8 \/ n = 8 * (n / 8))%nat -> x86_load_mask_bits sz n bits = mask_of n bits.
Proof.
  intros H Hn. unfold x86_load_mask_bits. rewrite copy_mask_bits_ok by assumption.
  assert (E : forall i, (i < n)%nat -> Z.testbit (bits_from_mask (mask_of n bits)) (Z.of_nat i) = bit_at bits i).
  { intros i Hi. rewrite bfm_testbit, nth_mask_of. destruct (Nat.ltb_spec i n); [reflexivity|lia]. }
  destruct (sz =? 1)%nat; unfold mask_of at 2; apply map_ext_in; intros i Hi; apply in_seq in Hi; rewrite test_bit_ok by lia.
  - pose proof (Nat.mod_upper_bound i 8). pose proof (Nat.div_mod i 8). rewrite testbit_wrap8, Z.shiftr_spec by lia. rewrite <- E by lia. f_equal. lia.
  - apply E. lia.
Qed.
(** StoreMaskBits *)
Lemma set_nth_length {A} k (x : A) l : length (set_nth k x l) = length l. Proof. revert k; induction l as [|y l IH]; intros [|k]; cbn; auto. Qed.
Lemma nth_set_nth {A} k (x d : A) : forall l j, (k < length l)%nat -> nth j (set_nth k x l) d = if (j =? k)%nat then x else nth j l d.
Proof. induction k as [|k IH]; intros [|y l] [|j] H; cbn in *; try lia; try reflexivity. rewrite IH by lia. reflexivity. Qed.
Lemma emu_store_loop_ok m : forall i bits, (i + length m <= 8 * length bits)%nat -> bytes_ok bits ->
  length (emu_store_loop i m bits) = length bits /\ bytes_ok (emu_store_loop i m bits) /\
  forall j, bit_at (emu_store_loop i m bits) j = bit_at bits j || ((i <=? j)%nat && nth (j - i) m false).
Proof.
  induction m as [|b m IH]; intros i bits Hl Hb; cbn [emu_store_loop].
  { split; [reflexivity|]. split; [exact Hb|]. intros j. destruct (j - i)%nat; cbn [nth]; rewrite andb_false_r, orb_false_r; reflexivity. }
  cbn [length] in Hl. pose proof (Nat.mod_upper_bound i 8) as Hm. pose proof (Nat.div_mod i 8) as Hd.
  assert (Hk : (i / 8 < length bits)%nat) by (apply Nat.div_lt_upper_bound; lia).
  set (bits' := if b then _ else _).
  assert (P : length bits' = length bits /\ bytes_ok bits' /\ forall j, bit_at bits' j = bit_at bits j || ((j =? i)%nat && b)).
  { unfold bits'. destruct b. 2:{ split; [reflexivity|]. split; [exact Hb|]. intros j. rewrite andb_false_r, orb_false_r. reflexivity. }
    split; [apply set_nth_length|]. split.
    - intros x Hx. apply (In_nth _ _ 0) in Hx. destruct Hx as (j & Hj & <-). rewrite set_nth_length in Hj. rewrite nth_set_nth by exact Hk. destruct (j =? i / 8)%nat; [|apply bytes_nth, Hb].
      unfold wrap. change (2 ^ 8) with 256. apply Z.mod_pos_bound. lia.
    - intros j. unfold bit_at at 1. rewrite nth_set_nth by exact Hk. pose proof (Nat.mod_upper_bound j 8) as Hm'. pose proof (Nat.div_mod j 8) as Hd'.
      destruct (Nat.eqb_spec (j / 8) (i / 8)) as [E|E].
      + rewrite testbit_wrap8, Z.lor_spec by lia. unfold bit_at. rewrite E. f_equal. rewrite Z.shiftl_1_l, Z.pow2_bits_eqb by lia. rewrite andb_true_r.
        destruct (Nat.eqb_spec j i), (Z.eqb_spec (Z.of_nat (i mod 8)) (Z.of_nat (j mod 8))); try reflexivity; subst; try lia.
      + fold (bit_at bits j). destruct (Nat.eqb_spec j i); [subst; lia|]. rewrite orb_false_r. reflexivity. }
  destruct P as (P1 & P2 & P3). destruct (IH (S i) bits' ltac:(lia) P2) as (Q1 & Q2 & Q3). split; [lia|]. split; [exact Q2|]. intros j. rewrite Q3, P3, <- orb_assoc. f_equal.
  destruct (Nat.eqb_spec j i) as [->|E].
  - rewrite Nat.leb_refl, Nat.sub_diag. cbn [nth]. destruct (Nat.leb_spec (S i) i); [lia|]. cbn [andb orb]. destruct b; reflexivity.
  - cbn [andb orb]. destruct (Nat.leb_spec (S i) j), (Nat.leb_spec i j); try lia; try reflexivity. cbn [andb]. replace (j - i)%nat with (S (j - S i)) by lia. reflexivity.
Qed.
Lemma emu_store_ok m : (1 <= length m <= 16)%nat -> stored_bits m (emu_store_mask_bits m).
Proof.
  intros H. unfold emu_store_mask_bits. set (z := if (8 <? length m)%nat then [0; 0] else [0]).
  assert (Hz : length z = num_bytes (length m) /\ bytes_ok z /\ forall i, bit_at z i = false).
  { unfold z, num_bytes. destruct (Nat.ltb_spec 8 (length m)) as [H8|H8]; (split; [|split]).
    - cbn [length]. apply (Nat.div_unique _ 8 2 (length m + 7 - 16)); lia.
    - intros b [<-|[<-|[]]]; lia.
    - intros i. unfold bit_at. destruct (i / 8)%nat as [|[|[|]]]; apply Z.testbit_0_l.
    - cbn [length]. apply (Nat.div_unique _ 8 1 (length m + 7 - 8)); lia.
    - intros b [<-|[]]; lia.
    - intros i. unfold bit_at. destruct (i / 8)%nat as [|[|]]; apply Z.testbit_0_l. }
  destruct Hz as (Z1 & Z2 & Z3). destruct (emu_store_loop_ok m 0 z) as (A & B & C).
  { rewrite Z1. unfold num_bytes. pose proof (Nat.div_mod (length m + 7) 8). pose proof (Nat.mod_upper_bound (length m + 7) 8). lia. } { exact Z2. }
  split; [rewrite A; exact Z1|]. split; [exact B|]. intros i. rewrite C, Z3, Nat.sub_0_r. reflexivity.
Qed.
Lemma x86_store_ok m : stored_bits m (x86_store_mask_bits m).
Proof.
  unfold x86_store_mask_bits. set (k := num_bytes (length m)). split; [rewrite map_length, seq_length; reflexivity|]. split.
  - intros b Hb. apply in_map_iff in Hb. destruct Hb as (x & <- & _). unfold wrap. change (2 ^ 8) with 256. apply Z.mod_pos_bound. lia.
  - intros i. pose proof (Nat.mod_upper_bound i 8) as Hm. pose proof (Nat.div_mod i 8) as Hd. destruct (le_lt_dec k (i / 8)) as [Hk|Hk].
    + rewrite bit_at_beyond by (rewrite map_length, seq_length; lia). symmetry. apply nth_overflow.
      assert (length m <= 8 * k)%nat by (unfold k, num_bytes; pose proof (Nat.div_mod (length m + 7) 8); pose proof (Nat.mod_upper_bound (length m + 7) 8); lia). lia.
    + unfold bit_at. erewrite (nth_indep _ 0) by (rewrite map_length, seq_length; exact Hk). rewrite (map_nth (fun k0 => wrap 8 (Z.shiftr (bits_from_mask m) (8 * Z.of_nat k0))) (seq 0 k) O), seq_nth by exact Hk.
      rewrite testbit_wrap8, Z.shiftr_spec by lia. rewrite <- bfm_testbit. f_equal. lia.
Qed.
Lemma load_store m out n : length m = n -> stored_bits m out -> mask_of n out = m.
Proof. intros <- (_ & _ & H). apply nth_ext with (d := false) (d' := false); [apply mask_of_length|]. intros i Hi. rewrite mask_of_length in Hi. rewrite nth_mask_of, H. destruct (Nat.ltb_spec i (length m)); [reflexivity|lia]. Qed.
(** the bytes *)
Lemma byte_of_bits m b : 0 <= b < 256 -> (length m <= 8)%nat -> (forall i, (i < 8)%nat -> Z.testbit b (Z.of_nat i) = nth i m false) -> b = bits_from_mask m.
Proof.
  intros Hb Hm H. apply bfm_unique; [lia|]. intros i. destruct (le_lt_dec 8 i) as [H8|H8]; [|apply H, H8].
  rewrite nth_overflow by lia. apply byte_high; lia.
Qed.
Lemma bits_byte m out k : bytes_ok out -> (forall i, bit_at out i = nth i m false) -> nth k out 0 = bits_from_mask (firstn 8 (skipn (8 * k) m)).
Proof.
  intros Hb H. apply byte_of_bits; [apply bytes_nth, Hb|rewrite firstn_length; lia|]. intros i Hi. specialize (H (i + k * 8)%nat). unfold bit_at in H. rewrite Nat.div_add, Nat.mod_add, Nat.div_small, Nat.mod_small in H by lia. cbn [Nat.add] in H. rewrite H.
  rewrite <- (firstn_skipn (8 * k) m) at 1. destruct (le_lt_dec (length m) (8 * k)) as [Hl|Hl].
  - rewrite skipn_all2 by exact Hl. rewrite app_nil_r, firstn_all2 by exact Hl. rewrite !nth_overflow; [reflexivity| |]; cbn; lia.
  - rewrite app_nth2; rewrite firstn_length, Nat.min_l by lia; [|lia]. replace (i + k * 8 - 8 * k)%nat with i by lia. generalize (skipn (8 * k) m). intros l. clear -Hi. revert i l Hi. generalize 8%nat. intros n. induction n as [|n IH]; intros [|i] [|x l] Hi; cbn; try lia; try reflexivity. apply IH. lia.
Qed.
(** CountTrue, AllTrue, AllFalse, Find*True *)
Lemma emu_count_true_ok m : emu_count_true m = count m.
Proof. unfold emu_count_true. assert (H : forall c, fold_left (fun (c : nat) (b : bool) => if b then S c else c) m c = (c + count m)%nat). { induction m as [|b m IH]; intros c; cbn [fold_left]; [cbn; lia|]. rewrite IH, count_cons. destruct b; lia. } apply H. Qed.
Lemma x86_count_true_ok m : (length m <= 64)%nat -> x86_count_true m = count m. Proof. apply popcount_bfm. Qed.
Lemma emu_all_false_ok m : emu_all_false m = true <-> all_false m.
Proof.
  unfold emu_all_false. rewrite negb_true_iff. assert (H : forall a, fold_left orb m a = false <-> a = false /\ all_false m).
  { induction m as [|b m IH]; intros a; cbn [fold_left]. { split; [intros ->; split; [reflexivity|intros i Hi; cbn in Hi; lia]|intros [-> _]; reflexivity]. }
    rewrite IH, orb_false_iff. split.
    - intros [[-> ->] H]. split; [reflexivity|]. intros [|i] Hi; [reflexivity|]. cbn [nth]. apply H. cbn in Hi; lia.
    - intros [-> H]. split; [split; [reflexivity|apply (H O); cbn; lia]|]. intros i Hi. apply (H (S i)). cbn; lia. }
  rewrite H. tauto.
Qed.
Lemma emu_all_true_ok m : emu_all_true m = true <-> all_true m.
Proof.
  unfold emu_all_true. assert (H : forall a, fold_left andb m a = true <-> a = true /\ all_true m).
  { induction m as [|b m IH]; intros a; cbn [fold_left]. { split; [intros ->; split; [reflexivity|intros i Hi; cbn in Hi; lia]|intros [-> _]; reflexivity]. }
    rewrite IH, andb_true_iff. split.
    - intros [[-> ->] H]. split; [reflexivity|]. intros [|i] Hi; [reflexivity|]. cbn [nth]. apply H. cbn in Hi; lia.
    - intros [-> H]. split; [split; [reflexivity|apply (H O); cbn; lia]|]. intros i Hi. apply (H (S i)). cbn; lia. }
  rewrite H. tauto.
Qed.
Lemma x86_all_false_ok m : x86_all_false m = true <-> all_false m.
Proof.
  unfold x86_all_false. rewrite Z.eqb_eq. split.
  - intros H i _. rewrite <- bfm_testbit, H. apply Z.testbit_0_l.
  - intros H. symmetry. apply bfm_unique; [lia|]. intros i. rewrite Z.testbit_0_l. destruct (le_lt_dec (length m) i) as [Hi|Hi]; [rewrite nth_overflow by lia; reflexivity|symmetry; apply H, Hi].
Qed.
Lemma x86_all_true_ok m : x86_all_true m = true <-> all_true m.
Proof.
  unfold x86_all_true. rewrite Z.eqb_eq, Z.shiftl_1_l, Z.sub_1_r, <- Z.ones_equiv. split.
  - intros H i Hi. rewrite <- bfm_testbit, H. apply Z.ones_spec_low. lia.
  - intros H. symmetry. apply bfm_unique; [rewrite Z.ones_equiv; pose proof (Z.pow_pos_nonneg 2 (Z.of_nat (length m))); lia|]. intros i. destruct (le_lt_dec (length m) i) as [Hi|Hi].
    + rewrite nth_overflow by lia. apply Z.ones_spec_high. lia.
    + rewrite (H i Hi). apply Z.ones_spec_low. lia.
Qed.
Lemma emu_first_ok m : found is_first m (emu_find_first_true m).
Proof.
  unfold emu_find_first_true. assert (H : forall k, (exists i, is_first m i /\ emu_find_first_from k m = Z.of_nat (k + i)) \/ (emu_find_first_from k m = -1 /\ all_false m)).
  { induction m as [|b m IH]; intros k; cbn [emu_find_first_from]. { right. split; [reflexivity|]. intros i Hi; cbn in Hi; lia. }
    destruct b. { left. exists O. split; [split; [reflexivity|intros j Hj; lia]|rewrite Nat.add_0_r; reflexivity]. }
    destruct (IH (S k)) as [(i & (Hi & Hj) & E)|[E H]].
    - left. exists (S i). split; [split; [exact Hi|]|rewrite E; f_equal; lia]. intros [|j] H; [reflexivity|]. cbn [nth]. apply Hj. lia.
    - right. split; [exact E|]. intros [|i] Hi; [reflexivity|]. cbn in Hi |- *. apply H. lia. }
  destruct (H O) as [(i & Hi & E)|H']; [left; exists i; split; assumption|right; exact H'].
Qed.
Lemma emu_last_from m k : (k <= length m)%nat -> (exists i, nth i m false = true /\ (i < k)%nat /\ (forall j, (i < j < k)%nat -> nth j m false = false) /\ emu_find_last_from k m = Z.of_nat i) \/
  (emu_find_last_from k m = -1 /\ forall j, (j < k)%nat -> nth j m false = false).
Proof.
  induction k as [|k IH]; intros Hk; cbn [emu_find_last_from]. { right. split; [reflexivity|intros; lia]. }
  destruct (nth k m false) eqn:E. { left. exists k. repeat split; try assumption; try lia. }
  destruct (IH ltac:(lia)) as [(i & A & B & C & D)|[A B]].
  - left. exists i. repeat split; try assumption; try lia. intros j Hj. destruct (Nat.eq_dec j k) as [->|]; [exact E|apply C; lia].
  - right. split; [exact A|]. intros j Hj. destruct (Nat.eq_dec j k) as [->|]; [exact E|apply B; lia].
Qed.
Lemma emu_last_ok m : found is_last m (emu_find_last_true m).
Proof.
  unfold emu_find_last_true. destruct (emu_last_from m (length m) (le_n _)) as [(i & A & B & C & D)|[A B]].
  - left. exists i. split; [split; [exact A|]|exact D]. intros j Hj. destruct (le_lt_dec (length m) j); [apply nth_overflow; lia|apply C; lia].
  - right. split; [exact A|exact B].
Qed.
Lemma bsf_double x : 0 < x -> bsf (2 * x) = 1 + bsf x. Proof. destruct x; cbn; lia. Qed.
Lemma bsf_odd x : 0 <= x -> bsf (1 + 2 * x) = 0. Proof. intros H. destruct x; [reflexivity| |lia]. reflexivity. Qed.
Lemma bsf_first m : 0 < bits_from_mask m -> exists i, is_first m i /\ bsf (bits_from_mask m) = Z.of_nat i.
Proof.
  induction m as [|b m IH]; cbn [bits_from_mask]; intros H; [lia|]. pose proof (bfm_range m) as R. destruct b.
  - exists O. split; [split; [reflexivity|intros; lia]|]. apply bsf_odd. lia.
  - rewrite Z.add_0_l in H |- *. destruct IH as (i & (A & B) & C); [lia|]. exists (S i). split; [split; [exact A|]|rewrite bsf_double by lia; lia]. intros [|j] Hj; [reflexivity|apply B; lia].
Qed.
Lemma bfm_zero m : bits_from_mask m = 0 <-> all_false m. Proof. rewrite <- x86_all_false_ok. unfold x86_all_false. rewrite Z.eqb_eq. tauto. Qed.
Lemma bfm_wrap32 m : (length m <= 32)%nat -> wrap 32 (bits_from_mask m) = bits_from_mask m.
Proof. intros H. apply Z.mod_small. pose proof (bfm_range m). assert (2 ^ Z.of_nat (length m) <= 2 ^ 32) by (apply Z.pow_le_mono_r; lia). lia. Qed.
Lemma x86_first_ok m : (length m <= 32)%nat -> found is_first m (x86_find_first_true m).
Proof.
  intros H. unfold x86_find_first_true. rewrite bfm_wrap32 by exact H. destruct (Z.eqb_spec (bits_from_mask m) 0) as [E|E].
  - right. split; [reflexivity|]. apply bfm_zero, E.
  - left. apply bsf_first. pose proof (bfm_range m). lia.
Qed.
Lemma x86_last_ok m : (length m <= 32)%nat -> found is_last m (x86_find_last_true m).
Proof.
  intros H. unfold x86_find_last_true. rewrite bfm_wrap32 by exact H. destruct (Z.eqb_spec (bits_from_mask m) 0) as [E|E].
  - right. split; [reflexivity|]. apply bfm_zero, E.
  - left. pose proof (bfm_range m) as R. unfold bsr. set (l := Z.log2 (bits_from_mask m)). assert (0 <= l) by apply Z.log2_nonneg. exists (Z.to_nat l). split; [|lia]. split.
    + rewrite <- bfm_testbit, Z2Nat.id by lia. apply Z.bit_log2. lia.
    + intros j Hj. rewrite <- bfm_testbit. apply Z.bits_above_log2; [lia|]. fold l. lia.
Qed.
