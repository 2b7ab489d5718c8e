(** Reverse2/4/8 of bytes, ReverseLaneBytes, ReverseBits. *)
From Coq Require Import ZArith List Bool Lia.
From Verif Require Import Word Float_Spec Ops_Model Shift_Spec Shift_Model Shift_Proofs Shift_Var BitPerm_Model.
Import ListNotations.
Open Scope Z_scope.
Ltac Zify.zify_post_hook ::= idtac.

Lemma F2_length (A B : Type) (R : A -> B -> Prop) a b : Forall2 R a b -> length a = length b.
Proof. induction 1; cbn; congruence. Qed.
(** *** one group after the other *)
Lemma cons_len (A : Type) n (v : list A) : length v = S n -> exists a r, v = a :: r /\ length r = n.
Proof. destruct v as [|a r]; cbn; [lia|]. intros H. exists a, r. split; [reflexivity|lia]. Qed.
Ltac take v H := let a := fresh "a" in let r := fresh "r" in let E := fresh "E" in let H' := fresh "H" in
  destruct (cons_len _ _ v H) as (a & r & E & H'); subst v; clear H; rename r into v; rename H' into H.
Ltac take4 v H := take v H; take v H; take v H; take v H.

Lemma rot_pair w a b : 0 < w -> lane w a -> lane w b ->
  let x := a + 2 ^ w * b in let r := Z.lor (srli (2 * w) w x) (slli (2 * w) (Z.min (2 * w - 1) (2 * w - w)) x) in
  wrap w r = b /\ Z.shiftr r w = a.
Proof.
  intros Hw Ha Hb. cbv zeta. rewrite Z.min_r by lia. replace (2 * w - w) with w by lia. rewrite srli_spec, slli_spec by lia.
  assert (B : forall n, 0 <= n -> Z.testbit (shr_spec w (a + 2 ^ w * b)) n = (n <? w) && Z.testbit b n).
  { intros n Hn. rewrite tb_shr by lia. rewrite tb_pair by (try exact Ha; lia). bcase; try lia; replace (n + w - w) with n by lia; [reflexivity|].
    apply (tb_high w); [exact Hb|lia]. }
  split; apply Z.bits_inj'; intros n Hn.
  - rewrite tb_wrap by lia. rewrite Z.lor_spec, B, tb_shl by lia. bcase; try lia; rewrite ?orb_false_r; try reflexivity; symmetry; (apply (tb_high w); [exact Hb|lia]).
  - rewrite Z.shiftr_spec by lia. rewrite Z.lor_spec, B, tb_shl by lia. rewrite tb_pair by (try exact Ha; lia). bcase; try lia; cbn [orb].
    + f_equal. lia.
    + symmetry. apply (tb_high w); [exact Ha|lia].
Qed.
Lemma rotate_pairs_cons w a b r : 0 < w -> lane w a -> lane w b -> rotate_pairs w (a :: b :: r) = b :: a :: rotate_pairs w r.
Proof.
  intros Hw Ha Hb. pose proof (rot_pair w a b Hw Ha Hb) as R. cbv zeta in R. unfold rotate_pairs, rotate_right.
  destruct (Z.eqb_spec w 0); [lia|]. unfold vor. rewrite !map2_map. cbn [pair_up map split_up flat_map app].
  destruct R as [-> ->]. reflexivity.
Qed.
Lemma rotate_pairs_ok w n v : 0 < w -> length v = (2 * n)%nat -> Forall (lane w) v -> rotate_pairs w v = groups_reversed 2 n v.
Proof.
  intros Hw. revert v. induction n; intros v Hl Hv.
  - destruct v; [|cbn in Hl; lia]. unfold rotate_pairs, rotate_right. destruct (w =? 0); reflexivity.
  - replace (2 * S n)%nat with (S (S (2 * n)))%nat in Hl by lia. take v Hl. take v Hl.
    inversion_clear Hv as [|? ? Ha Hv']. inversion_clear Hv' as [|? ? Hb Hr]. rewrite rotate_pairs_cons by assumption. rewrite IHn by assumption. reflexivity.
Qed.
Lemma swap_pairs_ok n v : length v = (2 * n)%nat -> swap_pairs v = groups_reversed 2 n v.
Proof.
  revert v. induction n; intros v Hl.
  - destruct v; [reflexivity|cbn in Hl; lia].
  - replace (2 * S n)%nat with (S (S (2 * n)))%nat in Hl by lia. take v Hl. take v Hl. cbn [swap_pairs]. rewrite (IHn _ Hl). reflexivity.
Qed.
Lemma lookup_ok k tbl m n v : (forall a0 a1 a2 a3 a4 a5 a6 a7 a8 a9 a10 a11 a12 a13 a14 a15 r,
    tbl_lookup [a0; a1; a2; a3; a4; a5; a6; a7; a8; a9; a10; a11; a12; a13; a14; a15] tbl ++ groups_reversed k (m * n) r =
    groups_reversed k (m + m * n) (a0 :: a1 :: a2 :: a3 :: a4 :: a5 :: a6 :: a7 :: a8 :: a9 :: a10 :: a11 :: a12 :: a13 :: a14 :: a15 :: r)) ->
  length v = (16 + 16 * n)%nat -> lookup_blocks n tbl (skipn 16 v) = groups_reversed k (m * n) (skipn 16 v) ->
  lookup_blocks (S n) tbl v = groups_reversed k (m * S n) v.
Proof.
  intros H Hl IH. change (16 + 16 * n)%nat with (S (S (S (S (S (S (S (S (S (S (S (S (S (S (S (S (16 * n))))))))))))))))) in Hl.
  take4 v Hl. take4 v Hl. take4 v Hl. take4 v Hl. cbn [skipn] in IH. replace (m * S n)%nat with (m + m * n)%nat by lia. rewrite <- H, <- IH. reflexivity.
Qed.
Lemma lookup2 n v : length v = (16 * n)%nat -> lookup_blocks n kRev2 v = groups_reversed 2 (8 * n) v.
Proof. revert v. induction n; intros v Hl; [reflexivity|]. apply lookup_ok; [reflexivity|lia|]. apply IHn. rewrite skipn_length. lia. Qed.
Lemma lookup4 n v : length v = (16 * n)%nat -> lookup_blocks n kRev4 v = groups_reversed 4 (4 * n) v.
Proof. revert v. induction n; intros v Hl; [reflexivity|]. apply lookup_ok; [reflexivity|lia|]. apply IHn. rewrite skipn_length. lia. Qed.
Lemma lookup8 n v : length v = (16 * n)%nat -> lookup_blocks n kRev8 v = groups_reversed 8 (2 * n) v.
Proof. revert v. induction n; intros v Hl; [reflexivity|]. apply lookup_ok; [reflexivity|lia|]. apply IHn. rewrite skipn_length. lia. Qed.

Theorem reverse2_8_ok rot8 n v : length v = (16 * n)%nat -> Forall (lane 8) v -> reverse2_8 rot8 n v = groups_reversed 2 (8 * n) v.
Proof. intros Hl Hv. unfold reverse2_8. destruct rot8; [apply rotate_pairs_ok; [lia|lia|exact Hv]|now apply lookup2]. Qed.
Theorem reverse2_16_ok rot16 n v : length v = (2 * n)%nat -> Forall (lane 16) v -> reverse2_16 rot16 v = groups_reversed 2 n v.
Proof. intros Hl Hv. unfold reverse2_16. destruct rot16; [apply rotate_pairs_ok; [lia|lia|exact Hv]|now apply swap_pairs_ok]. Qed.
Lemma pair_lane w a b : 0 < w -> lane w a -> lane w b -> lane (2 * w) (a + 2 ^ w * b) /\ wrap w (a + 2 ^ w * b) = a /\ Z.shiftr (a + 2 ^ w * b) w = b.
Proof.
  intros Hw Ha Hb. unfold lane in *. unfold wrap. rewrite Z.shiftr_div_pow2 by lia. assert (E : 2 ^ (2 * w) = 2 ^ w * 2 ^ w) by (rewrite <- Z.pow_add_r by lia; f_equal; lia).
  rewrite E. assert (P : 0 < 2 ^ w) by (apply Z.pow_pos_nonneg; lia). set (p := 2 ^ w) in *. clearbody p.
  split; [nia|]. split; [symmetry; apply Z.mod_unique with b; lia|symmetry; apply Z.div_unique with a; lia].
Qed.
(** groups of 4: neighbours, then neighbouring pairs *)
Lemma rev4_step w n v : 0 < w -> length v = (4 * n)%nat -> Forall (lane w) v ->
  split_up w (swap_pairs (pair_up w (groups_reversed 2 (2 * n) v))) = groups_reversed 4 n v.
Proof.
  intros Hw. revert v. induction n; intros v Hl Hv; [reflexivity|].
  replace (4 * S n)%nat with (S (S (S (S (4 * n)))))%nat in Hl by lia. replace (2 * S n)%nat with (S (S (2 * n)))%nat by lia. take4 v Hl.
  inversion_clear Hv as [|? ? H1 Hv']. inversion_clear Hv' as [|? ? H2 Hv]. inversion_clear Hv as [|? ? H3 Hv']. inversion_clear Hv' as [|? ? H4 Hv].
  specialize (IHn v Hl Hv). destruct (pair_lane w a2 a1 Hw H4 H3) as (_ & E1 & E2). destruct (pair_lane w a0 a Hw H2 H1) as (_ & E3 & E4).
  cbn [groups_reversed firstn skipn rev app pair_up swap_pairs split_up flat_map]. unfold split_up in IHn. rewrite IHn, E1, E2, E3, E4. reflexivity.
Qed.
Lemma groups_reversed_forall (P : Z -> Prop) k n v : Forall P v -> Forall P (groups_reversed k n v).
Proof.
  revert v. induction n; intros v Hv; cbn [groups_reversed]; [constructor|]. rewrite <- (firstn_skipn k v) in Hv. apply Forall_app in Hv as [H1 H2].
  apply Forall_app. split; [now apply Forall_rev|now apply IHn].
Qed.
Lemma groups_reversed_length k n v : length v = (k * n)%nat -> length (groups_reversed k n v) = (k * n)%nat.
Proof.
  revert v. induction n; intros v Hl; cbn [groups_reversed]; [cbn; lia|]. rewrite app_length, rev_length, firstn_length, IHn by (rewrite skipn_length; lia). lia.
Qed.
Lemma pair_up_lanes w n v : 0 < w -> length v = (2 * n)%nat -> Forall (lane w) v -> length (pair_up w v) = n /\ Forall (lane (2 * w)) (pair_up w v).
Proof.
  intros Hw. revert v. induction n; intros v Hl Hv.
  - destruct v; [|cbn in Hl; lia]. split; [reflexivity|constructor].
  - replace (2 * S n)%nat with (S (S (2 * n)))%nat in Hl by lia. take v Hl. take v Hl.
    inversion_clear Hv as [|? ? Ha Hv']. inversion_clear Hv' as [|? ? Hb Hr]. destruct (IHn _ Hl Hr) as [I1 I2].
    cbn [pair_up length]. split; [now rewrite I1|]. constructor; [|exact I2]. now apply pair_lane.
Qed.
Lemma reverse2_16_swap rot16 n v : length v = (2 * n)%nat -> Forall (lane 16) v -> reverse2_16 rot16 v = swap_pairs v.
Proof. intros Hl Hv. rewrite (reverse2_16_ok rot16 n) by assumption. symmetry. now apply swap_pairs_ok. Qed.
Theorem reverse4_8_ok prefer rot8 rot16 n v : length v = (16 * n)%nat -> Forall (lane 8) v -> reverse4_8 prefer rot8 rot16 n v = groups_reversed 4 (4 * n) v.
Proof.
  intros Hl Hv. unfold reverse4_8. destruct prefer; [|now apply lookup4]. rewrite reverse2_8_ok by assumption.
  destruct (pair_up_lanes 8 (8 * n) (groups_reversed 2 (8 * n) v) ltac:(lia)) as [L1 L2].
  - rewrite groups_reversed_length; lia.
  - now apply groups_reversed_forall.
  - rewrite (reverse2_16_swap rot16 (4 * n)) by (assumption || lia). replace (8 * n)%nat with (2 * (4 * n))%nat by lia. apply rev4_step; [lia|lia|exact Hv].
Qed.
Lemma rev8_step n v : length v = (8 * n)%nat -> Forall (lane 8) v ->
  split_up 8 (split_up 16 (swap_pairs (pair_up 16 (pair_up 8 (groups_reversed 4 (2 * n) v))))) = groups_reversed 8 n v.
Proof.
  revert v. induction n; intros v Hl Hv; [reflexivity|].
  replace (8 * S n)%nat with (S (S (S (S (S (S (S (S (8 * n)))))))))%nat in Hl by lia. replace (2 * S n)%nat with (S (S (2 * n)))%nat by lia. take4 v Hl. take4 v Hl.
  do 8 (let H := fresh "L" in let H' := fresh "R" in inversion Hv as [|? ? H H']; subst; clear Hv; rename H' into Hv).
  specialize (IHn v Hl Hv). cbn [groups_reversed firstn skipn rev app pair_up swap_pairs split_up flat_map]. unfold split_up in IHn.
  destruct (pair_lane 8 a2 a1 ltac:(lia)) as (P1 & Q1 & Q2); [assumption..|]. destruct (pair_lane 8 a0 a ltac:(lia)) as (P2 & Q3 & Q4); [assumption..|].
  destruct (pair_lane 8 a6 a5 ltac:(lia)) as (P3 & Q5 & Q6); [assumption..|]. destruct (pair_lane 8 a4 a3 ltac:(lia)) as (P4 & Q7 & Q8); [assumption..|].
  change (2 * 8) with 16 in *.
  destruct (pair_lane 16 _ _ ltac:(lia) P1 P2) as (_ & Q9 & Q10). destruct (pair_lane 16 _ _ ltac:(lia) P3 P4) as (_ & Q11 & Q12).
  rewrite Q9, Q10, Q11, Q12, Q1, Q2, Q3, Q4, Q5, Q6, Q7, Q8, IHn. reflexivity.
Qed.
Theorem reverse8_8_ok prefer rot8 rot16 n v : length v = (16 * n)%nat -> Forall (lane 8) v -> reverse8_8 prefer rot8 rot16 n v = groups_reversed 8 (2 * n) v.
Proof.
  intros Hl Hv. unfold reverse8_8. destruct prefer; [|now apply lookup8]. rewrite reverse4_8_ok by assumption.
  replace (4 * n)%nat with (2 * (2 * n))%nat by lia. apply rev8_step; [lia|exact Hv].
Qed.

(** *** ReverseLaneBytes *)
Lemma le_bytes_length n x : length (le_bytes n x) = n. Proof. unfold le_bytes. now rewrite map_length, seq_length. Qed.
Lemma le_bytes_nth n x j : (j < n)%nat -> nth j (le_bytes n x) 0 = byte_at x (Z.of_nat j).
Proof.
  intros H. unfold le_bytes. rewrite (nth_indep _ 0 (wrap 8 (Z.shiftr x (8 * Z.of_nat 0)))) by (rewrite map_length, seq_length; lia).
  rewrite (map_nth (fun j => wrap 8 (Z.shiftr x (8 * Z.of_nat j)))). rewrite seq_nth by lia. unfold byte_at, wrap. now rewrite Z.shiftr_div_pow2 by lia.
Qed.
Lemma le_bytes_lanes n x : Forall (lane 8) (le_bytes n x).
Proof. unfold le_bytes. apply Forall_map, Forall_forall. intros j _. unfold lane, wrap. apply Z.mod_pos_bound. lia. Qed.
Lemma of_bytes_lane l : Forall (lane 8) l -> lane (8 * Z.of_nat (length l)) (of_bytes l).
Proof.
  induction 1 as [|b l Hb Hl IH]; cbn [of_bytes length]; [unfold lane; cbn; lia|].
  unfold lane in *. replace (8 * Z.of_nat (S (length l))) with (8 + 8 * Z.of_nat (length l)) by lia. rewrite Z.pow_add_r by lia. change (2 ^ 8) with 256 in *. lia.
Qed.
Lemma of_bytes_at l j : Forall (lane 8) l -> (j < length l)%nat -> byte_at (of_bytes l) (Z.of_nat j) = nth j l 0.
Proof.
  intros Hl. revert j. induction Hl as [|b l Hb Hl IH]; intros j Hj; [cbn in Hj; lia|]. cbn [of_bytes nth]. unfold byte_at, lane in *. change (2 ^ 8) with 256 in *.
  destruct j.
  - cbn [Z.of_nat]. rewrite Z.mul_0_r, Z.pow_0_r, Z.div_1_r. symmetry. apply Z.mod_unique with (of_bytes l); lia.
  - replace (8 * Z.of_nat (S j)) with (8 + 8 * Z.of_nat j) by lia. rewrite Z.pow_add_r by lia. change (2 ^ 8) with 256.
    rewrite <- Z.div_div by (try apply Z.pow_pos_nonneg; lia). replace ((b + 256 * of_bytes l) / 256) with (of_bytes l); [apply IH; cbn in Hj; lia|].
    apply Z.div_unique with b; lia.
Qed.
Lemma tb_byte x i : 0 <= i -> Z.testbit x i = Z.testbit (byte_at x (i / 8)) (i mod 8).
Proof.
  intros H. unfold byte_at. change 256 with (2 ^ 8). pose proof (Z.mod_pos_bound i 8 ltac:(lia)). assert (0 <= i / 8) by (apply Z.div_pos; lia).
  rewrite Z.mod_pow2_bits_low by lia. rewrite Z.div_pow2_bits by lia. f_equal. pose proof (Z.div_mod i 8). lia.
Qed.
Lemma groups_concat (f : Z -> list Z) k v : (forall x, length (f x) = k) -> groups k (length v) (concat (map f v)) = map f v.
Proof.
  intros Hf. induction v as [|x v IH]; [reflexivity|]. cbn [map concat length groups]. rewrite firstn_app, skipn_app, Hf, Nat.sub_diag.
  rewrite firstn_all2, skipn_all2 by (rewrite Hf; lia). cbn [firstn skipn app]. rewrite app_nil_r, IH. reflexivity.
Qed.
Lemma groups_reversed_concat (f : Z -> list Z) k v : (forall x, length (f x) = k) -> groups_reversed k (length v) (concat (map f v)) = concat (map (fun x => rev (f x)) v).
Proof.
  intros Hf. induction v as [|x v IH]; [reflexivity|]. cbn [map concat length groups_reversed]. rewrite firstn_app, skipn_app, Hf, Nat.sub_diag.
  rewrite firstn_all2, skipn_all2 by (rewrite Hf; lia). cbn [firstn skipn app]. rewrite app_nil_r, IH. reflexivity.
Qed.
Lemma concat_bytes n v : length (concat (map (le_bytes n) v)) = (n * length v)%nat /\ Forall (lane 8) (concat (map (le_bytes n) v)).
Proof.
  induction v as [|x v [I1 I2]]; cbn [map concat]; [split; [cbn; lia|constructor]|]. rewrite app_length, le_bytes_length, I1. cbn [length]. split; [lia|].
  apply Forall_app. split; [apply le_bytes_lanes|exact I2].
Qed.
Definition rev8_op (bytes : nat) (rev8 : list Z -> list Z) (lanes : nat) : Prop :=
  forall u, length u = (bytes * lanes)%nat -> Forall (lane 8) u -> rev8 u = groups_reversed bytes lanes u.
Lemma reverse_lane_bytes_map bytes rev8 v : rev8_op bytes rev8 (length v) ->
  reverse_lane_bytes bytes (length v) rev8 v = map (fun x => of_bytes (rev (le_bytes bytes x))) v.
Proof.
  intros H. unfold reverse_lane_bytes. destruct (concat_bytes bytes v) as [L1 L2]. rewrite H by assumption.
  rewrite groups_reversed_concat by (apply le_bytes_length). rewrite groups_concat by (intros; now rewrite rev_length, le_bytes_length). now rewrite map_map.
Qed.
Lemma rev_bytes_ok n x : bytes_reversed (Z.of_nat n) x (of_bytes (rev (le_bytes n x))).
Proof.
  assert (L : Forall (lane 8) (rev (le_bytes n x))) by (apply Forall_rev, le_bytes_lanes).
  split.
  - pose proof (of_bytes_lane _ L) as B. now rewrite rev_length, le_bytes_length in B.
  - intros j Hj. replace j with (Z.of_nat (Z.to_nat j)) by lia. rewrite of_bytes_at by (try exact L; rewrite rev_length, le_bytes_length; lia).
    rewrite rev_nth by (rewrite le_bytes_length; lia). rewrite le_bytes_length, le_bytes_nth by lia. f_equal. lia.
Qed.
Theorem reverse_lane_bytes_ok bytes rev8 v : rev8_op bytes rev8 (length v) ->
  Forall2 (bytes_reversed (Z.of_nat bytes)) v (reverse_lane_bytes bytes (length v) rev8 v).
Proof. intros H. rewrite reverse_lane_bytes_map by exact H. apply Forall2_map_r, Forall_forall. intros x _. apply rev_bytes_ok. Qed.

(** *** ReverseBits *)
Definition rev_step1 (k m x : Z) : Z := Z.lor (Z.land (shr_spec k x) m) (Z.land (shl_spec 8 k x) (255 - m)).
Lemma rev_step_ok w16 k m v : 0 <= k < 8 -> Z.land (Z.shiftr 0xFF k) m = m -> Z.land (Z.land (Z.shiftl 0xFF k) 0xFF) (255 - m) = 255 - m ->
  (w16 = true -> Nat.Even (length v)) -> byte8 v -> rev_step w16 k m v = map (rev_step1 k m) v.
Proof.
  intros Hk M1 M2 He Hv. unfold rev_step. destruct w16.
  - specialize (He eq_refl).
    rewrite (to8_map_pair (srli 16 k) (fun x => Z.land (shr_spec k x) m) m v He Hv).
    + rewrite (to8_map_pair (slli 16 k) (fun x => Z.land (shl_spec 8 k x) (255 - m)) (255 - m) v He Hv).
      * unfold vor. rewrite map2_map. reflexivity.
      * intros lo hi Hlo Hhi. destruct (left_pair k lo hi Hk Hlo Hhi) as [A B]. rewrite <- A, <- B. rewrite <- M2 at 1 3. rewrite !Z.land_assoc. split; reflexivity.
    + intros lo hi Hlo Hhi. destruct (right_pair k lo hi Hk Hlo Hhi) as [A B]. rewrite <- A, <- B. rewrite <- M1 at 1 3. rewrite !Z.land_assoc. split; reflexivity.
  - unfold vor, vand1. rewrite !map_map, map2_map. apply map_ext. intros x. rewrite slli_spec, srli_spec by lia. reflexivity.
Qed.
Lemma rev_step1_lane k m x : 0 <= k < 8 -> 0 <= m < 256 -> lane 8 x -> lane 8 (rev_step1 k m x).
Proof.
  intros Hk Hm Hx. assert (Hs : forall n, 8 <= n -> Z.testbit (rev_step1 k m x) n = false).
  { intros n Hn. unfold rev_step1. rewrite Z.lor_spec, !Z.land_spec. rewrite (tb_high 8 m) by lia. rewrite (tb_high 8 (255 - m)) by lia. now rewrite !andb_false_r. }
  assert (E : rev_step1 k m x = wrap 8 (rev_step1 k m x)).
  { apply Z.bits_inj'. intros n Hn. rewrite tb_wrap by lia. bcase; [reflexivity|apply Hs; lia]. }
  rewrite E. unfold lane, wrap. apply Z.mod_pos_bound. lia.
Qed.
Definition rev_bits1 (x : Z) : Z := rev_step1 4 0x0F (rev_step1 2 0x33 (rev_step1 1 0x55 x)).
Lemma rev_bits1_ok x : lane 8 x -> bits_reversed 8 x (rev_bits1 x).
Proof. intros Hx. apply revb_ok; [lia|]. revert x Hx. apply (for_bytes1 (fun x => revb 8 x (rev_bits1 x))). vm_compute. reflexivity. Qed.
Lemma reverse_bits8_map w16 v : (w16 = true -> Nat.Even (length v)) -> byte8 v -> reverse_bits8 w16 v = map rev_bits1 v.
Proof.
  intros He Hv. unfold reverse_bits8.
  assert (S1 : byte8 (map (rev_step1 1 0x55) v)) by (apply Forall_map; eapply Forall_impl; [|exact Hv]; intros; apply rev_step1_lane; [lia|lia|assumption]).
  assert (S2 : byte8 (map (rev_step1 2 0x33) (map (rev_step1 1 0x55) v))) by (apply Forall_map; eapply Forall_impl; [|exact S1]; intros; apply rev_step1_lane; [lia|lia|assumption]).
  rewrite (rev_step_ok w16 1 0x55 v) by (reflexivity || assumption || lia).
  rewrite (rev_step_ok w16 2 0x33) by (reflexivity || assumption || lia || (now rewrite map_length)).
  rewrite (rev_step_ok w16 4 0x0F) by (reflexivity || assumption || lia || (now rewrite !map_length)).
  rewrite !map_map. reflexivity.
Qed.
Theorem reverse_bits8_ok w16 v : (w16 = true -> Nat.Even (length v)) -> byte8 v -> Forall2 (bits_reversed 8) v (reverse_bits8 w16 v).
Proof. intros He Hv. rewrite reverse_bits8_map by assumption. apply Forall2_map_r. eapply Forall_impl; [|exact Hv]. apply rev_bits1_ok. Qed.
Definition rb8_op (rb8 : list Z -> list Z) (len : nat) : Prop := forall u, length u = len -> byte8 u -> Forall2 (bits_reversed 8) u (rb8 u).
Lemma bits_reversed_bytes n x y r : Forall2 (bits_reversed 8) (le_bytes n x) y -> bytes_reversed (Z.of_nat n) (of_bytes y) r -> bits_reversed (8 * Z.of_nat n) x r.
Proof.
  intros Hy [Hr Hb]. split; [exact Hr|]. intros i Hi.
  assert (Ly : length y = n) by (rewrite <- (F2_length _ _ _ _ _ Hy); apply le_bytes_length).
  assert (By : Forall (lane 8) y).
  { clear -Hy. induction Hy as [|a b l l' H]; constructor; [apply H|assumption]. }
  assert (Hy' : forall j, (j < n)%nat -> bits_reversed 8 (nth j (le_bytes n x) 0) (nth j y 0)).
  { intros j Hj. clear -Hy Hj. rewrite <- (le_bytes_length n x) in Hj. revert j Hj. induction Hy; intros [|j] Hj; cbn in *; try lia; [assumption|apply IHHy; lia]. }
  pose proof (Z.mod_pos_bound i 8 ltac:(lia)) as Hm. assert (Hq : 0 <= i / 8 < Z.of_nat n) by (split; [apply Z.div_pos; lia|apply Z.div_lt_upper_bound; lia]).
  rewrite (tb_byte r) by lia. rewrite Hb by lia. pose proof (Z.div_mod i 8 ltac:(lia)) as D.
  set (j := Z.to_nat (Z.of_nat n - 1 - i / 8)). replace (Z.of_nat n - 1 - i / 8) with (Z.of_nat j) by lia.
  rewrite of_bytes_at by (try exact By; lia). destruct (Hy' j ltac:(lia)) as [_ Hbit]. rewrite Hbit by lia. rewrite le_bytes_nth by lia.
  rewrite (tb_byte x) by lia.
  assert (Q : (8 * Z.of_nat n - 1 - i) / 8 = Z.of_nat j /\ (8 * Z.of_nat n - 1 - i) mod 8 = 7 - i mod 8).
  { split; [symmetry; apply Z.div_unique with (7 - i mod 8); lia|symmetry; apply Z.mod_unique with (Z.of_nat j); lia]. }
  destruct Q as [-> ->]. reflexivity.
Qed.
Lemma groups_split (R : Z -> Z -> Prop) n lanes v y : Forall2 R (concat (map (le_bytes n) v)) y -> length v = lanes ->
  Forall2 (fun x g => Forall2 R (le_bytes n x) g) v (groups n lanes y).
Proof.
  intros H <-. revert y H. induction v as [|x v IH]; intros y H; cbn [map concat length groups] in *; [constructor|].
  apply Forall2_app_inv_l in H as (y1 & y2 & H1 & H2 & ->).
  assert (L : length y1 = n) by (rewrite <- (F2_length _ _ _ _ _ H1); apply le_bytes_length).
  rewrite firstn_app, skipn_app, L, Nat.sub_diag. rewrite firstn_all2, skipn_all2 by lia. cbn [firstn skipn app]. rewrite app_nil_r. constructor; [exact H1|now apply IH].
Qed.
Theorem reverse_bits_wide_ok bytes rb8 rev8 v : rb8_op rb8 (bytes * length v) -> rev8_op bytes rev8 (length v) ->
  Forall2 (bits_reversed (8 * Z.of_nat bytes)) v (reverse_bits_wide rb8 bytes (length v) rev8 v).
Proof.
  intros H1 H2. unfold reverse_bits_wide. destruct (concat_bytes bytes v) as [L1 L2]. specialize (H1 _ L1 L2).
  pose proof (groups_split _ bytes (length v) v _ H1 eq_refl) as G. pose proof (F2_length _ _ _ _ _ G) as LG.
  set (u := map of_bytes (groups bytes (length v) (rb8 (concat (map (le_bytes bytes) v))))).
  assert (Lu : length u = length v) by (unfold u; rewrite map_length; lia). rewrite <- Lu in H2 |- *.
  rewrite reverse_lane_bytes_map by exact H2. unfold u. rewrite map_map. clear -G. induction G as [|x g v gs Hx _ IH]; cbn [map]; constructor; [|exact IH].
  eapply bits_reversed_bytes; [exact Hx|apply rev_bytes_ok].
Qed.
