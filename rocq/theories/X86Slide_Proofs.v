(** Slides on x86: proofs, by the value of each byte. *)
From Coq Require Import ZArith List Bool Lia Arith.
From Verif Require Import Word Word_Proofs Float_Conv X86Int_Spec X86Int_Model X86Int_Proofs X86Int_Lane X86Int_Sel X86Int_Main X86Int_Two X86Mul_Model X86Mul_Move X86Slide_Model.
Import ListNotations.
Open Scope Z_scope.
Arguments Z.pow : simpl never.
Arguments Z.mul : simpl never.
Arguments Z.add : simpl never.
Arguments Z.of_nat : simpl never.
(** ** from bytes to lanes *)
Lemma unsigned_ext s k k' r r' : (forall q, (q < s)%nat -> nth (k + q) r 0 = nth (k' + q) r' 0) -> unsigned_at s k r = unsigned_at s k' r'.
Proof.
  revert k k'. induction s as [|s IH]; intros k k' H; [reflexivity|]. cbn [unsigned_at]. f_equal.
  - specialize (H 0%nat ltac:(lia)). rewrite !Nat.add_0_r in H. exact H.
  - f_equal. apply IH. intros q Hq. specialize (H (S q) ltac:(lia)). rewrite <- !Nat.add_succ_comm in H. exact H.
Qed.
Lemma unsigned_zero s k r : (forall q, (q < s)%nat -> nth (k + q) r 0 = 0) -> unsigned_at s k r = 0.
Proof.
  revert k. induction s as [|s IH]; intros k H; [reflexivity|]. cbn [unsigned_at]. rewrite IH.
  - specialize (H 0%nat ltac:(lia)). rewrite Nat.add_0_r in H. rewrite H. reflexivity.
  - intros q Hq. specialize (H (S q) ltac:(lia)). rewrite <- Nat.add_succ_comm in H. exact H.
Qed.
Lemma lane_ext sg s i i' r r' : (forall q, (q < s)%nat -> nth (i * s + q) r 0 = nth (i' * s + q) r' 0) -> lane_value sg s i r = lane_value sg s i' r'.
Proof. intros H. unfold lane_value. rewrite (unsigned_ext s (i * s) (i' * s) r r' H). reflexivity. Qed.
Lemma lane_zero sg s i r : (0 < s)%nat -> (forall q, (q < s)%nat -> nth (i * s + q) r 0 = 0) -> lane_value sg s i r = 0.
Proof.
  intros P H. unfold lane_value. rewrite (unsigned_zero s (i * s) r H). assert (2 ^ (8 * Z.of_nat s - 1) <=? 0 = false) as -> by (apply Z.leb_gt; apply Z.pow_pos_nonneg; lia). rewrite andb_false_r. reflexivity.
Qed.
Lemma up_lanes sg s n k r r' : (0 < s)%nat -> (forall p, (p < n * s)%nat -> nth p r' 0 = if (p <? k * s)%nat then 0 else nth (p - k * s) r 0) ->
  forall i, (i < n)%nat -> lane_value sg s i r' = if (i <? k)%nat then 0 else lane_value sg s (i - k) r.
Proof.
  intros P H i Hi. assert (L : forall q, (q < s)%nat -> (i * s + q < n * s)%nat) by (intros; nia). destruct (Nat.ltb_spec i k) as [C|C].
  - apply lane_zero; auto. intros q Hq. rewrite H by auto. destruct (Nat.ltb_spec (i * s + q) (k * s)); [reflexivity | nia].
  - apply lane_ext. intros q Hq. rewrite H by auto. destruct (Nat.ltb_spec (i * s + q) (k * s)); [nia|]. f_equal. rewrite Nat.mul_sub_distr_r. nia.
Qed.
Lemma down_lanes sg s n k r r' : (0 < s)%nat -> (forall p, (p < n * s)%nat -> nth p r' 0 = if (p + k * s <? n * s)%nat then nth (p + k * s) r 0 else 0) ->
  forall i, (i < n)%nat -> lane_value sg s i r' = if (i + k <? n)%nat then lane_value sg s (i + k) r else 0.
Proof.
  intros P H i Hi. assert (L : forall q, (q < s)%nat -> (i * s + q < n * s)%nat) by (intros; nia). destruct (Nat.ltb_spec (i + k) n) as [C|C].
  - apply lane_ext. intros q Hq. rewrite H by auto. destruct (Nat.ltb_spec (i * s + q + k * s) (n * s)); [f_equal; nia | nia].
  - apply lane_zero; auto. intros q Hq. rewrite H by auto. destruct (Nat.ltb_spec (i * s + q + k * s) (n * s)); [nia | reflexivity].
Qed.
Lemma same_lanes sg s n r r' : (forall p, (p < n * s)%nat -> nth p r' 0 = nth p r 0) -> forall i, (i < n)%nat -> lane_value sg s i r' = lane_value sg s i r.
Proof. intros H i Hi. apply lane_ext. intros q Hq. apply H. nia. Qed.
(** ** lists *)
Lemma nth_zeros p k : nth p (repeat 0 k) 0 = 0. Proof. revert p. induction k; intros [|p]; cbn; auto. Qed.
Lemma nth_up k r p : nth p (repeat 0 k ++ r) 0 = if (p <? k)%nat then 0 else nth (p - k) r 0.
Proof.
  destruct (Nat.ltb_spec p k); [rewrite app_nth1 by (rewrite repeat_length; auto); apply nth_zeros | rewrite app_nth2 by (rewrite repeat_length; auto); rewrite repeat_length; reflexivity].
Qed.
Lemma nth_firstn' (r : list Z) m p : nth p (firstn m r) 0 = if (p <? m)%nat then nth p r 0 else 0.
Proof. revert m p. induction r as [|x r IH]; intros [|m] [|p]; try reflexivity; [cbn [firstn nth]; destruct (_ <? _)%nat; reflexivity | apply (IH m p)]. Qed.
Lemma nth_skipn' (r : list Z) m p : nth p (skipn m r) 0 = nth (m + p) r 0.
Proof. revert m. induction r as [|x r IH]; intros [|m]; try reflexivity; [destruct p; reflexivity | apply (IH m)]. Qed.
Lemma nth_down k m r p : nth p (skipn k r ++ repeat 0 m) 0 = nth (k + p) r 0.
Proof.
  destruct (Nat.ltb_spec p (length (skipn k r))) as [C|C]; [rewrite app_nth1 by auto; apply nth_skipn'|]. rewrite app_nth2 by auto. rewrite nth_zeros. symmetry. apply nth_overflow. rewrite skipn_length in C. lia.
Qed.
Lemma nth_sll k r p : (p < 16)%nat -> nth p (sll_bytes k r) 0 = if (p <? k)%nat then 0 else nth (p - k) r 0.
Proof. intros H. unfold sll_bytes. rewrite nth_firstn'. apply Nat.ltb_lt in H. rewrite H. apply nth_up. Qed.
Lemma nth_srl k r p : nth p (srl_bytes k r) 0 = nth (k + p) r 0. Proof. apply nth_down. Qed.
Lemma nth_load nb r p : nth p (load nb r) 0 = if (p <? nb)%nat then nth p r 0 else 0.
Proof.
  unfold load. rewrite <- nth_firstn'. destruct (Nat.ltb_spec p (length (firstn nb r))) as [C|C]; [rewrite app_nth1 by auto; reflexivity|]. rewrite app_nth2 by auto. rewrite nth_zeros. symmetry. apply nth_overflow. auto.
Qed.
Lemma nth_pshufb r idx p : (p < length idx)%nat -> nth p (pshufb r idx) 0 = let i := nth p idx 0 in if 128 <=? i then 0 else nth (Z.to_nat (i mod 16)) r 0.
Proof. intros H. unfold pshufb. apply (nth_map' (fun i => if 128 <=? i then 0 else nth (Z.to_nat (i mod 16)) r 0)). auto. Qed.
Lemma nth_out r p : length r = 16%nat -> (16 <= p)%nat -> nth p r 0 = 0. Proof. intros. apply nth_overflow. lia. Qed.
(** ** shifts of wide lanes move bytes *)
Lemma le_app_zeros l m : le (l ++ repeat 0 m) = le l.
Proof. induction l as [|x l IH]; cbn [le app]; [induction m; cbn [le repeat]; lia | rewrite IH; reflexivity]. Qed.
Lemma bytes_le l : Forall byte l -> bytes (length l) (le l) = l.
Proof.
  induction 1 as [|x l Hx Hl IH]; [reflexivity|]. cbn [length bytes le]. unfold byte in Hx. f_equal.
  - unfold wrap. change (2 ^ 8) with 256. rewrite (Z.mul_comm 256), Z.mod_add by lia. apply Z.mod_small. auto.
  - rewrite (Z.mul_comm 256), Z.div_add by lia. rewrite Z.div_small by auto. exact IH.
Qed.
Lemma zeros_byte m : Forall byte (repeat 0 m). Proof. apply Forall_forall. intros x Hx. apply repeat_spec in Hx. subst. unfold byte. lia. Qed.
Lemma le_up k l : le (repeat 0 k ++ l) = 2 ^ bits k * le l.
Proof. induction k as [|k IH]; cbn [repeat app le]; [change (2 ^ bits 0) with 1; lia|]. rewrite IH, pow_bits_S. lia. Qed.
Lemma bits_k8 k : Z.of_nat (k * 8) = bits k. Proof. unfold bits. lia. Qed.
Lemma bytes_shl k l : length l = 8%nat -> Forall byte l -> bytes 8 (shl 64 (bits k) (le l)) = firstn 8 (repeat 0 k ++ l).
Proof.
  intros L B. unfold shl. rewrite Z.shiftl_mul_pow2 by (unfold bits; lia). rewrite Z.mul_comm, <- le_up. change 64 with (bits 8). rewrite <- le_firstn by (apply Forall_app; split; auto; apply zeros_byte).
  rewrite <- (bytes_le (firstn 8 (repeat 0 k ++ l))) at 2 by (apply Forall_firstn', Forall_app; split; auto; apply zeros_byte). f_equal. rewrite firstn_length, app_length, repeat_length. lia.
Qed.
Lemma bytes_shr nb k l : length l = nb -> Forall byte l -> (k <= nb)%nat -> bytes nb (shr_u (bits k) (le l)) = skipn k l ++ repeat 0 k.
Proof.
  intros L B Hk. unfold shr_u. rewrite Z.shiftr_div_pow2 by (unfold bits; lia). rewrite <- le_skipn by (auto; lia). rewrite <- (le_app_zeros _ k).
  rewrite <- (bytes_le (skipn k l ++ repeat 0 k)) at 2 by (apply Forall_app; split; [apply Forall_skipn'; auto | apply zeros_byte]). f_equal. rewrite app_length, skipn_length, repeat_length. lia.
Qed.
Lemma map1_low nb f r : In nb [2; 4; 8]%nat -> length r = 16%nat -> firstn nb (map1 nb f r) = bytes nb (f (le (firstn nb r))).
Proof. intros Hn L. dreg r L. cbn [In] in Hn. repeat destruct Hn as [<-|Hn]; try contradiction; reflexivity. Qed.
Lemma map1_full f r : length r = 16%nat -> map1 8 f r = bytes 8 (f (le (firstn 8 r))) ++ bytes 8 (f (le (skipn 8 r))).
Proof. intros L. dreg r L. reflexivity. Qed.
(** ** slides *)
Lemma nth_prefix m r r' p : firstn m r = firstn m r' -> (p < m)%nat -> nth p r 0 = nth p r' 0.
Proof. intros E H. pose proof (f_equal (fun l => nth p l 0) E) as F. cbn beta in F. rewrite !nth_firstn' in F. apply Nat.ltb_lt in H. rewrite H in F. exact F. Qed.
Lemma nth_shl8 k r p : register 16 r -> (p < 8)%nat -> nth p (map1 8 (shl 64 (bits k)) r) 0 = if (p <? k)%nat then 0 else nth (p - k) r 0.
Proof.
  intros [L B] Hp. rewrite (nth_prefix 8 _ (repeat 0 k ++ firstn 8 r)); auto; [rewrite nth_up, nth_firstn'|].
  - destruct (p <? k)%nat; [reflexivity|]. destruct (Nat.ltb_spec (p - k) 8); [reflexivity | lia].
  - rewrite map1_low by (auto; in_list). apply bytes_shl; [rewrite firstn_length; lia | apply Forall_firstn'; auto].
Qed.
Lemma nth_shr nb k r p : In nb [2; 4; 8]%nat -> (k <= nb)%nat -> register 16 r -> (p < nb)%nat -> nth p (map1 nb (shr_u (bits k)) r) 0 = if (p + k <? nb)%nat then nth (p + k) r 0 else 0.
Proof.
  intros Hn Hk [L B] Hp. assert (N : (nb <= 16)%nat) by (cbn in Hn; lia). rewrite (nth_prefix nb _ (skipn k (firstn nb r) ++ repeat 0 k)); auto; [rewrite nth_down, nth_firstn', Nat.add_comm; reflexivity|].
  rewrite map1_low by auto. rewrite bytes_shr; [| rewrite firstn_length; lia | apply Forall_firstn'; auto | auto]. symmetry. apply firstn_all2. rewrite app_length, skipn_length, firstn_length, repeat_length. lia.
Qed.
Lemma nth_iota a p : (p < 16)%nat -> nth p (iota8 a) 0 = wrap 8 (a + Z.of_nat p).
Proof. intros H. unfold iota8. rewrite (nth_map' _ _ p 0%nat) by (rewrite seq_length; auto). rewrite seq_nth by auto. reflexivity. Qed.
Lemma iota_length a : length (iota8 a) = 16%nat. Proof. unfold iota8. rewrite map_length. apply seq_length. Qed.
Lemma up_pshufb K v p : length v = 16%nat -> (K < 16)%nat -> (p < 16)%nat -> nth p (pshufb v (iota8 (wrap 8 (0 - Z.of_nat K)))) 0 = if (p <? K)%nat then 0 else nth (p - K) v 0.
Proof.
  intros L HK Hp. rewrite nth_pshufb by (rewrite iota_length; auto). rewrite nth_iota by auto. cbv zeta. rewrite wrap_add_l. unfold wrap. change (2 ^ 8) with 256. destruct (Nat.ltb_spec p K).
  - assert ((0 - Z.of_nat K + Z.of_nat p) mod 256 = 256 - Z.of_nat K + Z.of_nat p) as -> by (symmetry; apply Z.mod_unique with (-1); lia). assert (128 <=? _ = true) as -> by (apply Z.leb_le; lia). reflexivity.
  - rewrite Z.mod_small by lia. assert (128 <=? _ = false) as -> by (apply Z.leb_gt; lia). f_equal. rewrite Z.mod_small by lia. lia.
Qed.
Lemma down_pshufb K v p : length v = 16%nat -> (K < 16)%nat -> (p < 16)%nat ->
  nth p (pshufb v (map (fun i => if 15 <? swrap 8 i then Z.lor i 255 else i) (iota8 (wrap 8 (Z.of_nat K))))) 0 = if (p + K <? 16)%nat then nth (p + K) v 0 else 0.
Proof.
  intros L HK Hp. rewrite nth_pshufb by (rewrite map_length, iota_length; auto). rewrite (nth_map' _ _ p 0) by (rewrite iota_length; auto). rewrite nth_iota by auto. cbv zeta. rewrite wrap_add_l. rewrite wrap_small by lia.
  rewrite swrap_small by (unfold in_s; lia). destruct (Nat.ltb_spec (p + K) 16) as [C|C].
  - assert (15 <? _ = false) as -> by (apply Z.ltb_ge; lia). assert (128 <=? _ = false) as -> by (apply Z.leb_gt; lia). f_equal. rewrite Z.mod_small by lia. lia.
  - assert (15 <? _ = true) as -> by (apply Z.ltb_lt; lia). assert (128 <=? Z.lor (Z.of_nat K + Z.of_nat p) 255 = true) as ->; [|reflexivity]. apply Z.leb_le. rewrite Z.lor_comm.
    assert (0 <= Z.ldiff 255 (Z.of_nat K + Z.of_nat p)) by (apply Z.ldiff_nonneg; lia). pose proof (Z.lor_nonneg 255 (Z.of_nat K + Z.of_nat p)).
    assert (255 <= Z.lor 255 (Z.of_nat K + Z.of_nat p)); [|lia]. replace (Z.lor 255 (Z.of_nat K + Z.of_nat p)) with (255 + Z.ldiff (Z.of_nat K + Z.of_nat p) 255).
    + assert (0 <= Z.ldiff (Z.of_nat K + Z.of_nat p) 255) by (apply Z.ldiff_nonneg; lia). lia.
    + rewrite Z.add_nocarry_lxor, Z.lxor_lor; rewrite ?Z.lor_ldiff_and; try reflexivity; apply Z.bits_inj'; intros j Hj; rewrite ?Z.land_spec, ?Z.lor_spec, ?Z.ldiff_spec, ?Z.bits_0; repeat destruct (Z.testbit _ j); reflexivity.
Qed.
