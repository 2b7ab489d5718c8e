(** Slides on x86: the SSE2 versions, and the API. *)
From Coq Require Import ZArith List Bool Lia Arith.
From Verif Require Import Word Word_Proofs Float_Conv X86Int_Spec X86Int_Model X86Int_Proofs X86Int_Lane X86Int_Sel X86Int_Main X86Int_Two X86Mul_Model X86Mul_Move X86Slide_Model X86Slide_Proofs.
Import ListNotations.
Open Scope Z_scope.
Arguments Z.pow : simpl never.
Arguments Z.mul : simpl never.
Arguments Z.add : simpl never.
Arguments Z.of_nat : simpl never.
(** ** Or is bytewise *)
Lemma byte_lor x y : byte x -> byte y -> byte (Z.lor x y).
Proof.
  unfold byte. intros [X0 X1] [Y0 Y1]. assert (0 <= Z.lor x y) by (apply Z.lor_nonneg; auto). split; auto. apply (Z.lt_le_trans _ (2 ^ 8)); [|reflexivity].
  destruct (Z.eq_dec (Z.lor x y) 0) as [-> | N]; [reflexivity|]. apply Z.log2_lt_pow2; [lia|]. rewrite Z.log2_lor by auto.
  destruct (Z.eq_dec x 0), (Z.eq_dec y 0); subst; try change (Z.log2 0) with 0; try (rewrite Z.max_comm); apply Z.max_lub_lt; try lia; try (apply Z.log2_lt_pow2; [lia | exact X1]); try (apply Z.log2_lt_pow2; [lia | exact Y1]).
Qed.
Lemma le_cons x l : byte x -> x + 256 * le l = Z.lor (Z.shiftl (le l) 8) x.
Proof. intros H. rewrite Z.shiftl_mul_pow2 by lia. rewrite lor_shift_add by (unfold byte in H; change (2 ^ 8) with 256; lia). change (2 ^ 8) with 256. lia. Qed.
Lemma or_bytes_byte a b : Forall byte a -> Forall byte b -> Forall byte (or_bytes a b).
Proof. intros A B. unfold or_bytes. revert b B. induction A; intros b B; [constructor|]. destruct B; cbn [combine map]; constructor; [apply byte_lor; auto | apply IHA; auto]. Qed.
Lemma le_lor a b : length a = length b -> Forall byte a -> Forall byte b -> Z.lor (le a) (le b) = le (or_bytes a b).
Proof.
  intros L A. revert b L. induction A as [|x a Hx A IH]; intros [|y b] L B; try discriminate; [reflexivity|]. inversion B as [|? ? Hy B']; subst. unfold or_bytes. cbn [combine map le fst snd]. fold (or_bytes a b).
  rewrite <- IH by (auto; injection L; auto). rewrite !le_cons by auto. replace (Z.lor x y + 256 * Z.lor (le a) (le b)) with (Z.lor (Z.shiftl (Z.lor (le a) (le b)) 8) (Z.lor x y)).
  2:{ rewrite Z.shiftl_mul_pow2 by lia. pose proof (byte_lor x y Hx Hy) as H. unfold byte in H. rewrite lor_shift_add by (change (2 ^ 8) with 256; lia). change (2 ^ 8) with 256. lia. }
  rewrite Z.shiftl_lor. rewrite <- !Z.lor_assoc. f_equal. rewrite !Z.lor_assoc. f_equal. apply Z.lor_comm.
Qed.
Lemma combine_firstn (a b : reg) m : combine (firstn m a) (firstn m b) = firstn m (combine a b).
Proof. revert b m. induction a as [|x a IH]; intros [|y b] [|m]; try reflexivity. cbn [firstn combine]. rewrite IH. reflexivity. Qed.
Lemma combine_skipn (a b : reg) m : length a = length b -> combine (skipn m a) (skipn m b) = skipn m (combine a b).
Proof. revert b m. induction a as [|x a IH]; intros [|y b] [|m] L; try reflexivity; try discriminate. cbn [skipn combine]. apply IH. injection L. auto. Qed.
Lemma or_length a b : length a = length b -> length (or_bytes a b) = length a.
Proof. intros L. unfold or_bytes. rewrite map_length, List.combine_length. lia. Qed.
Lemma lor64 a b : register 16 a -> register 16 b -> map2 8 Z.lor a b = or_bytes a b.
Proof.
  intros [La Ba] [Lb Bb]. assert (E : map2 8 Z.lor a b = bytes 8 (Z.lor (le (firstn 8 a)) (le (firstn 8 b))) ++ bytes 8 (Z.lor (le (skipn 8 a)) (le (skipn 8 b)))) by (dreg a La; dreg b Lb; reflexivity).
  rewrite E. assert (F : forall x y, length x = 8%nat -> length y = 8%nat -> Forall byte x -> Forall byte y -> bytes 8 (Z.lor (le x) (le y)) = or_bytes x y).
  { intros x y Lx Ly Hx Hy. rewrite le_lor by (auto; congruence). rewrite <- (or_length x y) in Lx by congruence. rewrite <- Lx at 1. apply bytes_le. apply or_bytes_byte; auto. }
  rewrite !F; try (rewrite ?firstn_length, ?skipn_length; lia); try (apply Forall_firstn'; auto); try (apply Forall_skipn'; auto).
  unfold or_bytes. rewrite combine_firstn, combine_skipn by congruence. rewrite <- map_app, firstn_skipn. reflexivity.
Qed.
Lemma nth_or a b p : length a = length b -> nth p (or_bytes a b) 0 = Z.lor (nth p a 0) (nth p b 0).
Proof.
  intros L. destruct (Nat.ltb_spec p (length a)) as [C|C].
  - unfold or_bytes. rewrite (nth_map' _ _ p (0, 0)) by (rewrite List.combine_length; lia). rewrite combine_nth by auto. reflexivity.
  - rewrite !nth_overflow; try reflexivity; try rewrite or_length by auto; lia.
Qed.
Lemma nth_high f r q : length r = 16%nat -> nth (8 + q) (map1 8 f r) 0 = nth q (bytes 8 (f (le (skipn 8 r)))) 0.
Proof. intros L. rewrite map1_full by auto. rewrite app_nth2 by (rewrite bytes_length; lia). rewrite bytes_length. f_equal. lia. Qed.
Lemma nth_shl_hi k r q : register 16 r -> (q < 8)%nat -> nth (8 + q) (map1 8 (shl 64 (bits k)) r) 0 = if (q <? k)%nat then 0 else nth (8 + q - k) r 0.
Proof.
  intros [L B] Hq. rewrite nth_high by auto. rewrite bytes_shl; [|rewrite skipn_length; lia | apply Forall_skipn'; auto]. rewrite nth_firstn', nth_up, nth_skipn'. apply Nat.ltb_lt in Hq. rewrite Hq.
  destruct (Nat.ltb_spec q k); [reflexivity|]. f_equal. lia.
Qed.
Lemma nth_shr_hi k r q : (k <= 8)%nat -> register 16 r -> (q < 8)%nat -> nth (8 + q) (map1 8 (shr_u (bits k)) r) 0 = nth (8 + q + k) r 0.
Proof.
  intros Hk [L B] Hq. rewrite nth_high by auto. rewrite bytes_shr; [|rewrite skipn_length; lia | apply Forall_skipn'; auto | auto]. rewrite nth_down, nth_skipn'. f_equal. lia.
Qed.
Lemma sll_reg k r : (k <= 16)%nat -> register 16 r -> register 16 (sll_bytes k r).
Proof. intros Hk [L B]. split; [unfold sll_bytes; rewrite firstn_length, app_length, repeat_length; lia | apply Forall_firstn', Forall_app; split; auto; apply zeros_byte]. Qed.
Lemma srl_reg' k r : (k <= 16)%nat -> register 16 r -> register 16 (srl_bytes k r).
Proof. intros Hk [L B]. split; [unfold srl_bytes; rewrite app_length, skipn_length, repeat_length; lia | apply srl_byte; auto]. Qed.
Lemma part_index p : (p < 16)%nat -> (p < 8)%nat \/ exists q, p = (8 + q)%nat /\ (q < 8)%nat.
Proof. intros H. destruct (Nat.ltb_spec p 8); [left; auto | right; exists (p - 8)%nat; lia]. Qed.
(** both halves shifted by k < 8 bytes, with the bytes from the other *)
Lemma funnel_up k v p : (k < 8)%nat -> register 16 v -> (p < 16)%nat ->
  nth p (map2 8 Z.lor (map1 8 (shl 64 (bits k)) v) (map1 8 (shr_u (64 - bits k)) (sll_bytes 8 v))) 0 = if (p <? k)%nat then 0 else nth (p - k) v 0.
Proof.
  intros Hk R Hp. assert (S8 : size 8) by (unfold size; cbn; tauto). pose proof (sll_reg 8 v ltac:(lia) R) as R'. assert (E : 64 - bits k = bits (8 - k)) by (unfold bits; lia). rewrite E.
  pose proof (map1_reg 8 (shl 64 (bits k)) v R S8) as R1. pose proof (map1_reg 8 (shr_u (bits (8 - k))) _ R' S8) as R2. rewrite lor64 by auto. rewrite nth_or by (rewrite (proj1 R1), (proj1 R2); reflexivity).
  destruct (part_index p Hp) as [C | (q & -> & C)].
  - rewrite nth_shl8 by auto. rewrite nth_shr by (auto; try in_list; lia). rewrite nth_sll by lia. destruct (Nat.ltb_spec p k), (Nat.ltb_spec (p + (8 - k)) 8), (Nat.ltb_spec (p + (8 - k)) 8); try lia; rewrite ?Z.lor_0_r; reflexivity.
  - rewrite nth_shl_hi by auto. rewrite nth_shr_hi by (auto; lia). destruct (Nat.ltb_spec (8 + q) k); [lia|]. destruct (Nat.ltb_spec q k).
    + rewrite nth_sll by lia. destruct (Nat.ltb_spec (8 + q + (8 - k)) 8); [lia|]. rewrite Z.lor_0_l. f_equal. lia.
    + rewrite (nth_out (sll_bytes 8 v)); [apply Z.lor_0_r | apply R' | lia].
Qed.
Lemma funnel_down k v p : (k < 8)%nat -> register 16 v -> (p < 16)%nat ->
  nth p (map2 8 Z.lor (map1 8 (shr_u (bits k)) v) (map1 8 (shl 64 (64 - bits k)) (srl_bytes 8 v))) 0 = nth (p + k) v 0.
Proof.
  intros Hk R Hp. assert (S8 : size 8) by (unfold size; cbn; tauto). pose proof (srl_reg' 8 v ltac:(lia) R) as R'. assert (E : 64 - bits k = bits (8 - k)) by (unfold bits; lia). rewrite E.
  pose proof (map1_reg 8 (shr_u (bits k)) v R S8) as R1. pose proof (map1_reg 8 (shl 64 (bits (8 - k))) _ R' S8) as R2. rewrite lor64 by auto. rewrite nth_or by (rewrite (proj1 R1), (proj1 R2); reflexivity).
  destruct (part_index p Hp) as [C | (q & -> & C)].
  - rewrite nth_shr by (auto; try in_list; lia). rewrite nth_shl8 by auto. rewrite nth_srl. destruct (Nat.ltb_spec (p + k) 8), (Nat.ltb_spec p (8 - k)); try lia; rewrite ?Z.lor_0_r, ?Z.lor_0_l; [reflexivity|]. f_equal. lia.
  - rewrite nth_shr_hi by (auto; lia). rewrite nth_shl_hi by auto. rewrite nth_srl. replace (if (q <? 8 - k)%nat then 0 else nth (8 + (8 + q - (8 - k))) v 0) with 0; [apply Z.lor_0_r|].
    destruct (Nat.ltb_spec q (8 - k)); [reflexivity|]. symmetry. apply nth_out; [apply R | lia].
Qed.
(** ** the API, by bytes *)
Lemma cfg_bytes s n : cfg s n -> (1 < n)%nat -> In (n * s)%nat [2; 4; 8; 16]%nat.
Proof. intros H N. cfgs_tac H; try lia; cbn; tauto. Qed.
Lemma shift_mask s amt : Z.land (Z.of_nat (amt * s * 8)) 63 = bits ((amt * s) mod 8).
Proof. rewrite (land_ones' _ 6) by lia. unfold wrap, bits. rewrite Nat2Z.inj_mod, Nat2Z.inj_mul. change (2 ^ 6) with (8 * 8). change (Z.of_nat 8) with 8. rewrite Zmult_mod_distr_r. lia. Qed.
Lemma lanes_per_8 s amt : size s -> (8 / s <=? amt)%nat = (8 <=? amt * s)%nat.
Proof. intros H. apply eq_true_iff_eq. rewrite !Nat.leb_le. sizes4 H; [change (8 / 1)%nat with 8%nat | change (8 / 2)%nat with 4%nat | change (8 / 4)%nat with 2%nat | change (8 / 8)%nat with 1%nat]; lia. Qed.
Lemma amt_small s n amt : cfg s n -> (amt < n)%nat -> (amt * s < n * s)%nat.
Proof. intros (H & _ & _) A. apply size_pos in H. nia. Qed.
Lemma slide_up_impl_ok t s n amt v p : cfg s n -> (1 < n)%nat -> register 16 v -> (amt < n)%nat -> (p < n * s)%nat ->
  nth p (slide_up_impl t s n amt v) 0 = if (p <? amt * s)%nat then 0 else nth (p - amt * s) v 0.
Proof.
  intros Hc N R A Hp. pose proof (amt_small s n amt Hc A) as A'. pose proof (cfg_bytes s n Hc N) as Hb. unfold slide_up_impl. destruct (Nat.leb_spec (n * s) 8) as [C|C].
  - rewrite bits_k8. apply nth_shl8; auto. lia.
  - assert (E : (n * s = 16)%nat) by (cbn in Hb; lia). rewrite E in *. destruct t; try (apply up_pshufb; [apply R | lia | lia]).
    rewrite shift_mask, lanes_per_8 by apply Hc. set (K := (amt * s)%nat) in *. pose proof (Nat.mod_upper_bound K 8 ltac:(lia)). destruct (Nat.leb_spec 8 K) as [D|D].
    + assert (M : (K mod 8 = K - 8)%nat) by (symmetry; apply Nat.mod_unique with 1%nat; lia). rewrite funnel_up by (auto; apply sll_reg; auto; lia). rewrite M. destruct (Nat.ltb_spec p (K - 8)), (Nat.ltb_spec p K); try lia; try reflexivity.
      * rewrite nth_sll by lia. destruct (Nat.ltb_spec (p - (K - 8)) 8); [reflexivity | lia].
      * rewrite nth_sll by lia. destruct (Nat.ltb_spec (p - (K - 8)) 8); [lia|]. f_equal. lia.
    + rewrite Nat.mod_small by auto. apply funnel_up; auto.
Qed.
Lemma slide_up_ok t c s n amt v p : cfg s n -> register 16 v -> (amt < n)%nat -> (p < n * s)%nat ->
  nth p (slide_up t c s n amt v) 0 = if (p <? amt * s)%nat then 0 else nth (p - amt * s) v 0.
Proof.
  intros Hc R A Hp. assert (L : (n * s <= 16)%nat) by apply Hc. unfold slide_up. destruct (Nat.eqb_spec n 1) as [->|N].
  - replace amt with 0%nat by lia. cbn [Nat.mul Nat.ltb Nat.leb]. rewrite Nat.sub_0_r. reflexivity.
  - assert (amt <? n = true)%nat as -> by (apply Nat.ltb_lt; auto). destruct c; cbn [andb].
    + destruct (Nat.eqb_spec amt 0) as [->|]; [cbn [Nat.mul]; rewrite Nat.sub_0_r; reflexivity|]. apply nth_sll. lia.
    + apply slide_up_impl_ok; auto. lia.
Qed.
Lemma shift_right_ok nb k v p : In nb [2; 4; 8; 16]%nat -> register 16 v -> (p < nb)%nat -> nth p (shift_right_bytes nb k v) 0 = if (p + k <? nb)%nat then nth (p + k) v 0 else 0.
Proof.
  intros Hn R Hp. unfold shift_right_bytes. rewrite nth_srl, Nat.add_comm. destruct (Nat.eqb_spec nb 16) as [->|N].
  - destruct (Nat.ltb_spec (p + k) 16); [reflexivity|]. apply nth_out; [apply R | auto].
  - unfold clear_upper. apply nth_load.
Qed.
Lemma slide_down_impl_ok t s n amt v p : cfg s n -> (1 < n)%nat -> register 16 v -> (amt < n)%nat -> (p < n * s)%nat ->
  nth p (slide_down_impl t s n amt v) 0 = if (p + amt * s <? n * s)%nat then nth (p + amt * s) v 0 else 0.
Proof.
  intros Hc N R A Hp. pose proof (amt_small s n amt Hc A) as A'. pose proof (cfg_bytes s n Hc N) as Hb. unfold slide_down_impl. destruct (Nat.leb_spec (n * s) 8) as [C|C].
  - rewrite bits_k8. apply nth_shr; auto; [|lia]. cbn [In] in Hb |- *. lia.
  - assert (E : (n * s = 16)%nat) by (cbn in Hb; lia). rewrite E in *. destruct t; try (apply down_pshufb; [apply R | lia | lia]).
    rewrite shift_mask, lanes_per_8 by apply Hc. set (K := (amt * s)%nat) in *. pose proof (Nat.mod_upper_bound K 8 ltac:(lia)).
    assert (F : nth (p + K) v 0 = if (p + K <? 16)%nat then nth (p + K) v 0 else 0) by (destruct (Nat.ltb_spec (p + K) 16); [reflexivity|]; apply nth_out; [apply R | auto]). rewrite <- F.
    destruct (Nat.leb_spec 8 K) as [D|D].
    + assert (M : (K mod 8 = K - 8)%nat) by (symmetry; apply Nat.mod_unique with 1%nat; lia). rewrite funnel_down by (auto; apply srl_reg'; auto; lia). rewrite M, nth_srl. f_equal. lia.
    + rewrite Nat.mod_small by auto. apply funnel_down; auto.
Qed.
Lemma slide_down_ok t c s n amt v p : cfg s n -> register 16 v -> (amt < n)%nat -> (p < n * s)%nat ->
  nth p (slide_down t c s n amt v) 0 = if (p + amt * s <? n * s)%nat then nth (p + amt * s) v 0 else 0.
Proof.
  intros Hc R A Hp. assert (L : (n * s <= 16)%nat) by apply Hc. unfold slide_down.
  assert (Z0 : nth p v 0 = if (p + 0 * s <? n * s)%nat then nth (p + 0 * s) v 0 else 0) by (cbn [Nat.mul]; rewrite Nat.add_0_r; apply Nat.ltb_lt in Hp; rewrite Hp; reflexivity). destruct (Nat.eqb_spec n 1) as [->|N].
  - replace amt with 0%nat by lia. exact Z0.
  - assert (amt <? n = true)%nat as -> by (apply Nat.ltb_lt; auto). destruct c; cbn [andb].
    + destruct (Nat.eqb_spec amt 0) as [->|]; [exact Z0|]. apply shift_right_ok; auto. apply cfg_bytes; auto. lia.
    + apply slide_down_impl_ok; auto. lia.
Qed.
