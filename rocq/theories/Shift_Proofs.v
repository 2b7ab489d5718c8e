(** Constant and same-count shifts, GFNI, rotates. *)
From Coq Require Import ZArith List Bool Lia.
From Verif Require Import Word Float_Spec AES_Spec Ops_Model Shift_Spec Shift_Model.
Import ListNotations.
Open Scope Z_scope.
Ltac Zify.zify_post_hook ::= idtac.

Lemma tb_high w x n : 0 <= x < 2 ^ w -> 0 <= w <= n -> Z.testbit x n = false.
Proof.
  intros Hx Hn. destruct (Z.eq_dec x 0) as [->|Hz]; [apply Z.testbit_0_l|].
  apply Z.bits_above_log2; [lia|]. assert (Z.log2 x < w) by (apply Z.log2_lt_pow2; lia). lia.
Qed.
Lemma tb_wrap w x n : 0 <= w -> 0 <= n -> Z.testbit (wrap w x) n = (n <? w) && Z.testbit x n.
Proof.
  intros Hw Hn. unfold wrap. destruct (Z.ltb_spec n w); [now apply Z.mod_pow2_bits_low|now rewrite Z.mod_pow2_bits_high by lia].
Qed.
Lemma tb_ones k n : 0 <= k -> 0 <= n -> Z.testbit (2 ^ k - 1) n = (n <? k).
Proof. intros Hk Hn. replace (2 ^ k - 1) with (Z.ones k) by (rewrite Z.ones_equiv; lia).
  destruct (Z.ltb_spec n k); [apply Z.ones_spec_low; lia|apply Z.ones_spec_high; lia]. Qed.
Lemma tb_pair k lo hi n : 0 <= k -> 0 <= lo < 2 ^ k -> 0 <= n -> Z.testbit (lo + 2 ^ k * hi) n = if n <? k then Z.testbit lo n else Z.testbit hi (n - k).
Proof.
  intros Hk Hl Hn.
  replace (lo + 2 ^ k * hi) with (Z.lor lo (Z.shiftl hi k)).
  - rewrite Z.lor_spec. destruct (Z.ltb_spec n k).
    + rewrite Z.shiftl_spec_low by lia. apply orb_false_r.
    + rewrite Z.shiftl_spec_high by lia. rewrite (tb_high k lo n) by lia. reflexivity.
  - rewrite Z.shiftl_mul_pow2 by lia. rewrite (Z.mul_comm (2 ^ k)). symmetry. rewrite <- (Z.shiftl_mul_pow2 hi k) by lia.
    rewrite <- Z.lxor_lor; [apply Z.add_nocarry_lxor|]; apply Z.bits_inj'; intros m Hm; rewrite Z.land_spec, Z.testbit_0_l;
      (destruct (Z.ltb_spec m k); [rewrite Z.shiftl_spec_low by lia; apply andb_false_r|rewrite (tb_high k lo m) by lia; reflexivity]).
Qed.
Lemma tb_shl w k x n : 0 <= w -> 0 <= k -> 0 <= n -> Z.testbit (shl_spec w k x) n = (n <? w) && (k <=? n) && Z.testbit x (n - k).
Proof.
  intros Hw Hk Hn. unfold shl_spec. rewrite <- Z.shiftl_mul_pow2 by lia. fold (wrap w (Z.shiftl x k)). rewrite tb_wrap by lia.
  rewrite Z.shiftl_spec by lia. destruct (Z.leb_spec k n); cbn [andb]; rewrite ?andb_true_r; [reflexivity|].
  rewrite Z.testbit_neg_r by lia. now rewrite !andb_false_r.
Qed.
Lemma tb_shr k x n : 0 <= k -> 0 <= n -> Z.testbit (shr_spec k x) n = Z.testbit x (n + k).
Proof. intros. unfold shr_spec. rewrite <- Z.shiftr_div_pow2 by lia. now rewrite Z.shiftr_spec by lia. Qed.
Lemma lane_shl w k x : 0 <= w -> lane w (shl_spec w k x).
Proof. intros. unfold lane, shl_spec. apply Z.mod_pos_bound. apply Z.pow_pos_nonneg; lia. Qed.
Lemma lane_shr w k x : 0 <= k -> lane w x -> lane w (shr_spec k x).
Proof.
  unfold lane, shr_spec. intros Hk H. assert (1 <= 2 ^ k) by (change 1 with (2 ^ 0); apply Z.pow_le_mono_r; lia).
  split; [apply Z.div_pos; lia|]. apply Z.le_lt_trans with x; [|lia]. apply Z.div_le_upper_bound; nia.
Qed.

(** instructions *)
Lemma slli_spec w k x : 0 <= k < w -> slli w k x = shl_spec w k x.
Proof. intros H. unfold slli, shl_spec, wrap. destruct (Z.ltb_spec k w); [|lia]. now rewrite Z.shiftl_mul_pow2 by lia. Qed.
Lemma srli_spec w k x : 0 <= k < w -> srli w k x = shr_spec k x.
Proof. intros H. unfold srli, shr_spec. destruct (Z.ltb_spec k w); [|lia]. now rewrite Z.shiftr_div_pow2 by lia. Qed.
Lemma swrap_signed w x : lane w x -> swrap w x = signed w x.
Proof. intros H. unfold swrap, signed. now rewrite Z.mod_small by exact H. Qed.
Lemma signed_range w x : 0 < w -> lane w x -> - 2 ^ (w - 1) <= signed w x < 2 ^ (w - 1).
Proof.
  intros Hw H. unfold signed, lane in *. assert (E : 2 ^ w = 2 * 2 ^ (w - 1)) by (rewrite <- Z.pow_succ_r by lia; f_equal; lia).
  destruct (Z.ltb_spec x (2 ^ (w - 1))); lia.
Qed.
Lemma signed_wrap w z : 0 < w -> - 2 ^ (w - 1) <= z < 2 ^ (w - 1) -> lane w (wrap w z) /\ signed w (wrap w z) = z.
Proof.
  intros Hw H. assert (E : 2 ^ w = 2 * 2 ^ (w - 1)) by (rewrite <- Z.pow_succ_r by lia; f_equal; lia).
  assert (P : 0 < 2 ^ (w - 1)) by (apply Z.pow_pos_nonneg; lia).
  unfold lane, wrap, signed. split; [apply Z.mod_pos_bound; lia|].
  destruct (Z.ltb_spec z 0) as [Hz|Hz].
  - replace (z mod 2 ^ w) with (z + 2 ^ w) by (apply Z.mod_unique with (-1); lia).
    destruct (Z.ltb_spec (z + 2 ^ w) (2 ^ (w - 1))); lia.
  - rewrite Z.mod_small by lia. destruct (Z.ltb_spec z (2 ^ (w - 1))); lia.
Qed.
Lemma srai_spec w k x : 0 <= k < w -> lane w x -> sar_spec w k x (srai w k x).
Proof.
  intros Hk Hx. unfold srai, sar_spec. rewrite Z.min_l by lia. rewrite swrap_signed by exact Hx. rewrite Z.shiftr_div_pow2 by lia.
  apply signed_wrap; [lia|]. pose proof (signed_range w x ltac:(lia) Hx) as R.
  assert (P : 1 <= 2 ^ k) by (change 1 with (2 ^ 0); apply Z.pow_le_mono_r; lia).
  set (s := signed w x) in *. set (m := 2 ^ (w - 1)) in *. set (p := 2 ^ k) in *. clearbody s m p.
  split.
  - apply Z.div_le_lower_bound; nia.
  - apply Z.div_lt_upper_bound; nia.
Qed.

(** 8-bit lanes through 16-bit lanes *)
Definition byte8 := Forall (lane 8).
Lemma to16_ind (P : list Z -> Prop) : P [] -> (forall a b r, P r -> P (a :: b :: r)) -> forall v, Nat.Even (length v) -> P v.
Proof.
  intros H0 H2. fix IH 1. intros [|a [|b r]] He; [exact H0| |].
  - destruct He as [m Hm]. cbn in Hm. lia.
  - apply H2, IH. destruct He as [m Hm]. exists (m - 1)%nat. cbn in Hm. lia.
Qed.
Lemma pair16 (f : Z -> Z) (g : Z -> Z) v : Nat.Even (length v) -> byte8 v ->
  (forall lo hi, lane 8 lo -> lane 8 hi -> wrap 8 (f (lo + 2 ^ 8 * hi)) = g lo /\ Z.shiftr (f (lo + 2 ^ 8 * hi)) 8 = g hi) ->
  to8 (map f (to16 v)) = map g v.
Proof.
  intros He Hv Hf. revert Hv. pattern v. apply to16_ind; [easy| |exact He].
  intros a b r IH Hv. inversion_clear Hv as [|? ? Ha Hv']. inversion_clear Hv' as [|? ? Hb Hr].
  change (to8 (map f (to16 (a :: b :: r)))) with (wrap 8 (f (a + 2 ^ 8 * b)) :: Z.shiftr (f (a + 2 ^ 8 * b)) 8 :: to8 (map f (to16 r))).
  destruct (Hf a b Ha Hb) as [-> ->]. rewrite (IH Hr). reflexivity.
Qed.
Lemma to8_map_pair (f : Z -> Z) (g : Z -> Z) m v : Nat.Even (length v) -> byte8 v ->
  (forall lo hi, lane 8 lo -> lane 8 hi -> Z.land (wrap 8 (f (lo + 2 ^ 8 * hi))) m = g lo /\ Z.land (Z.shiftr (f (lo + 2 ^ 8 * hi)) 8) m = g hi) ->
  vand1 m (to8 (map f (to16 v))) = map g v.
Proof.
  intros He Hv Hf. revert Hv. pattern v. apply to16_ind; [easy| |exact He].
  intros a b r IH Hv. inversion_clear Hv as [|? ? Ha Hv']. inversion_clear Hv' as [|? ? Hb Hr].
  change (vand1 m (to8 (map f (to16 (a :: b :: r))))) with (Z.land (wrap 8 (f (a + 2 ^ 8 * b))) m :: Z.land (Z.shiftr (f (a + 2 ^ 8 * b)) 8) m :: vand1 m (to8 (map f (to16 r)))).
  destruct (Hf a b Ha Hb) as [-> ->]. rewrite (IH Hr). reflexivity.
Qed.
Lemma mask_left k n : 0 <= k < 8 -> 0 <= n -> Z.testbit (Z.land (Z.shiftl 0xFF k) 0xFF) n = (k <=? n) && (n <? 8).
Proof.
  intros Hk Hn. rewrite Z.land_spec, Z.shiftl_spec by lia. change 0xFF with (2 ^ 8 - 1). rewrite (tb_ones 8 n) by lia.
  destruct (Z.leb_spec k n).
  - rewrite (tb_ones 8 (n - k)) by lia. destruct (Z.ltb_spec (n - k) 8), (Z.ltb_spec n 8); cbn; lia || reflexivity.
  - now rewrite Z.testbit_neg_r by lia.
Qed.
Lemma mask_right k n : 0 <= k < 8 -> 0 <= n -> Z.testbit (Z.shiftr 0xFF k) n = (n <? 8 - k).
Proof.
  intros Hk Hn. rewrite Z.shiftr_spec by lia. change 0xFF with (2 ^ 8 - 1). rewrite (tb_ones 8) by lia.
  destruct (Z.ltb_spec (n + k) 8), (Z.ltb_spec n (8 - k)); lia || reflexivity.
Qed.
Ltac bcase := repeat match goal with
  | |- context [?a <? ?b] => destruct (Z.ltb_spec a b)
  | |- context [?a <=? ?b] => destruct (Z.leb_spec a b) end; cbn [andb]; rewrite ?andb_false_r, ?andb_true_r.
Lemma left_pair k lo hi : 0 <= k < 8 -> lane 8 lo -> lane 8 hi ->
  Z.land (wrap 8 (slli 16 k (lo + 2 ^ 8 * hi))) (Z.land (Z.shiftl 0xFF k) 0xFF) = shl_spec 8 k lo /\
  Z.land (Z.shiftr (slli 16 k (lo + 2 ^ 8 * hi)) 8) (Z.land (Z.shiftl 0xFF k) 0xFF) = shl_spec 8 k hi.
Proof.
  intros Hk Hl Hh. rewrite slli_spec by lia. split; apply Z.bits_inj'; intros n Hn; rewrite Z.land_spec, mask_left by lia; rewrite (tb_shl 8) by lia.
  - rewrite tb_wrap by lia. rewrite tb_shl by lia. bcase; try reflexivity; try lia. rewrite tb_pair by (try exact Hl; lia). bcase; lia || reflexivity.
  - rewrite Z.shiftr_spec by lia. rewrite tb_shl by lia. bcase; try reflexivity; try lia.
    rewrite tb_pair by (try exact Hl; lia). bcase; try lia. f_equal. lia.
Qed.
Lemma right_pair k lo hi : 0 <= k < 8 -> lane 8 lo -> lane 8 hi ->
  Z.land (wrap 8 (srli 16 k (lo + 2 ^ 8 * hi))) (Z.shiftr 0xFF k) = shr_spec k lo /\
  Z.land (Z.shiftr (srli 16 k (lo + 2 ^ 8 * hi)) 8) (Z.shiftr 0xFF k) = shr_spec k hi.
Proof.
  intros Hk Hl Hh. rewrite srli_spec by lia. split; apply Z.bits_inj'; intros n Hn; rewrite Z.land_spec, mask_right by lia; rewrite (tb_shr k _ n) by lia.
  - rewrite tb_wrap by lia. rewrite tb_shr by lia. bcase; try reflexivity; try lia.
    + rewrite tb_pair by (try exact Hl; lia). bcase; lia || reflexivity.
    + rewrite (tb_high 8 lo) by (try exact Hl; lia). reflexivity.
    + rewrite (tb_high 8 lo) by (try exact Hl; lia). reflexivity.
  - rewrite Z.shiftr_spec by lia. rewrite tb_shr by lia. bcase.
    + rewrite tb_pair by (try exact Hl; lia). bcase; try lia. f_equal. lia.
    + rewrite (tb_high 8 hi) by (try exact Hh; lia). reflexivity.
Qed.
Theorem shift_left_same8_ok k v : 0 <= k < 8 -> Nat.Even (length v) -> byte8 v -> shift_left_same8 k v = map (shl_spec 8 k) v.
Proof.
  intros Hk He Hv. unfold shift_left_same8.
  replace (wrap 8 (Z.land (Z.shiftl 0xFF k) 0xFF)) with (Z.land (Z.shiftl 0xFF k) 0xFF).
  - apply to8_map_pair; [exact He|exact Hv|]. intros; now apply left_pair.
  - change 0xFF with (2 ^ 8 - 1) at 2 4. replace (2 ^ 8 - 1) with (Z.ones 8) by reflexivity. rewrite !Z.land_ones by lia. unfold wrap. now rewrite Z.mod_mod by lia.
Qed.
Theorem shift_left8_ok k v : 0 <= k < 8 -> Nat.Even (length v) -> byte8 v -> shift_left8 k v = map (shl_spec 8 k) v.
Proof.
  intros Hk He Hv. unfold shift_left8. destruct (Z.eqb_spec k 1) as [->|].
  - apply map_ext. intros x. unfold shl_spec, wrap. f_equal. lia.
  - apply to8_map_pair; [exact He|exact Hv|]. intros; now apply left_pair.
Qed.
Theorem shift_right_u8_ok k v : 0 <= k < 8 -> Nat.Even (length v) -> byte8 v -> shift_right_u8 k v = map (shr_spec k) v.
Proof. intros Hk He Hv. unfold shift_right_u8. apply to8_map_pair; [exact He|exact Hv|]. intros; now apply right_pair. Qed.
Lemma mask_right_small k : 0 <= k < 8 -> wrap 8 (Z.shiftr 0xFF k) = Z.shiftr 0xFF k.
Proof. intros Hk. assert (k = 0 \/ k = 1 \/ k = 2 \/ k = 3 \/ k = 4 \/ k = 5 \/ k = 6 \/ k = 7) as E by lia.
  repeat (destruct E as [->|E]; [reflexivity|]); subst; reflexivity. Qed.
Theorem shift_right_same_u8_ok k v : 0 <= k < 8 -> Nat.Even (length v) -> byte8 v -> shift_right_same_u8 k v = map (shr_spec k) v.
Proof. intros Hk He Hv. unfold shift_right_same_u8. rewrite mask_right_small by exact Hk. now apply shift_right_u8_ok. Qed.

(** exhaustive check over the 256 bytes and 8 counts *)
Definition bytes_counts : list (Z * Z) := flat_map (fun k => map (fun x => (Z.of_nat k, Z.of_nat x)) (seq 0 256)) (seq 0 8).
Lemma for_bytes (P : Z -> Z -> bool) : forallb (fun p => P (fst p) (snd p)) bytes_counts = true -> forall k x, 0 <= k < 8 -> lane 8 x -> P k x = true.
Proof.
  intros H k x Hk Hx. change (2 ^ 8) with 256 in *. unfold lane in Hx. change (2 ^ 8) with 256 in Hx. rewrite forallb_forall in H. apply (H (k, x)). unfold bytes_counts. apply in_flat_map.
  exists (Z.to_nat k). split; [apply in_seq; lia|]. apply in_map_iff. exists (Z.to_nat x). rewrite !Z2Nat.id by lia. split; [reflexivity|apply in_seq; lia].
Qed.
Definition sarb (w k x r : Z) : bool := (0 <=? r) && (r <? 2 ^ w) && (signed w r =? signed w x / 2 ^ k).
Lemma sarb_ok w k x r : sarb w k x r = true -> sar_spec w k x r.
Proof. unfold sarb, sar_spec, lane. rewrite !andb_true_iff, Z.leb_le, Z.ltb_lt, Z.eqb_eq. tauto. Qed.
Lemma i8_fix k x : 0 <= k < 8 -> lane 8 x -> sar_spec 8 k x (wrap 8 (Z.lxor (shr_spec k x) (Z.shiftr 0x80 k) - Z.shiftr 0x80 k)).
Proof. intros Hk Hx. apply sarb_ok. revert k x Hk Hx. apply for_bytes. vm_compute. reflexivity. Qed.
Lemma Forall2_map_r (A B : Type) (R : A -> B -> Prop) (f : A -> B) l : Forall (fun x => R x (f x)) l -> Forall2 R l (map f l).
Proof. induction 1; constructor; auto. Qed.
Theorem shift_right_i8_ok k v : 0 <= k < 8 -> Nat.Even (length v) -> byte8 v -> Forall2 (sar_spec 8 k) v (shift_right_i8 k v).
Proof.
  intros Hk He Hv. unfold shift_right_i8. rewrite shift_right_u8_ok by assumption. rewrite map_map. apply Forall2_map_r.
  eapply Forall_impl; [|exact Hv]. intros x Hx. cbn beta. now apply i8_fix.
Qed.
Lemma sign_small k : 0 <= k < 8 -> wrap 8 (Z.shiftr 0x80 k) = Z.shiftr 0x80 k.
Proof. intros Hk. assert (k = 0 \/ k = 1 \/ k = 2 \/ k = 3 \/ k = 4 \/ k = 5 \/ k = 6 \/ k = 7) as E by lia.
  repeat (destruct E as [->|E]; [reflexivity|]); subst; reflexivity. Qed.
Theorem shift_right_same_i8_ok k v : 0 <= k < 8 -> Nat.Even (length v) -> byte8 v -> Forall2 (sar_spec 8 k) v (shift_right_same_i8 k v).
Proof.
  intros Hk He Hv. unfold shift_right_same_i8. rewrite shift_right_same_u8_ok, sign_small by assumption. rewrite map_map. apply Forall2_map_r.
  eapply Forall_impl; [|exact Hv]. intros x Hx. cbn beta. now apply i8_fix.
Qed.
(** i64 *)
Lemma broadcast64_ok cmp x : lane 64 x -> broadcast_sign64 cmp x = if signed 64 x <? 0 then 2 ^ 64 - 1 else 0.
Proof.
  intros Hx. destruct cmp; unfold broadcast_sign64; [now rewrite swrap_signed|].
  assert (Hh : lane 32 (Z.shiftr x 32)). { unfold lane in *. rewrite Z.shiftr_div_pow2 by lia. split; [apply Z.div_pos; lia|apply Z.div_lt_upper_bound; lia]. }
  destruct (srai_spec 32 31 (Z.shiftr x 32) ltac:(lia) Hh) as [Hl Hs].
  set (s := srai 32 31 (Z.shiftr x 32)) in *. clearbody s.
  assert (E : signed 32 (Z.shiftr x 32) / 2 ^ 31 = if signed 64 x <? 0 then -1 else 0).
  { rewrite Z.shiftr_div_pow2 in * by lia. unfold signed, lane in *. change (2 ^ (64 - 1)) with (2 ^ 31 * 2 ^ 32). change (2 ^ (32 - 1)) with (2 ^ 31).
    pose proof (Z.div_mod x (2 ^ 32) ltac:(lia)) as D. pose proof (Z.mod_pos_bound x (2 ^ 32) ltac:(lia)) as M.
    set (h := x / 2 ^ 32) in *. set (l := x mod 2 ^ 32) in *. clearbody h l.
    destruct (Z.ltb_spec h (2 ^ 31)), (Z.ltb_spec x (2 ^ 31 * 2 ^ 32)); try (exfalso; lia).
    - destruct (Z.ltb_spec x 0); [lia|]. apply Z.div_small. lia.
    - destruct (Z.ltb_spec (x - 2 ^ 64) 0); [|lia]. symmetry. apply Z.div_unique with (h - 2 ^ 32 + 2 ^ 31); lia. }
  rewrite E in Hs. unfold signed at 1 in Hs. unfold lane in Hl.
  destruct (signed 64 x <? 0); destruct (Z.ltb_spec s (2 ^ (32 - 1))); lia.
Qed.
Theorem shift_right_i64_ok cmp k x : 0 <= k < 64 -> lane 64 x -> sar_spec 64 k x (shift_right_i64 cmp k x).
Proof.
  intros Hk Hx. unfold shift_right_i64. rewrite broadcast64_ok by exact Hx. rewrite srli_spec by lia.
  pose proof (srai_spec 64 k x Hk Hx) as [Hl Hs].
  assert (E : Z.lor (shr_spec k x) (slli 64 (64 - k) (if signed 64 x <? 0 then 2 ^ 64 - 1 else 0)) = srai 64 k x).
  { unfold srai. rewrite Z.min_l by lia. rewrite swrap_signed by exact Hx. apply Z.bits_inj'. intros n Hn.
    rewrite Z.lor_spec, tb_shr by lia. rewrite tb_wrap by lia. rewrite Z.shiftr_spec by lia.
    assert (Es : forall m, 0 <= m -> Z.testbit (signed 64 x) m = if m <? 64 then Z.testbit x m else signed 64 x <? 0).
    { intros m Hm. unfold signed. destruct (Z.ltb_spec x (2 ^ (64 - 1))) as [Hp|Hp].
      - destruct (Z.ltb_spec m 64); [reflexivity|]. rewrite (tb_high 64) by (try exact Hx; lia). unfold lane in Hx. symmetry. apply Z.ltb_ge. lia.
      - replace (x - 2 ^ 64) with (x + 2 ^ 64 * -1) by lia. rewrite tb_pair by (try exact Hx; lia). destruct (Z.ltb_spec m 64); [reflexivity|].
        rewrite Z.bits_m1 by lia. symmetry. apply Z.ltb_lt. unfold lane in Hx. lia. }
    destruct (Z.eq_dec k 0) as [->|Hk0].
    - unfold slli. cbn [Z.ltb]. change (64 - 0 <? 64) with false. cbn iota. rewrite Z.testbit_0_l, orb_false_r. rewrite Es by lia. rewrite Z.add_0_r.
      destruct (Z.ltb_spec n 64); [reflexivity|]. rewrite (tb_high 64) by (try exact Hx; lia). reflexivity.
    - rewrite slli_spec by lia. rewrite tb_shl by lia. rewrite Es by lia.
      destruct (signed 64 x <? 0) eqn:Eg.
      + bcase; try lia.
        * apply orb_false_r.
        * rewrite tb_ones by lia. destruct (Z.ltb_spec (n - (64 - k)) 64); [apply orb_true_r|lia].
        * rewrite (tb_high 64) by (try exact Hx; lia). reflexivity.
      + rewrite Z.testbit_0_l, andb_false_r, orb_false_r. bcase; try lia; try reflexivity; rewrite (tb_high 64) by (try exact Hx; lia); reflexivity. }
  rewrite E. split; assumption.
Qed.
(** GFNI *)
Theorem gf_shift_left_ok k x : 0 <= k < 8 -> lane 8 x -> gf_shift_left k x = shl_spec 8 k x.
Proof. intros Hk Hx. apply Z.eqb_eq. revert k x Hk Hx. apply (for_bytes (fun k x => gf_shift_left k x =? shl_spec 8 k x)). vm_compute. reflexivity. Qed.
Theorem gf_shift_right_u8_ok k x : 0 <= k < 8 -> lane 8 x -> gf_shift_right_u8 k x = shr_spec k x.
Proof. intros Hk Hx. apply Z.eqb_eq. revert k x Hk Hx. apply (for_bytes (fun k x => gf_shift_right_u8 k x =? shr_spec k x)). vm_compute. reflexivity. Qed.
Theorem gf_shift_right_i8_ok k x : 0 <= k < 8 -> lane 8 x -> sar_spec 8 k x (gf_shift_right_i8 k x).
Proof. intros Hk Hx. apply sarb_ok. revert k x Hk Hx. apply (for_bytes (fun k x => sarb 8 k x (gf_shift_right_i8 k x))). vm_compute. reflexivity. Qed.
Definition rotb (w k x r : Z) : bool :=
  (0 <=? r) && (r <? 2 ^ w) && forallb (fun i => Bool.eqb (Z.testbit r ((Z.of_nat i + k) mod w)) (Z.testbit x (Z.of_nat i))) (seq 0 (Z.to_nat w)).
Lemma rotb_ok w k x r : 0 < w -> rotb w k x r = true -> rotated_left w k x r.
Proof.
  intros Hw. unfold rotb, rotated_left, lane. rewrite !andb_true_iff, Z.leb_le, Z.ltb_lt, forallb_forall. intros [H1 H2]. split; [exact H1|].
  intros i Hi. specialize (H2 (Z.to_nat i) ltac:(apply in_seq; lia)). rewrite Z2Nat.id in H2 by lia. now apply eqb_prop.
Qed.
Theorem gf_rotate_right_ok k x : 0 <= k < 8 -> lane 8 x -> rotated_left 8 (- k) x (gf_rotate_right k x).
Proof. intros Hk Hx. apply rotb_ok; [lia|]. revert k x Hk Hx. apply (for_bytes (fun k x => rotb 8 (- k) x (gf_rotate_right k x))). vm_compute. reflexivity. Qed.
Definition revb (w x r : Z) : bool :=
  (0 <=? r) && (r <? 2 ^ w) && forallb (fun i => Bool.eqb (Z.testbit r (Z.of_nat i)) (Z.testbit x (w - 1 - Z.of_nat i))) (seq 0 (Z.to_nat w)).
Lemma revb_ok w x r : 0 < w -> revb w x r = true -> bits_reversed w x r.
Proof.
  intros Hw. unfold revb, bits_reversed, lane. rewrite !andb_true_iff, Z.leb_le, Z.ltb_lt, forallb_forall. intros [H1 H2]. split; [exact H1|].
  intros i Hi. specialize (H2 (Z.to_nat i) ltac:(apply in_seq; lia)). rewrite Z2Nat.id in H2 by lia. now apply eqb_prop.
Qed.
Lemma for_bytes1 (P : Z -> bool) : forallb P (map Z.of_nat (seq 0 256)) = true -> forall x, lane 8 x -> P x = true.
Proof.
  intros H x Hx. unfold lane in Hx. change (2 ^ 8) with 256 in Hx. rewrite forallb_forall in H. apply H. apply in_map_iff. exists (Z.to_nat x).
  rewrite Z2Nat.id by lia. split; [reflexivity|apply in_seq; lia].
Qed.
Theorem gf_reverse_bits8_ok x : lane 8 x -> bits_reversed 8 x (gf_reverse_bits8 x).
Proof. intros Hx. apply revb_ok; [lia|]. revert x Hx. apply (for_bytes1 (fun x => revb 8 x (gf_reverse_bits8 x))). vm_compute. reflexivity. Qed.
Theorem gf_broadcast_sign8_ok x : lane 8 x -> gf_broadcast_sign8 x = if signed 8 x <? 0 then 255 else 0.
Proof. intros Hx. apply Z.eqb_eq. revert x Hx. apply (for_bytes1 (fun x => gf_broadcast_sign8 x =? (if signed 8 x <? 0 then 255 else 0))). vm_compute. reflexivity. Qed.

(** rotates *)
Lemma rot_or w k x : 0 < w -> 0 <= k < w -> lane w x -> rotated_left w k x (Z.lor (shl_spec w k x) (shr_spec (if k =? 0 then 0 else w - k) x)).
Proof.
  intros Hw Hk Hx. split.
  - pose proof (lane_shl w k x ltac:(lia)) as L1. pose proof (lane_shr w (if k =? 0 then 0 else w - k) x ltac:(destruct (k =? 0); lia) Hx) as L2.
    unfold lane in *. split; [apply Z.lor_nonneg; lia|].
    destruct (Z.eq_dec (Z.lor (shl_spec w k x) (shr_spec (if k =? 0 then 0 else w - k) x)) 0) as [->|Hz]; [apply Z.pow_pos_nonneg; lia|].
    apply Z.log2_lt_pow2; [pose proof (proj2 (Z.lor_nonneg (shl_spec w k x) (shr_spec (if k =? 0 then 0 else w - k) x)) ltac:(lia)); lia|].
    rewrite Z.log2_lor by lia. apply Z.max_lub_lt.
    + destruct (Z.eq_dec (shl_spec w k x) 0) as [->|]; [cbn; lia|]. apply Z.log2_lt_pow2; lia.
    + destruct (Z.eq_dec (shr_spec (if k =? 0 then 0 else w - k) x) 0) as [->|]; [cbn; lia|]. apply Z.log2_lt_pow2; lia.
  - intros i Hi. assert (Hm : 0 <= (i + k) mod w < w) by (apply Z.mod_pos_bound; lia).
    rewrite Z.lor_spec, tb_shl, tb_shr by (try (destruct (k =? 0)); lia).
    destruct (Z.ltb_spec (i + k) w).
    + rewrite (Z.mod_small (i + k)) by lia. bcase; try lia. replace (i + k - k) with i by lia.
      destruct (Z.eqb_spec k 0) as [->|]; [rewrite !Z.add_0_r; apply orb_diag|]. rewrite (tb_high w x (i + k + (w - k))) by (try exact Hx; lia). apply orb_false_r.
    + replace ((i + k) mod w) with (i + k - w) by (apply Z.mod_unique with 1; lia). bcase; try lia. cbn [orb].
      destruct (Z.eqb_spec k 0) as [->|]; [lia|]. f_equal. lia.
Qed.
Lemma rot_ext w k k' x r : 0 < w -> k mod w = k' mod w -> rotated_left w k x r -> rotated_left w k' x r.
Proof.
  intros Hw E [H1 H2]. split; [exact H1|]. intros i Hi. rewrite <- (H2 i Hi). f_equal.
  rewrite <- (Z.add_mod_idemp_r i k') by lia. rewrite <- E. now rewrite Z.add_mod_idemp_r by lia.
Qed.
Lemma map2_map (A B C : Type) (f : A -> B -> C) g h (l : list Z) : map2 f (map g l) (map h l) = map (fun x => f (g x) (h x)) l.
Proof. unfold map2. induction l; cbn; [reflexivity|]. now rewrite IHl. Qed.
Lemma F2_impl (A B : Type) (R S : A -> B -> Prop) a b : (forall x y, R x y -> S x y) -> Forall2 R a b -> Forall2 S a b.
Proof. intros H. induction 1; constructor; auto. Qed.
Definition shl_op w (shl : Z -> list Z -> list Z) (ok : list Z -> Prop) := forall k v, 0 <= k < w -> ok v -> Forall (lane w) v -> shl k v = map (shl_spec w k) v.
Definition shr_op w (shr : Z -> list Z -> list Z) (ok : list Z -> Prop) := forall k v, 0 <= k < w -> ok v -> Forall (lane w) v -> shr k v = map (shr_spec k) v.
Theorem rotate_right_ok w shr shl ok k v : 0 < w -> shl_op w shl ok -> shr_op w shr ok -> 0 <= k < w -> ok v -> Forall (lane w) v ->
  Forall2 (rotated_left w (- k)) v (rotate_right w shr shl k v).
Proof.
  intros Hw Hl Hr Hk Ho Hv. unfold rotate_right. destruct (Z.eqb_spec k 0) as [->|Hk0].
  - rewrite <- (map_id v) at 2. apply Forall2_map_r. eapply Forall_impl; [|exact Hv]. intros x Hx. split; [exact Hx|]. intros i Hi. f_equal. rewrite Z.add_0_r. now apply Z.mod_small.
  - rewrite Z.min_r by lia. rewrite Hr, Hl by (assumption || lia). unfold vor. rewrite map2_map. apply Forall2_map_r.
    eapply Forall_impl; [|exact Hv]. intros x Hx. cbn beta. rewrite Z.lor_comm.
    pose proof (rot_or w (w - k) x Hw ltac:(lia) Hx) as R. destruct (Z.eqb_spec (w - k) 0); [lia|]. replace (w - (w - k)) with k in R by lia.
    eapply rot_ext; [exact Hw| |exact R]. replace (w - k) with (- k + 1 * w) by lia. apply Z.mod_add. lia.
Qed.
Theorem rotate_left_ok w shr shl ok k v : 0 < w -> shl_op w shl ok -> shr_op w shr ok -> 0 <= k < w -> ok v -> Forall (lane w) v ->
  Forall2 (rotated_left w k) v (rotate_left w shr shl k v).
Proof.
  intros Hw Hl Hr Hk Ho Hv. unfold rotate_left.
  pose proof (rotate_right_ok w shr shl ok (if k =? 0 then 0 else w - k) v Hw Hl Hr ltac:(destruct (Z.eqb_spec k 0); lia) Ho Hv) as H.
  eapply F2_impl; [|exact H]. intros x y Hxy.
    eapply rot_ext; [exact Hw| |exact Hxy]. destruct (Z.eqb_spec k 0) as [->|]; [reflexivity|]. replace (- (w - k)) with (k + (-1) * w) by lia. apply Z.mod_add. lia.
Qed.
(** the low bits of a count *)
Lemma land_width w x : width w -> Z.land x (w - 1) = x mod w.
Proof.
  intros H. assert (exists p, 0 <= p /\ w = 2 ^ p) as [p [Hp ->]].
  { destruct H as [->|[->|[->| ->]]]; [exists 3|exists 4|exists 5|exists 6]; now split. }
  replace (2 ^ p - 1) with (Z.ones p) by (rewrite Z.ones_equiv; lia). now apply Z.land_ones.
Qed.
Lemma width_pos w : width w -> 0 < w. Proof. unfold width. lia. Qed.
Lemma width_divides w n : width w -> w <= n -> (w | 2 ^ n).
Proof.
  intros H Hn. assert (exists p, 0 <= p <= w /\ w = 2 ^ p) as [p [Hp E]].
  { destruct H as [->|[->|[->| ->]]]; [exists 3|exists 4|exists 5|exists 6]; split; reflexivity || lia. }
  rewrite E. exists (2 ^ (n - p)). rewrite <- Z.pow_add_r by lia. f_equal. lia.
Qed.
Lemma wrap_mod w n x : width w -> w <= n -> wrap n x mod w = x mod w.
Proof.
  intros H Hn. unfold wrap. destruct (width_divides w n H Hn) as [q E]. pose proof (width_pos w H). rewrite (Z.mul_comm q w) in E.
  assert (0 < 2 ^ n) by (apply Z.pow_pos_nonneg; lia). symmetry. rewrite (Z.div_mod x (2 ^ n)) at 1 by lia. rewrite E at 1.
  rewrite <- Z.mul_assoc, Z.add_comm, Z.mul_comm, Z.mod_add by lia. reflexivity.
Qed.
Lemma swrap_mod w n x : width w -> w <= n -> swrap n x mod w = x mod w.
Proof.
  intros H Hn. unfold swrap. rewrite <- (wrap_mod w n x H Hn). unfold wrap. destruct (_ <? _); [reflexivity|].
  destruct (width_divides w n H Hn) as [q E]. pose proof (width_pos w H). rewrite E at 2.
  replace (x mod 2 ^ n - q * w) with (x mod 2 ^ n + (- q) * w) by lia. apply Z.mod_add. lia.
Qed.
Definition vshl_op w (shl : list Z -> list Z -> list Z) (ok : list Z -> Prop) :=
  forall v b, ok v -> length b = length v -> Forall (lane w) v -> Forall (fun k => 0 <= k < w) b -> shl v b = map2 (fun x k => shl_spec w k x) v b.
Definition vshr_op w (shr : list Z -> list Z -> list Z) (ok : list Z -> Prop) :=
  forall v b, ok v -> length b = length v -> Forall (lane w) v -> Forall (fun k => 0 <= k < w) b -> shr v b = map2 (fun x k => shr_spec k x) v b.
Lemma vor_map2 (f g : Z -> Z -> Z) (p q : Z -> Z) a b : length a = length b ->
  vor (map2 f a (map p b)) (map2 g a (map q b)) = map2 (fun x k => Z.lor (f x (p k)) (g x (q k))) a b.
Proof. unfold vor, map2. revert b. induction a; intros [|y b] H; cbn in *; try lia; [reflexivity|]. rewrite IHa by lia. reflexivity. Qed.
Lemma Forall3_map2 (R : Z -> Z -> Z -> Prop) (f : Z -> Z -> Z) a b : length a = length b -> (forall x k, In x a -> In k b -> R x k (f x k)) -> Forall3 R a b (map2 f a b).
Proof. unfold map2. revert b. induction a; intros [|y b] H Hf; cbn in *; try lia; try exact I. split; [apply Hf; now left|]. apply IHa; [lia|]. intros; apply Hf; now right. Qed.
Lemma rot_counts w k x : width w -> lane w x -> rotated_left w k x (Z.lor (shl_spec w (k mod w) x) (shr_spec ((- k) mod w) x)).
Proof.
  intros H Hx. pose proof (width_pos w H) as Hw. pose proof (Z.mod_pos_bound k w Hw) as Hb.
  pose proof (rot_or w (k mod w) x Hw Hb Hx) as R.
  replace (if k mod w =? 0 then 0 else w - k mod w) with ((- k) mod w) in R.
  - eapply rot_ext; [exact Hw| |exact R]. apply Z.mod_mod. lia.
  - destruct (Z.eqb_spec (k mod w) 0) as [E|E]; [apply Z.mod_opp_l_z; [lia|exact E]|apply Z.mod_opp_l_nz; [lia|exact E]].
Qed.
Theorem rol_ok w shl shr ok a b : width w -> vshl_op w shl ok -> vshr_op w shr ok -> ok a -> length b = length a -> Forall (lane w) a -> Forall (lane w) b ->
  Forall3 (fun x k r => rotated_left w k x r) a b (rol w shl shr a b).
Proof.
  intros Hwd Hl Hr Ho Hlen Ha Hb. unfold rol. pose proof (width_pos w Hwd) as Hw.
  assert (Hin : forall f : Z -> Z, Forall (fun k => 0 <= k < w) (vand1 (w - 1) (map f b))).
  { intros f. unfold vand1. apply Forall_map, Forall_forall. intros x _. rewrite land_width by exact Hwd. apply Z.mod_pos_bound. lia. }
  rewrite Hl, Hr; try assumption; try (unfold vand1; now rewrite !map_length); try (apply Hin).
  - unfold vand1. rewrite map_map. rewrite vor_map2 by lia. apply Forall3_map2; [lia|]. intros x k Hx Hk.
    rewrite !land_width by exact Hwd. rewrite Forall_forall in Ha. specialize (Ha x Hx).
    rewrite wrap_mod by (try exact Hwd; lia).
    replace ((- swrap w k) mod w) with ((- k) mod w); [now apply rot_counts|].
    assert (M : swrap w k mod w = k mod w) by (apply swrap_mod; [exact Hwd|lia]).
    rewrite <- (Z.sub_0_l k), <- (Z.sub_0_l (swrap w k)). rewrite (Zminus_mod 0 k), (Zminus_mod 0 (swrap w k)). now rewrite M.
  - rewrite <- (map_id b). apply Hin.
Qed.
Theorem ror_ok w shl shr ok a b : width w -> vshl_op w shl ok -> vshr_op w shr ok -> ok a -> length b = length a -> Forall (lane w) a -> Forall (lane w) b ->
  Forall3 (fun x k r => rotated_left w (- k) x r) a b (ror w shl shr a b).
Proof.
  intros Hwd Hl Hr Ho Hlen Ha Hb. unfold ror. pose proof (width_pos w Hwd) as Hw.
  assert (Hin : forall f : Z -> Z, Forall (fun k => 0 <= k < w) (vand1 (w - 1) (map f b))).
  { intros f. unfold vand1. apply Forall_map, Forall_forall. intros x _. rewrite land_width by exact Hwd. apply Z.mod_pos_bound. lia. }
  rewrite Hl, Hr; try assumption; try (unfold vand1; now rewrite !map_length); try (apply Hin).
  - unfold vand1. rewrite map_map. rewrite vor_map2 by lia. apply Forall3_map2; [lia|]. intros x k Hx Hk.
    rewrite !land_width by exact Hwd. rewrite Forall_forall in Ha. specialize (Ha x Hx).
    rewrite wrap_mod by (try exact Hwd; lia).
    replace ((- swrap w k) mod w) with ((- k) mod w).
    + pose proof (rot_counts w (- k) x Hwd Ha) as R. now rewrite Z.opp_involutive in R.
    + assert (M : swrap w k mod w = k mod w) by (apply swrap_mod; [exact Hwd|lia]).
      rewrite <- (Z.sub_0_l k), <- (Z.sub_0_l (swrap w k)). rewrite (Zminus_mod 0 k), (Zminus_mod 0 (swrap w k)). now rewrite M.
  - rewrite <- (map_id b). apply Hin.
Qed.
Lemma neg_count w bits : width w -> swrap 32 (Z.land (wrap 32 (0 - wrap 32 bits)) (w - 1)) = (- bits) mod w.
Proof.
  intros Hwd. pose proof (width_pos w Hwd) as Hw. rewrite land_width by exact Hwd. unfold swrap.
  assert (Hw64 : w <= 64) by (unfold width in Hwd; lia).
  assert (E : wrap 32 (0 - wrap 32 bits) mod w = (- bits) mod w).
  { unfold width in Hwd. destruct Hwd as [->|[->|[->| ->]]].
    1-3: rewrite wrap_mod by (unfold width; lia); rewrite Zminus_mod, wrap_mod by (unfold width; lia); rewrite <- Zminus_mod; reflexivity.
    unfold wrap. change (2 ^ 32) with (67108864 * 64). 
    assert (G : forall z, (z mod (67108864 * 64)) mod 64 = z mod 64).
    { intros z. rewrite (Z.div_mod z (67108864 * 64)) at 2 by lia. rewrite <- (Z.mod_add (z mod (67108864 * 64)) (67108864 * (z / (67108864 * 64))) 64) by lia. f_equal. lia. }
    rewrite G, Zminus_mod, G, <- Zminus_mod. reflexivity. }
  rewrite E. pose proof (Z.mod_pos_bound (- bits) w Hw). rewrite Z.mod_small by lia. destruct (Z.ltb_spec ((- bits) mod w) (2 ^ (32 - 1))); [reflexivity|].
  change (2 ^ (32 - 1)) with 2147483648 in *. lia.
Qed.
Theorem rotate_left_same_ok w shl shr ok v bits : width w -> shl_op w shl ok -> shr_op w shr ok -> ok v -> Forall (lane w) v ->
  Forall2 (rotated_left w bits) v (rotate_left_same w shl shr v bits).
Proof.
  intros Hwd Hl Hr Ho Hv. unfold rotate_left_same. pose proof (width_pos w Hwd) as Hw. rewrite neg_count, land_width by exact Hwd.
  rewrite Hl, Hr by (try assumption; apply Z.mod_pos_bound; lia). unfold vor. rewrite map2_map. apply Forall2_map_r.
  eapply Forall_impl; [|exact Hv]. intros x Hx. cbn beta. now apply rot_counts.
Qed.
Theorem rotate_right_same_ok w shl shr ok v bits : width w -> shl_op w shl ok -> shr_op w shr ok -> ok v -> Forall (lane w) v ->
  Forall2 (rotated_left w (- bits)) v (rotate_right_same w shl shr v bits).
Proof.
  intros Hwd Hl Hr Ho Hv. unfold rotate_right_same. pose proof (width_pos w Hwd) as Hw. rewrite neg_count, land_width by exact Hwd.
  rewrite Hl, Hr by (try assumption; apply Z.mod_pos_bound; lia). unfold vor. rewrite map2_map. apply Forall2_map_r.
  eapply Forall_impl; [|exact Hv]. intros x Hx. cbn beta. pose proof (rot_counts w (- bits) x Hwd Hx) as R. now rewrite Z.opp_involutive in R.
Qed.
