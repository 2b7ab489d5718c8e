(** Compress and Expand by byte shuffles: proofs. *)
From Coq Require Import ZArith List Arith Bool Lia Permutation.
From Verif Require Import Word Compress_Tables Compress_Spec Compress_Model Compress_Bits Compress_Proofs.
Import ListNotations.
Open Scope Z_scope.
Section V.
Context {B : Type} (b0 : B) (junk : Z -> B).
Notation look := (look b0 junk).
Lemma look_in v i : (i < length v)%nat -> look v (Z.of_nat i) = nth i v b0.
Proof. intros H. unfold Compress_Model.look. rewrite Nat2Z.id. destruct (Z.leb_spec 0 (Z.of_nat i)), (Z.ltb_spec (Z.of_nat i) (Z.of_nat (length v))); try lia. reflexivity. Qed.
Lemma firstn_nth (l : list B) n : (n <= length l)%nat -> firstn n l = map (fun j => nth j l b0) (seq 0 n).
Proof.
  revert l. induction n as [|n IH]; intros [|x l] H; cbn in H; try lia; try reflexivity. cbn [firstn seq map nth]. f_equal. rewrite IH by lia. rewrite <- seq_shift, map_map. reflexivity.
Qed.
Lemma nth_skipn (l : list B) k j : nth j (skipn k l) b0 = nth (k + j) l b0.
Proof. revert l; induction k as [|k IH]; intros [|x l]; cbn; auto. destruct j; reflexivity. Qed.
Lemma lane_nth sz i v : (i * sz + sz <= length v)%nat -> lane sz i v = map (fun j => nth (i * sz + j) v b0) (seq 0 sz).
Proof. intros H. unfold lane. rewrite firstn_nth by (rewrite skipn_length; lia). apply map_ext. intros j. apply nth_skipn. Qed.
Lemma lookup_lanes sz n v l : length v = (n * sz)%nat -> (forall i, In i l -> (i < n)%nat) -> table_lookup_bytes b0 junk v (byte_indices sz l) = concat (map (fun i => lane sz i v) l).
Proof.
  intros Hv. induction l as [|i l IH]; intros Hl; [reflexivity|]. unfold byte_indices. cbn [flat_map map concat]. fold (byte_indices sz l). unfold table_lookup_bytes in *. rewrite map_app, IH by (intros j Hj; apply Hl; right; exact Hj). f_equal.
  pose proof (Hl i (or_introl eq_refl)) as Hi. rewrite lane_nth by nia. rewrite map_map. apply map_ext_in. intros j Hj. apply in_seq in Hj. apply look_in. nia.
Qed.
Lemma lanes_concat sz (ls : list (list B)) : (forall l, In l ls -> length l = sz) -> to_lanes sz (length ls) (concat ls) = ls.
Proof.
  intros H. unfold to_lanes. induction ls as [|l ls IH]; [reflexivity|]. cbn [length seq map concat]. pose proof (H l (or_introl eq_refl)) as Hl. f_equal.
  - unfold lane. cbn [Nat.mul skipn]. rewrite firstn_app, Hl, Nat.sub_diag, <- Hl, firstn_all. apply app_nil_r.
  - rewrite <- seq_shift, map_map. etransitivity; [|apply IH; intros l' Hl'; apply H; right; exact Hl']. apply map_ext. intros i. unfold lane. f_equal.
    rewrite skipn_app, Hl, skipn_all2 by nia. replace (S i * sz - sz)%nat with (i * sz)%nat by lia. reflexivity.
Qed.
Lemma concat_length sz (ls : list (list B)) : (forall l, In l ls -> length l = sz) -> length (concat ls) = (length ls * sz)%nat.
Proof. induction ls as [|l ls IH]; intros H; [reflexivity|]. cbn [concat length]. rewrite app_length, IH by (intros l' Hl'; apply H; right; exact Hl'). rewrite (H l (or_introl eq_refl)). lia. Qed.
Lemma in_partitioned m n i : length m = n -> In i (partitioned m (seq 0 n)) -> (i < n)%nat.
Proof. intros Hm Hi. assert (In i (seq 0 n)) as H. { eapply Permutation_in; [apply partitioned_perm; rewrite seq_length; exact Hm|exact Hi]. } apply in_seq in H. lia. Qed.
Lemma shuffle_ok sz n m v idx : length v = (n * sz)%nat -> length m = n -> idx = byte_indices sz (partitioned m (seq 0 n)) ->
  to_lanes sz n (table_lookup_bytes b0 junk v idx) = partitioned m (to_lanes sz n v) /\ length (table_lookup_bytes b0 junk v idx) = (n * sz)%nat.
Proof.
  intros Hv Hm ->. rewrite (lookup_lanes sz n) by (auto; intros i; apply in_partitioned, Hm). rewrite <- partitioned_map. fold (to_lanes sz n v).
  assert (L : length (partitioned m (to_lanes sz n v)) = n) by (rewrite partitioned_length; unfold to_lanes; rewrite map_length, seq_length; auto).
  assert (E : forall l, In l (partitioned m (to_lanes sz n v)) -> length l = sz).
  { intros l Hl. assert (In l (to_lanes sz n v)) as Hl' by (eapply Permutation_in; [apply (partitioned_perm m); unfold to_lanes; rewrite (map_length _ (seq 0 n)), seq_length; exact Hm|exact Hl]).
    unfold to_lanes in Hl'. apply in_map_iff in Hl'. destruct Hl' as (i & <- & Hi). apply in_seq in Hi. rewrite lane_nth by nia. rewrite map_length, seq_length. reflexivity. }
  split; [rewrite <- L at 1; apply lanes_concat, E|rewrite (concat_length sz), L by exact E; reflexivity].
Qed.
Lemma to_lanes_length sz n (v : list B) : length (to_lanes sz n v) = n. Proof. unfold to_lanes. rewrite map_length, seq_length. reflexivity. Qed.
Lemma x86_compress_ok sz n m v : lane_config sz n -> length m = n -> length v = (n * sz)%nat ->
  to_lanes sz n (x86_compress b0 junk sz n m v) = partitioned m (to_lanes sz n v) /\ length (x86_compress b0 junk sz n m v) = (n * sz)%nat.
Proof. intros Hc Hm Hv. apply shuffle_ok; auto. apply indices_ok; auto. Qed.
Lemma lane_config_not sz n : lane_config sz n -> (n <? 16 / sz)%nat = false -> (sz <> 8)%nat -> full_config sz n.
Proof. unfold lane_config, full_config. cbn [In]. intros H. repeat match goal with H : _ \/ _ |- _ => destruct H as [H|H] end; try contradiction; injection H as <- <-; cbn; intros; try discriminate; try lia; tauto. Qed.
Lemma x86_compress_not_ok sz n m v : lane_config sz n -> (sz <> 8)%nat -> length m = n -> length v = (n * sz)%nat ->
  to_lanes sz n (x86_compress_not b0 junk sz n m v) = partitioned (map negb m) (to_lanes sz n v) /\ length (x86_compress_not b0 junk sz n m v) = (n * sz)%nat.
Proof.
  intros Hc H8 Hm Hv. unfold x86_compress_not. destruct (n <? 16 / sz)%nat eqn:E.
  - apply shuffle_ok; [exact Hv|rewrite map_length; exact Hm|]. apply indices_ok; [exact Hc|rewrite map_length; exact Hm].
  - apply shuffle_ok; [exact Hv|rewrite map_length; exact Hm|]. apply not_indices_ok; [apply lane_config_not; assumption|exact Hm].
Qed.
Lemma lane_config_bits sz n : lane_config sz n -> (n < 8 \/ n = 8 * (n / 8))%nat /\ (n <= 8)%nat.
Proof. unfold lane_config. cbn [In]. intros H. repeat match goal with H : _ \/ _ |- _ => destruct H as [H|H] end; try contradiction; injection H as <- <-; cbn; lia. Qed.
Lemma x86_bits_ok sz n v bits : lane_config sz n -> bytes_ok bits -> length v = (n * sz)%nat ->
  to_lanes sz n (x86_compress_bits_ptr b0 junk sz n v bits) = partitioned (mask_of n bits) (to_lanes sz n v) /\ length (x86_compress_bits_ptr b0 junk sz n v bits) = (n * sz)%nat.
Proof.
  intros Hc Hb Hv. unfold x86_compress_bits_ptr. rewrite copy_mask_bits_ok by (auto; apply (lane_config_bits _ _ Hc)). apply shuffle_ok; [exact Hv|apply mask_of_length|]. apply indices_ok; [exact Hc|apply mask_of_length].
Qed.
(** stores *)
Lemma x86_store_lanes_ok sz n m v buf : lane_config sz n -> length m = n -> length v = (n * sz)%nat -> (n <= length buf)%nat ->
  exists buf', storeu buf O (split sz n (x86_compress_bits b0 junk sz n v (bits_from_mask m))) = Some buf' /\ compress_stored n m (to_lanes sz n v) buf buf' (count m).
Proof.
  intros Hc Hm Hv Hb. destruct (x86_compress_ok sz n m v Hc Hm Hv) as [E _]. unfold x86_compress in E. change (split sz n) with (@to_lanes B sz n). rewrite E.
  assert (L : length m = length (to_lanes sz n v)) by (rewrite to_lanes_length; exact Hm). pose proof (partitioned_length m _ L) as Lp. rewrite to_lanes_length in Lp. pose proof (count_le m).
  apply compress_stored_intro; [exact L|lia|apply firstn_partitioned, L|exact Lp|exact Hb].
Qed.
Lemma x86_compress_store_ok sz n m v buf : lane_config sz n -> length m = n -> length v = (n * sz)%nat -> (n <= length buf)%nat ->
  exists buf' cnt, x86_compress_store b0 junk sz n m v buf = Some (buf', cnt) /\ compress_stored n m (to_lanes sz n v) buf buf' cnt.
Proof.
  intros Hc Hm Hv Hb. pose proof (proj2 (lane_config_bits _ _ Hc)). destruct (x86_store_lanes_ok sz n m v buf Hc Hm Hv Hb) as (buf' & E & S). unfold x86_compress_store. rewrite E, popcount_bfm by lia. eexists _, _. split; [reflexivity|exact S].
Qed.
Lemma x86_bits_store_ok sz n bits v buf : lane_config sz n -> bytes_ok bits -> length v = (n * sz)%nat -> (n <= length buf)%nat ->
  exists buf' cnt, x86_compress_bits_store b0 junk sz n v bits buf = Some (buf', cnt) /\ compress_stored n (mask_of n bits) (to_lanes sz n v) buf buf' cnt.
Proof.
  intros Hc Hbi Hv Hb. pose proof (lane_config_bits _ _ Hc) as [H1 H2]. unfold x86_compress_bits_store. rewrite copy_mask_bits_ok by assumption.
  destruct (x86_store_lanes_ok sz n (mask_of n bits) v buf Hc (mask_of_length _ _) Hv Hb) as (buf' & E & S). rewrite E, popcount_bfm by (rewrite mask_of_length; lia). eexists _, _. split; [reflexivity|exact S].
Qed.
Lemma x86_blended_store_ok sz n m v buf : lane_config sz n -> length m = n -> length v = (n * sz)%nat -> (count m <= length buf)%nat ->
  exists buf' cnt, x86_compress_blended_store b0 junk sz n m v buf = Some (buf', cnt) /\ compress_stored (count m) m (to_lanes sz n v) buf buf' cnt.
Proof.
  intros Hc Hm Hv Hb. pose proof (proj2 (lane_config_bits _ _ Hc)). unfold x86_compress_blended_store. destruct (x86_compress_ok sz n m v Hc Hm Hv) as [E _]. unfold x86_compress in E. change (split sz n) with (@to_lanes B sz n). rewrite E.
  assert (L : length m = length (to_lanes sz n v)) by (rewrite to_lanes_length; exact Hm). pose proof (partitioned_length m _ L) as Lp. rewrite to_lanes_length in Lp. pose proof (count_le m). rewrite popcount_bfm by lia.
  destruct (blended_ok m (to_lanes sz n v) buf (partitioned m (to_lanes sz n v))) as (buf' & E2 & S); [exact L|lia|apply firstn_partitioned, L|exact Hb|]. rewrite E2. eexists _, _. split; [reflexivity|exact S].
Qed.
(** bytes *)
Lemma block8 d8 m v : In d8 [1; 2; 4; 8]%nat -> length m = d8 -> length v = d8 -> table_lookup_bytes b0 junk v (load d8 table_compress8 (bits_from_mask m * 8)) = partitioned m v.
Proof.
  intros Hd Hm Hv. rewrite table8_ok by assumption. unfold table_lookup_bytes. rewrite map_map.
  rewrite (map_ext_in _ (fun i => nth i v b0)). 2:{ intros i Hi. apply look_in. rewrite Hv. eapply in_partitioned; [exact Hm|exact Hi]. }
  rewrite <- partitioned_map. f_equal. rewrite <- firstn_nth by lia. rewrite <- Hv. apply firstn_all.
Qed.
Lemma byte_lanes_cases n : byte_lanes n -> In n [1; 2; 4; 8]%nat \/ n = 16%nat. Proof. unfold byte_lanes. cbn. lia. Qed.
Lemma gen_bits_store8_ok n m v bits buf : byte_lanes n -> length m = n -> length v = n -> (n <= length buf)%nat -> bytes_ok bits -> (forall i, bit_at (firstn (num_bytes n) bits) i = nth i m false) ->
  exists buf' cnt, gen_compress_bits_store8 b0 junk n v bits buf = Some (buf', cnt) /\ compress_stored n m v buf buf' cnt.
Proof.
  intros Hn Hm Hv Hb Hbi Hbits. pose proof (bits_byte m (firstn (num_bytes n) bits)) as Hbyte. specialize (fun k => Hbyte k (bytes_firstn _ _ Hbi) Hbits). unfold gen_compress_bits_store8.
  assert (NF : forall k j, (j < k)%nat -> nth j (firstn k bits) 0 = nth j bits 0). { clear. intros k j; revert k bits; induction j as [|j IH]; intros [|k] [|b bs] H; cbn; try lia; try reflexivity. apply IH. lia. }
  destruct (byte_lanes_cases n Hn) as [H8|H16].
  - assert (E1 : num_bytes n = 1%nat) by (unfold num_bytes; cbn [In] in H8; repeat destruct H8 as [<-|H8]; try reflexivity; contradiction). rewrite E1 in *. cbn [gen_blocks8]. change (0 / 8)%nat with O. cbn [skipn].
    assert (Hle : (n <= 8)%nat) by (cbn [In] in H8; lia). rewrite Nat.min_l by exact Hle. rewrite <- NF with (k := 1%nat) by lia. rewrite (Hbyte O). cbn [Nat.mul skipn]. rewrite (firstn_all2 m) by lia. rewrite (firstn_all2 v) by lia.
    rewrite block8 by assumption. assert (L : length m = length v) by lia. pose proof (count_le m). pose proof (partitioned_length m v L).
    destruct (compress_stored_intro n m v buf (partitioned m v)) as (buf' & E & S); [exact L|lia|apply firstn_partitioned, L|lia|exact Hb|]. rewrite E, popcount_bfm by lia. cbn [Nat.add]. eexists _, _. split; [reflexivity|exact S].
  - rewrite H16 in *. clear n H16. change (num_bytes 16) with 2%nat in *. cbn [gen_blocks8]. change (0 / 8)%nat with O. change ((0 + 8) / 8)%nat with 1%nat. change (Nat.min 16 8) with 8%nat. change (skipn 0 v) with v. change (0 + 8)%nat with 8%nat.
    rewrite <- (NF 2%nat 0%nat), <- (NF 2%nat 1%nat) by lia. rewrite (Hbyte O), (Hbyte 1%nat). change (8 * 0)%nat with O. change (skipn 0 m) with m. change (8 * 1)%nat with 8%nat.
    set (m1 := firstn 8 m). set (v1 := firstn 8 v). set (v2 := firstn 8 (skipn 8 v)). set (m2 := firstn 8 (skipn 8 m)).
    assert (Em : m = m1 ++ m2). { unfold m1, m2. rewrite (firstn_all2 (skipn _ m)) by (rewrite skipn_length; lia). symmetry. apply firstn_skipn. }
    assert (Ev : v = v1 ++ v2). { unfold v1, v2. rewrite (firstn_all2 (skipn _ v)) by (rewrite skipn_length; lia). symmetry. apply firstn_skipn. }
    assert (L1 : length m1 = 8%nat) by (unfold m1; rewrite firstn_length; lia). assert (L2 : length m2 = 8%nat) by (unfold m2; rewrite firstn_length, skipn_length; lia).
    assert (K1 : length v1 = 8%nat) by (unfold v1; rewrite firstn_length; lia). assert (K2 : length v2 = 8%nat) by (unfold v2; rewrite firstn_length, skipn_length; lia).
    clearbody m1 m2 v1 v2. subst m v. clear Hm Hv Hbits Hbyte NF Hn.
    rewrite !block8 by (auto; cbn; tauto). rewrite !popcount_bfm by lia. pose proof (count_le m1) as C1. pose proof (count_le m2) as C2.
    pose proof (partitioned_length m1 v1 ltac:(lia)) as P1. pose proof (partitioned_length m2 v2 ltac:(lia)) as P2.
    rewrite storeu_ok by lia. rewrite P1, K1. change (firstn 0 buf) with (@nil B). change (0 + 8)%nat with 8%nat. cbn [app]. rewrite Nat.add_0_l.
    set (buf1 := partitioned m1 v1 ++ skipn 8 buf). assert (Lb : length buf1 = length buf) by (unfold buf1; rewrite app_length, skipn_length; lia).
    rewrite storeu_ok by lia. rewrite P2, K2. eexists _, _. split; [reflexivity|].
    assert (F : firstn (count m1) buf1 = select m1 v1). { unfold buf1. rewrite firstn_app. replace (count m1 - length (partitioned m1 v1))%nat with O by lia. cbn [firstn]. rewrite app_nil_r. apply firstn_partitioned. lia. }
    assert (LF : length (select m1 v1) = count m1) by (apply select_length; lia). rewrite F. split; [symmetry; apply count_app|]. split; [|split].
    + rewrite !app_length, LF, P2, K2, skipn_length. lia.
    + rewrite app_assoc, firstn_app, (select_app m1 m2) by lia.
      replace (count m1 + count m2 - length (select m1 v1 ++ partitioned m2 v2))%nat with O by (rewrite app_length; lia). cbn [firstn]. rewrite app_nil_r, firstn_app, LF, firstn_all2 by lia. f_equal.
      replace (count m1 + count m2 - count m1)%nat with (count m2) by lia. apply firstn_partitioned. lia.
    + rewrite !skipn_app, LF, P2, K2. rewrite (skipn_all2 (select m1 v1)) by lia. rewrite (skipn_all2 (partitioned m2 v2)) by lia. cbn [app]. rewrite skipn_add. replace (count m1 + 8 + (16 - count m1 - 8))%nat with 16%nat by lia.
      unfold buf1. rewrite skipn_app, P1, K1, skipn_all2 by lia. cbn [app]. rewrite skipn_add. reflexivity.
Qed.
Lemma gen_store8_ok n smb m v buf : byte_lanes n -> (smb = emu_store_mask_bits \/ smb = x86_store_mask_bits) -> length m = n -> length v = n -> (n <= length buf)%nat ->
  exists buf' cnt, gen_compress_store8 b0 junk n smb m v buf = Some (buf', cnt) /\ compress_stored n m v buf buf' cnt.
Proof.
  intros Hn Hs Hm Hv Hb. assert (S : stored_bits m (smb m)). { destruct Hs as [-> | ->]; [apply emu_store_ok; rewrite Hm; unfold byte_lanes in Hn; cbn in Hn; lia|apply x86_store_ok]. }
  destruct S as (S1 & S2 & S3). apply gen_bits_store8_ok; auto. rewrite firstn_all2 by (rewrite S1, Hm; unfold num_bytes; lia). exact S3.
Qed.
(** bytes Compress, Expand *)
Lemma gen_compress8_ok n smb fresh m v : byte_lanes n -> (smb = emu_store_mask_bits \/ smb = x86_store_mask_bits) -> length m = n -> length v = n -> length fresh = n ->
  exists r, gen_compress8 b0 junk n smb fresh m v = Some r /\ length r = n /\ firstn (count m) r = select m v.
Proof.
  intros Hn Hs Hm Hv Hf. destruct (gen_store8_ok n smb m v fresh Hn Hs Hm Hv ltac:(lia)) as (r & cnt & E & S). unfold gen_compress8. rewrite E. exists r. destruct S as (-> & L & F & _). split; [reflexivity|]. split; [lia|exact F].
Qed.
Lemma gen_blended8_ok n smb fresh m v buf : byte_lanes n -> (smb = emu_store_mask_bits \/ smb = x86_store_mask_bits) -> length m = n -> length v = n -> length fresh = n -> (count m <= length buf)%nat ->
  exists buf' cnt, gen_compress_blended_store8 b0 junk n smb fresh m v buf = Some (buf', cnt) /\ compress_stored (count m) m v buf buf' cnt.
Proof.
  intros Hn Hs Hm Hv Hf Hb. destruct (gen_store8_ok n smb m v fresh Hn Hs Hm Hv ltac:(lia)) as (r & cnt & E & S). unfold gen_compress_blended_store8. rewrite E. destruct S as (-> & L & F & _). pose proof (count_le m).
  destruct (blended_ok m v buf r ltac:(lia) ltac:(lia) F Hb) as (buf' & E2 & S2). rewrite E2. eexists _, _. split; [reflexivity|exact S2].
Qed.
Lemma or0 v i : (i < length v)%nat -> (i < 128)%nat -> (if 128 <=? Z.of_nat i then b0 else look v (Z.of_nat i)) = nth i v b0.
Proof. intros H H2. destruct (Z.leb_spec 128 (Z.of_nat i)); [lia|]. apply look_in, H. Qed.
Lemma count_firstn_le m i : (count (firstn i m) <= i)%nat. Proof. pose proof (count_le (firstn i m)). rewrite firstn_length in H. lia. Qed.
Lemma expand_lookup m v : (length m <= 8)%nat -> length v = length m -> is_expand b0 m v (table_lookup_bytes_or0 b0 junk v (expand_idx m)).
Proof.
  intros Hm Hv. apply expanded_ok. unfold table_lookup_bytes_or0, expand_idx, expanded. rewrite map_map. apply map_ext_in. intros i Hi. apply in_seq in Hi. pose proof (count_firstn_le m i).
  destruct (nth i m false); [apply or0; lia|reflexivity].
Qed.
Lemma gen_expand8_half_ok n m v : In n [1; 2; 4; 8]%nat -> length m = n -> length v = n -> is_expand b0 m v (gen_expand8_half b0 junk n m v).
Proof. intros Hn Hm Hv. unfold gen_expand8_half. rewrite expand8_idx by assumption. apply expand_lookup; cbn [In] in Hn; lia. Qed.
Lemma load_iota c j : (c <= 8)%nat -> (j < 8)%nat -> nth j (load 16 iota32 (Z.of_nat c)) 0 = Z.of_nat (c + j) /\ (j < length (load 16 iota32 (Z.of_nat c)))%nat.
Proof. intros Hc Hj. do 9 (destruct c as [|c]; [do 8 (destruct j as [|j]; [split; [reflexivity|apply Nat.ltb_lt; reflexivity]|]); lia|]). lia. Qed.
Lemma gen_expand8_full_ok m v : length m = 16%nat -> length v = 16%nat -> is_expand b0 m v (gen_expand8_full b0 junk m v).
Proof.
  intros Hm Hv. unfold gen_expand8_full. set (m1 := firstn 8 m). set (m2 := skipn 8 m). assert (Em : m = m1 ++ m2) by (symmetry; apply firstn_skipn).
  assert (L1 : length m1 = 8%nat) by (unfold m1; rewrite firstn_length; lia). assert (L2 : length m2 = 8%nat) by (unfold m2; rewrite skipn_length; lia).
  assert (Elo : Z.land (bits_from_mask m) 255 = bits_from_mask m1).
  { rewrite Em, bfm_app, L1. change 255 with (Z.ones 8). rewrite Z.land_ones by lia. change (2 ^ Z.of_nat 8) with (2 ^ 8). symmetry. apply (Z.mod_unique _ _ (bits_from_mask m2)); [|lia]. left. pose proof (bfm_range m1) as R. rewrite L1 in R. exact R. }
  assert (Ehi : Z.shiftr (bits_from_mask m) 8 = bits_from_mask m2).
  { rewrite Em, bfm_app, L1. rewrite Z.shiftr_div_pow2 by lia. change (2 ^ Z.of_nat 8) with (2 ^ 8). symmetry. apply (Z.div_unique _ _ _ (bits_from_mask m1)); [|lia]. left. pose proof (bfm_range m1) as R. rewrite L1 in R. exact R. }
  rewrite Elo, Ehi, popcount_bfm by lia. rewrite !expand8_idx by (auto; cbn; tauto). clearbody m1 m2. subst m. clear Elo Ehi. pose proof (count_le m1) as C1.
  set (vL := firstn 8 v). set (vH := firstn 8 _). assert (KL : length vL = 8%nat) by (unfold vL; rewrite firstn_length; lia).
  assert (LS : length (load 16 iota32 (Z.of_nat (count m1))) = 16%nat). { clear - C1 L1. rewrite L1 in C1. revert C1. generalize (count m1). intros c Hc. do 9 (destruct c as [|c]; [reflexivity|]). lia. }
  assert (KH : length vH = 8%nat). { unfold vH, table_lookup_bytes_or0. rewrite firstn_length, map_length, LS. reflexivity. }
  assert (NL : forall j, (j < 8)%nat -> nth j vL b0 = nth j v b0). { intros j Hj. unfold vL. rewrite firstn_nth by lia. rewrite nth_map_seq by exact Hj. reflexivity. }
  assert (NH : forall j, (j < 8)%nat -> nth j vH b0 = nth (count m1 + j) v b0).
  { intros j Hj. unfold vH. rewrite firstn_nth by (unfold table_lookup_bytes_or0; rewrite map_length, LS; lia). rewrite nth_map_seq by exact Hj. unfold table_lookup_bytes_or0. destruct (load_iota (count m1) j ltac:(lia) Hj) as [E L].
    rewrite (nth_indep _ b0 ((fun i => if 128 <=? i then b0 else look v i) 0)) by (rewrite map_length; exact L). rewrite (map_nth (fun i => if 128 <=? i then b0 else look v i)), E. apply or0; lia. }
  destruct (expand_lookup m1 vL ltac:(lia) ltac:(lia)) as [A1 A2]. destruct (expand_lookup m2 vH ltac:(lia) ltac:(lia)) as [B1 B2].
  split; [rewrite !app_length; lia|]. intros i Hi. rewrite app_length in Hi. destruct (le_lt_dec 8 i) as [H8|H8].
  - rewrite app_nth2, A1, L1 by lia. rewrite (app_nth2 m1) by lia. rewrite L1, B2 by lia. rewrite firstn_app, L1, (firstn_all2 m1) by lia. rewrite count_app. pose proof (count_firstn_le m2 (i - 8)). rewrite NH by lia. reflexivity.
  - rewrite app_nth1 by lia. rewrite (app_nth1 m1) by lia. rewrite A2 by lia. rewrite firstn_app. replace (i - length m1)%nat with O by lia. cbn [firstn]. rewrite app_nil_r. pose proof (count_firstn_le m1 i). rewrite NL by lia. reflexivity.
Qed.
Lemma gen_expand16_ok n m v : In n [1; 2; 4; 8]%nat -> length m = n -> length v = (n * 2)%nat -> is_expand [b0; b0] m (to_lanes 2 n v) (to_lanes 2 n (gen_expand16 b0 junk n m v)) /\ length (gen_expand16 b0 junk n m v) = (n * 2)%nat.
Proof.
  intros Hn Hm Hv. assert (Hle : (n <= 8)%nat) by (cbn [In] in Hn; lia). unfold gen_expand16. rewrite expand16_idx by assumption. unfold expand_idx16, table_lookup_bytes_or0. rewrite flat_map_concat_map, concat_map, map_map, Hm.
  assert (E : map (fun i => map (fun j => if 128 <=? j then b0 else look v j) (if nth i m false then [Z.of_nat (count (firstn i m) * 2); Z.of_nat (count (firstn i m) * 2 + 1)] else [128; 129])) (seq 0 n) = expanded [b0; b0] m (to_lanes 2 n v)).
  { unfold expanded. rewrite Hm. apply map_ext_in. intros i Hi. apply in_seq in Hi. pose proof (count_firstn_le m i). destruct (nth i m false); [|reflexivity]. cbn [map]. rewrite !or0 by lia.
    unfold to_lanes. rewrite nth_map_seq by lia. rewrite lane_nth by lia. cbn [seq map]. rewrite Nat.add_0_r. reflexivity. }
  rewrite E. assert (L : length (expanded [b0; b0] m (to_lanes 2 n v)) = n) by (unfold expanded; rewrite map_length, seq_length; exact Hm).
  assert (L2 : forall l, In l (expanded [b0; b0] m (to_lanes 2 n v)) -> length l = 2%nat).
  { intros l Hl. unfold expanded in Hl. apply in_map_iff in Hl. destruct Hl as (i & <- & Hi). apply in_seq in Hi. pose proof (count_firstn_le m i). destruct (nth i m false); [|reflexivity]. unfold to_lanes. rewrite nth_map_seq by lia. rewrite lane_nth by lia. reflexivity. }
  split; [|rewrite (concat_length 2), L by exact L2; reflexivity]. apply expanded_ok. rewrite <- L at 1. apply lanes_concat, L2.
Qed.
End V.
