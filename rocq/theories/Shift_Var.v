(** Variable shifts. *)
From Coq Require Import ZArith List Bool Lia.
From Verif Require Import Word Float_Spec AES_Spec Ops_Model Shift_Spec Shift_Model Shift_Proofs.
Import ListNotations.
Open Scope Z_scope.
Ltac Zify.zify_post_hook ::= idtac.

Lemma map2_map_r (A : Type) (f : Z -> A -> Z) (g : Z -> A) v b : map2 f v (map g b) = map2 (fun x y => f x (g y)) v b.
Proof. unfold map2. revert b. induction v; intros [|y b]; cbn; [reflexivity..|]. now rewrite IHv. Qed.
Lemma map2_ext (f g : Z -> Z -> Z) v b : (forall x k, In x v -> In k b -> f x k = g x k) -> map2 f v b = map2 g v b.
Proof. unfold map2. revert b. induction v; intros [|y b] H; cbn; [reflexivity..|]. rewrite H by now left. f_equal. apply IHv. intros; apply H; now right. Qed.
Lemma select_ok (f : Z -> Z -> Z) v b : length b = length v ->
  map2 (fun b p => if b =? 0 then fst p else snd p) b (combine v (map2 f v b)) = map2 (fun x k => if k =? 0 then x else f x k) v b.
Proof. unfold map2. revert b. induction v; intros [|y b] H; cbn in H |- *; try discriminate; [reflexivity|]. rewrite IHv by lia. reflexivity. Qed.
Lemma mulhigh w x k : 0 < k < w -> Z.shiftr (x * 2 ^ (w - k)) w = shr_spec k x.
Proof.
  intros Hk. rewrite Z.shiftr_div_pow2 by lia. unfold shr_spec. replace (2 ^ w) with (2 ^ k * 2 ^ (w - k)) by (rewrite <- Z.pow_add_r by lia; f_equal; lia).
  apply Z.div_mul_cancel_r; apply Z.pow_nonzero; lia.
Qed.
Lemma to16_lanes v : byte8 v -> Forall (lane 16) (to16 v).
Proof.
  revert v. fix IH 1. intros [|a [|b r]] H; [constructor..|]. inversion_clear H as [|? ? Ha H']. inversion_clear H' as [|? ? Hb Hr]. cbn [to16]. constructor; [|now apply IH].
  unfold lane in *. change (2 ^ 8) with 256 in *. change (2 ^ 16) with 65536. lia.
Qed.
Lemma land_ff lo hi : lane 8 lo -> lane 8 hi -> Z.land (lo + 2 ^ 8 * hi) 0xFF = lo /\ Z.land (lo + 2 ^ 8 * hi) 0xFF00 = 2 ^ 8 * hi.
Proof.
  intros Hl Hh. split; apply Z.bits_inj'; intros n Hn; rewrite Z.land_spec, tb_pair by (try exact Hl; lia).
  - change 0xFF with (2 ^ 8 - 1). rewrite tb_ones by lia. bcase; [reflexivity|]. now rewrite (tb_high 8 lo) by (try exact Hl; lia).
  - replace (2 ^ 8 * hi) with (0 + 2 ^ 8 * hi) by lia. rewrite tb_pair by lia.
    change 0xFF00 with (0 + 2 ^ 8 * (2 ^ 8 - 1)). rewrite (tb_pair 8 0) by lia. rewrite Z.testbit_0_l. bcase; [reflexivity|].
    rewrite tb_ones by lia. bcase; [reflexivity|]. now rewrite (tb_high 8 hi) by (try exact Hh; lia).
Qed.
Lemma odd_even_pairs (f g : Z -> Z -> Z) (h : Z -> Z -> Z) (pv pw qv qw : Z -> Z) v b : length b = length v -> Nat.Even (length v) -> byte8 v -> byte8 b ->
  (forall x0 x1 b0 b1, lane 8 x0 -> lane 8 x1 -> In b0 b -> In b1 b ->
     wrap 8 (f (pv (x0 + 2 ^ 8 * x1)) (pw (b0 + 2 ^ 8 * b1))) = h x0 b0 /\ Z.shiftr (g (qv (x0 + 2 ^ 8 * x1)) (qw (b0 + 2 ^ 8 * b1))) 8 = h x1 b1) ->
  odd_even8 (to8 (map2 g (map qv (to16 v)) (map qw (to16 b)))) (to8 (map2 f (map pv (to16 v)) (map pw (to16 b)))) = map2 h v b.
Proof.
  intros Hl He Hv Hb Hf. revert b Hl Hb Hf Hv. pattern v. apply to16_ind; [|  |exact He].
  - intros b Hl _ _ _. destruct b; [reflexivity|discriminate].
  - intros x0 x1 r IH [|b0 [|b1 b]] Hl Hb Hf Hv; try discriminate.
    inversion_clear Hv as [|? ? H0 Hv']. inversion_clear Hv' as [|? ? H1 Hr]. inversion_clear Hb as [|? ? B0 Hb']. inversion_clear Hb' as [|? ? B1 Hbr].
    destruct (Hf x0 x1 b0 b1 H0 H1 ltac:(now left) ltac:(right; now left)) as [E1 E2].
    specialize (IH b ltac:(cbn in Hl; lia) Hbr ltac:(intros y0 y1 c0 c1 Hy0 Hy1 Hc0 Hc1; apply Hf; [exact Hy0|exact Hy1|right; now right|right; now right]) Hr).
    unfold map2 in *. cbn [to16 map combine to8 flat_map app fst snd odd_even8]. fold (to8) in *. unfold to8 in IH. rewrite IH, E1, E2. reflexivity.
Qed.
Lemma counts_bytes b : Forall (fun k => 0 <= k < 8) b -> byte8 b.
Proof. intros Hb. eapply Forall_impl; [|exact Hb]; cbn beta; intros k Hk; unfold lane; change (2 ^ 8) with 256; lia. Qed.
Lemma counts16 b : Nat.Even (length b) -> Forall (fun k => 0 <= k < 8) b ->
  Forall (fun k => 0 <= k < 16) (vand1 0x00FF (to16 b)) /\ Forall (fun k => 0 <= k < 16) (map (srli 16 8) (to16 b)).
Proof.
  intros He Hb. pose proof (counts_bytes b Hb) as Hb8. unfold vand1. rewrite !Forall_map. revert Hb Hb8. pattern b. apply to16_ind; [intros; split; constructor| |exact He].
  intros b0 b1 r IH H H8. inversion_clear H as [|? ? R0 H']. inversion_clear H' as [|? ? R1 Hr]. inversion_clear H8 as [|? ? L0 H8']. inversion_clear H8' as [|? ? L1 H8r].
  destruct (IH Hr H8r) as [I1 I2]. cbn [to16]. split; constructor; try assumption.
  - rewrite (proj1 (land_ff b0 b1 L0 L1)). lia.
  - rewrite srli_spec by lia. unfold shr_spec. unfold lane in *. replace ((b0 + 2 ^ 8 * b1) / 2 ^ 8) with b1; [lia|apply Z.div_unique with b0; lia].
Qed.
Lemma masked16 v : Nat.Even (length v) -> byte8 v -> Forall (lane 16) (vand1 0x00FF (to16 v)) /\ Forall (lane 16) (vand1 0xFF00 (to16 v)).
Proof.
  intros He Hv. unfold vand1. rewrite !Forall_map. revert Hv. pattern v. apply to16_ind; [intros; split; constructor| |exact He].
  intros b0 b1 r IH H8. inversion_clear H8 as [|? ? L0 H8']. inversion_clear H8' as [|? ? L1 H8r].
  destruct (IH H8r) as [I1 I2]. cbn [to16]. split; constructor; try assumption.
  - rewrite (proj1 (land_ff b0 b1 L0 L1)). unfold lane in *. change (2 ^ 8) with 256 in *. change (2 ^ 16) with 65536. lia.
  - rewrite (proj2 (land_ff b0 b1 L0 L1)). unfold lane in *. change (2 ^ 8) with 256 in *. change (2 ^ 16) with 65536. lia.
Qed.
Lemma to16_length a b : length a = length b -> length (to16 a) = length (to16 b).
Proof. revert a b. fix IH 1. intros [|x [|y a]] [|x' [|y' b]] H; try discriminate; try reflexivity. cbn. f_equal. apply IH. cbn in H. lia. Qed.
Section Cvt.
Context (rnd : Z -> Z) (Hrnd : forall i, 0 <= i -> rnd (i * 2 ^ 1074) = i).
Lemma pow2_value b : 0 <= b <= 64 -> magnitude binary32 ((b + 127) * 2 ^ 23) = (b + 127) * 2 ^ 23 /\ value binary32 ((b + 127) * 2 ^ 23) = 2 ^ b * 2 ^ 1074.
Proof.
  intros Hb. assert (M : magnitude binary32 ((b + 127) * 2 ^ 23) = (b + 127) * 2 ^ 23).
  { unfold magnitude, binary32. cbn [ebits mbits]. apply Z.mod_small. change (2 ^ (8 + 23)) with 2147483648. change (2 ^ 23) with 8388608. lia. }
  split; [exact M|]. unfold value. rewrite M. unfold negative, binary32. cbn [ebits mbits].
  destruct (Z.leb_spec (2 ^ (8 + 23)) ((b + 127) * 2 ^ 23)) as [H|H].
  { change (2 ^ (8 + 23)) with 2147483648 in H. change (2 ^ 23) with 8388608 in H. lia. }
  unfold mag_value, bias. cbn [ebits mbits]. change (2 ^ (8 - 1) - 1) with 127.
  rewrite Z.div_mul by (change (2 ^ 23) with 8388608; lia). rewrite Z.mod_mul by (change (2 ^ 23) with 8388608; lia).
  destruct (Z.eqb_spec (b + 127) 0); [lia|]. rewrite Z.add_0_r. rewrite <- !Z.pow_add_r by lia. f_equal. lia.
Qed.
Lemma cvt_pow2 b : 0 <= b <= 31 -> cvt_i32 rnd ((b + 127) * 2 ^ 23) = 2 ^ b.
Proof.
  intros Hb. unfold cvt_i32. destruct (pow2_value b ltac:(lia)) as [M V]. rewrite M, V.
  destruct (Z.ltb_spec (inf_mag binary32) ((b + 127) * 2 ^ 23)) as [H|H].
  { exfalso. change (inf_mag binary32) with 2139095040 in H. change (2 ^ 23) with 8388608 in H. lia. }
  assert (P : 0 < 2 ^ b) by (apply Z.pow_pos_nonneg; lia). rewrite Hrnd by lia.
  destruct (Z.leb_spec (- 2 ^ 31) (2 ^ b)); [|change (- 2 ^ 31) with (-2147483648) in *; lia]. cbn [andb].
  destruct (Z.ltb_spec (2 ^ b) (2 ^ 31)) as [L|L].
  - unfold wrap. apply Z.mod_small. change (2 ^ 31) with 2147483648 in L. change (2 ^ 32) with 4294967296. lia.
  - destruct (Z.eq_dec b 31) as [->|]; [reflexivity|]. exfalso. assert (2 ^ b <= 2 ^ 30) by (apply Z.pow_le_mono_r; lia). change (2 ^ 31) with (2 * 2 ^ 30) in L. lia.
Qed.
Lemma upper16 e : 0 <= e <= 16 -> 0 + 2 ^ 16 * wrap 16 (slli 16 (23 - 16) e + 0x3F80) = (e + 127) * 2 ^ 23.
Proof.
  intros He. rewrite slli_spec by lia. unfold shl_spec, wrap. change (2 ^ (23 - 16)) with 128. change (2 ^ 16) with 65536. change (2 ^ 23) with 8388608.
  rewrite (Z.mod_small (e * 128)) by lia. rewrite Z.mod_small by lia. lia.
Qed.
Lemma pack_pow2 e : 0 <= e < 16 -> packus32 (2 ^ e) = 2 ^ e /\ wrap 16 (2 ^ e) = 2 ^ e /\ packs32 (srai 32 16 (slli 32 16 (2 ^ e))) = 2 ^ e.
Proof.
  intros He. assert (e = 0 \/ e = 1 \/ e = 2 \/ e = 3 \/ e = 4 \/ e = 5 \/ e = 6 \/ e = 7 \/ e = 8 \/ e = 9 \/ e = 10 \/ e = 11 \/ e = 12 \/ e = 13 \/ e = 14 \/ e = 15) as E by lia.
  repeat (destruct E as [->|E]; [vm_compute; auto|]). subst. vm_compute. auto.
Qed.
(** every lane with a small enough exponent yields the power of two *)
Lemma pow2_16_part_lanes t v : exists f, pow2_16_part t rnd v = map f v /\ forall e, 0 <= e < 16 -> f e = 2 ^ e.
Proof.
  destruct t; unfold pow2_16_part, low16; rewrite ?map_map; eexists; (split; [reflexivity|]); intros e He; cbn beta; rewrite upper16, cvt_pow2 by lia; now apply pack_pow2.
Qed.
Lemma pow2_16_lanes t v : exists f, pow2_16 t rnd v = map f v /\ forall e, 0 <= e < 16 -> f e = 2 ^ e.
Proof.
  unfold pow2_16. destruct (Nat.leb _ _); [apply pow2_16_part_lanes|].
  destruct t; unfold pow2_16_full, low16; rewrite ?map_map, <- ?map_app, ?firstn_skipn, ?map_map; eexists; (split; [reflexivity|]);
    intros e He; cbn beta; rewrite upper16, cvt_pow2 by lia; now apply pack_pow2.
Qed.
Theorem shl_16_ok t v b : Forall (lane 16) v -> Forall (fun k => 0 <= k < 16) b -> shl_16 t rnd v b = map2 (fun x k => shl_spec 16 k x) v b.
Proof.
  intros Hv Hb. unfold shl_16. destruct (pow2_16_lanes t b) as [f [-> Hf]]. rewrite map2_map_r. apply map2_ext. intros x k _ Hk.
  rewrite Forall_forall in Hb. rewrite (Hf k (Hb k Hk)). reflexivity.
Qed.
Theorem shr_16_ok t v b : length b = length v -> Forall (lane 16) v -> Forall (fun k => 0 <= k < 16) b -> shr_16 t rnd v b = map2 (fun x k => shr_spec k x) v b.
Proof.
  intros Hl Hv Hb. unfold shr_16. destruct (pow2_16_lanes t (map (fun b => wrap 16 (16 - b)) b)) as [f [-> Hf]].
  rewrite map_map, map2_map_r. rewrite select_ok by exact Hl. apply map2_ext. intros x k Hx Hk.
  rewrite Forall_forall in Hb. specialize (Hb k Hk). destruct (Z.eqb_spec k 0) as [->|Hk0]; [unfold shr_spec; now rewrite Z.div_1_r|].
  unfold wrap. rewrite Z.mod_small by (change (2 ^ 16) with 65536; lia). rewrite Hf by lia. apply mulhigh; lia.
Qed.
(** 8-bit *)
Theorem shl_8_ok t v b : length b = length v -> Nat.Even (length v) -> byte8 v -> Forall (fun k => 0 <= k < 8) b ->
  shl_8 t rnd v b = map2 (fun x k => shl_spec 8 k x) v b.
Proof.
  intros Hl He Hv Hb. pose proof (counts_bytes b Hb) as Hb8. destruct (counts16 b ltac:(now rewrite Hl) Hb) as [C1 C2]. destruct (masked16 v He Hv) as [M1 M2].
  unfold shl_8. rewrite (shl_16_ok t (to16 v) _ (to16_lanes v Hv) C1), (shl_16_ok t _ _ M2 C2).
  unfold vand1. rewrite <- (map_id (to16 v)) at 2.
  apply (odd_even_pairs (fun x k => shl_spec 16 k x) (fun x k => shl_spec 16 k x) _ (fun x => x) (fun x => Z.land x 255) (fun x => Z.land x 65280) (srli 16 8)); try assumption.
  intros x0 x1 b0 b1 H0 H1 I0 I1. rewrite Forall_forall in Hb. pose proof (Hb b0 I0) as R0. pose proof (Hb b1 I1) as R1.
  unfold byte8 in Hb8. rewrite Forall_forall in Hb8. pose proof (Hb8 b0 I0) as L0. pose proof (Hb8 b1 I1) as L1. clear Hrnd.
  rewrite (proj1 (land_ff b0 b1 L0 L1)), (proj2 (land_ff x0 x1 H0 H1)). rewrite srli_spec by lia.
  replace (shr_spec 8 (b0 + 2 ^ 8 * b1)) with b1 by (unfold shr_spec, lane in *; apply Z.div_unique with b0; lia).
  split; apply Z.bits_inj'; intros n Hn.
  - rewrite tb_wrap by lia. rewrite !tb_shl by lia. bcase; try reflexivity; try lia. rewrite tb_pair by (try exact H0; lia). bcase; [reflexivity|lia].
  - rewrite Z.shiftr_spec by lia. rewrite !tb_shl by lia. replace (2 ^ 8 * x1) with (0 + 2 ^ 8 * x1) by lia. bcase; try reflexivity; try lia.
    + rewrite tb_pair by lia. bcase; [lia|]. f_equal. lia.
    + rewrite tb_pair by lia. bcase; [now rewrite Z.testbit_0_l|lia].
Qed.
Theorem shr_8_ok t v b : length b = length v -> Nat.Even (length v) -> byte8 v -> Forall (fun k => 0 <= k < 8) b ->
  shr_8 t rnd v b = map2 (fun x k => shr_spec k x) v b.
Proof.
  intros Hl He Hv Hb. pose proof (counts_bytes b Hb) as Hb8. destruct (counts16 b ltac:(now rewrite Hl) Hb) as [C1 C2]. destruct (masked16 v He Hv) as [M1 M2].
  assert (N1 : length (vand1 0xFF (to16 b)) = length (vand1 0xFF (to16 v))) by (clear Hrnd; unfold vand1; rewrite !map_length; apply to16_length; exact Hl).
  assert (N2 : length (map (srli 16 8) (to16 b)) = length (to16 v)) by (clear Hrnd; rewrite map_length; apply to16_length; exact Hl).
  unfold shr_8. rewrite (shr_16_ok t _ _ N1 M1 C1), (shr_16_ok t (to16 v) _ N2 (to16_lanes v Hv) C2).
  unfold vand1. rewrite <- (map_id (to16 v)) at 1.
  apply (odd_even_pairs (fun x k => shr_spec k x) (fun x k => shr_spec k x) _ (fun x => Z.land x 255) (fun x => Z.land x 255) (fun x => x) (srli 16 8)); try assumption.
  intros x0 x1 b0 b1 H0 H1 I0 I1. rewrite Forall_forall in Hb. pose proof (Hb b0 I0) as R0. pose proof (Hb b1 I1) as R1.
  unfold byte8 in Hb8. rewrite Forall_forall in Hb8. pose proof (Hb8 b0 I0) as L0. pose proof (Hb8 b1 I1) as L1. clear Hrnd.
  rewrite (proj1 (land_ff b0 b1 L0 L1)), (proj1 (land_ff x0 x1 H0 H1)). rewrite srli_spec by lia.
  replace (shr_spec 8 (b0 + 2 ^ 8 * b1)) with b1 by (unfold shr_spec, lane in *; apply Z.div_unique with b0; lia).
  split; apply Z.bits_inj'; intros n Hn.
  - rewrite tb_wrap by lia. rewrite !tb_shr by lia. bcase; [reflexivity|]. now rewrite (tb_high 8 x0) by (try exact H0; lia).
  - rewrite Z.shiftr_spec by lia. rewrite !tb_shr by lia. rewrite tb_pair by (try exact H0; lia). bcase; [lia|]. f_equal. lia.
Qed.
(** 32-bit *)
Lemma pow2_32_lane e : 0 <= e < 32 -> cvt_i32 rnd (wrap 32 (slli 32 23 e + 0x3F800000)) = 2 ^ e.
Proof.
  intros He. rewrite slli_spec by (clear Hrnd; lia). replace (wrap 32 (shl_spec 32 23 e + 0x3F800000)) with ((e + 127) * 2 ^ 23); [apply cvt_pow2; clear Hrnd; lia|].
  clear Hrnd. unfold shl_spec, wrap. change (2 ^ 32) with 4294967296. change (2 ^ 23) with 8388608. rewrite (Z.mod_small (e * 8388608)) by lia. rewrite Z.mod_small by lia. lia.
Qed.
Theorem shl_32_ok v b : Forall (fun k => 0 <= k < 32) b -> shl_32 rnd v b = map2 (fun x k => shl_spec 32 k x) v b.
Proof.
  intros Hb. unfold shl_32, pow2_32. rewrite map2_map_r. apply map2_ext. intros x k _ Hk. rewrite Forall_forall in Hb. rewrite pow2_32_lane by now apply Hb. reflexivity.
Qed.
Lemma product_halves x k : lane 32 x -> 0 < k < 32 -> lane 32 (srli 64 32 (x * 2 ^ (32 - k))) /\ srli 64 32 (x * 2 ^ (32 - k)) = shr_spec k x.
Proof.
  clear Hrnd. intros Hx Hk. rewrite srli_spec by lia. assert (E : shr_spec 32 (x * 2 ^ (32 - k)) = shr_spec k x).
  { rewrite <- (mulhigh 32 x k Hk). unfold shr_spec. now rewrite Z.shiftr_div_pow2 by lia. }
  rewrite E. split; [apply lane_shr; [lia|exact Hx]|reflexivity].
Qed.
Theorem shr_32_ok v b : length v = 4%nat -> length b = 4%nat -> Forall (lane 32) v -> Forall (fun k => 0 <= k < 32) b ->
  shr_32 rnd v b = map2 (fun x k => shr_spec k x) v b.
Proof.
  intros Lv Lb Hv Hb. destruct v as [|x0 [|x1 [|x2 [|x3 [|]]]]]; try discriminate. destruct b as [|b0 [|b1 [|b2 [|b3 [|]]]]]; try discriminate.
  rewrite Forall_forall in Hv, Hb.
  assert (G : forall x k, lane 32 x -> 0 <= k < 32 ->
    (if k =? 0 then x else wrap 32 (srli 64 32 (x * cvt_i32 rnd (wrap 32 (slli 32 23 (wrap 32 (32 - k)) + 0x3F800000))))) = shr_spec k x /\
    (if k =? 0 then x else Z.shiftr (x * cvt_i32 rnd (wrap 32 (slli 32 23 (wrap 32 (32 - k)) + 0x3F800000))) 32) = shr_spec k x).
  { intros x k Hx Hk. destruct (Z.eqb_spec k 0) as [->|Hk0]; [unfold shr_spec; rewrite Z.div_1_r; now split|].
    replace (wrap 32 (32 - k)) with (32 - k) by (unfold wrap; rewrite Z.mod_small; [reflexivity|change (2 ^ 32) with 4294967296; clear Hrnd; lia]).
    rewrite pow2_32_lane by (clear Hrnd; lia). destruct (product_halves x k Hx ltac:(clear Hrnd; lia)) as [P1 P2].
    split; [unfold wrap; rewrite Z.mod_small by exact P1; exact P2|]. apply mulhigh. clear Hrnd; lia. }
  unfold shr_32, shuffle31, mul_even32, cast64_32, pow2_32, map2. cbn [nth map flat_map app odd_even8 combine fst snd].
  rewrite (proj1 (G x0 b0 ltac:(apply Hv; cbn; auto) ltac:(apply Hb; cbn; auto))), (proj2 (G x1 b1 ltac:(apply Hv; cbn; auto) ltac:(apply Hb; cbn; auto))).
  rewrite (proj1 (G x2 b2 ltac:(apply Hv; cbn; auto) ltac:(apply Hb; cbn; auto))), (proj2 (G x3 b3 ltac:(apply Hv; cbn; auto) ltac:(apply Hb; cbn; auto))). reflexivity.
Qed.
End Cvt.
(** single lanes *)
Theorem shl_8_1_ok x g b gb : lane 8 x -> lane 8 g -> 0 <= b < 8 -> lane 8 gb -> shl_8_1 x g b gb = shl_spec 8 b x.
Proof.
  intros Hx Hg Hb Hgb. unfold shl_8_1. assert (L : lane 8 b) by (unfold lane; change (2 ^ 8) with 256; lia). rewrite (proj1 (land_ff b gb L Hgb)). rewrite slli_spec by lia.
  apply Z.bits_inj'. intros n Hn. rewrite tb_wrap by lia. rewrite !tb_shl by lia. bcase; try reflexivity; try lia. rewrite tb_pair by (try exact Hx; lia). bcase; [reflexivity|lia].
Qed.
Theorem shr_8_1_ok x g b gb : lane 8 x -> lane 8 g -> 0 <= b < 8 -> lane 8 gb -> shr_8_1 x g b gb = shr_spec b x.
Proof.
  intros Hx Hg Hb Hgb. unfold shr_8_1. assert (L : lane 8 b) by (unfold lane; change (2 ^ 8) with 256; lia). rewrite (proj1 (land_ff b gb L Hgb)), (proj1 (land_ff x g Hx Hg)).
  rewrite srli_spec by lia. unfold wrap. apply Z.mod_small. apply (lane_shr 8); [lia|exact Hx].
Qed.
(** 64-bit *)
Theorem shl_64_ok v b : length v = 2%nat -> length b = 2%nat -> Forall (fun k => 0 <= k < 64) b -> shl_64 v b = map2 (fun x k => shl_spec 64 k x) v b.
Proof.
  intros Lv Lb Hb. destruct v as [|x0 [|x1 [|]]]; try discriminate. destruct b as [|b0 [|b1 [|]]]; try discriminate. rewrite Forall_forall in Hb.
  unfold shl_64, map2. cbn [nth map combine fst snd]. now rewrite !slli_spec by (apply Hb; cbn; auto).
Qed.
Theorem shr_64_ok v b : length v = 2%nat -> length b = 2%nat -> Forall (fun k => 0 <= k < 64) b -> shr_64 v b = map2 (fun x k => shr_spec k x) v b.
Proof.
  intros Lv Lb Hb. destruct v as [|x0 [|x1 [|]]]; try discriminate. destruct b as [|b0 [|b1 [|]]]; try discriminate. rewrite Forall_forall in Hb.
  unfold shr_64, map2. cbn [nth map combine fst snd]. now rewrite !srli_spec by (apply Hb; cbn; auto).
Qed.
(** signed *)
Lemma lxor_ones w x : 0 <= w -> lane w x -> Z.lxor x (2 ^ w - 1) = 2 ^ w - 1 - x.
Proof.
  intros Hw Hx. apply Z.bits_inj'. intros n Hn. rewrite Z.lxor_spec, tb_ones by lia.
  replace (2 ^ w - 1 - x) with (2 ^ w * 1 + (- x - 1)) by lia.
  assert (E : Z.testbit (2 ^ w * 1 + (- x - 1)) n = Z.testbit (wrap w (- x - 1)) n).
  { f_equal. unfold wrap, lane in *. apply Z.mod_unique with (-1); lia. }
  rewrite E, tb_wrap by lia. replace (- x - 1) with (Z.lnot x) by (unfold Z.lnot; lia). rewrite Z.lnot_spec by lia.
  destruct (Z.ltb_spec n w); cbn [andb]; [apply xorb_true_r|]. now rewrite (tb_high w x) by (try exact Hx; lia).
Qed.
Lemma signed_shr_lane w k x : 0 < w -> 0 <= k < w -> lane w x ->
  sar_spec w k x (Z.lxor (shr_spec k (Z.lxor x (broadcast_sign w x))) (broadcast_sign w x)).
Proof.
  intros Hw Hk Hx. unfold broadcast_sign. rewrite swrap_signed by exact Hx.
  assert (P : 1 <= 2 ^ k) by (change 1 with (2 ^ 0); apply Z.pow_le_mono_r; lia).
  assert (E2 : 2 ^ w = 2 * 2 ^ (w - 1)) by (rewrite <- Z.pow_succ_r by lia; f_equal; lia).
  pose proof (signed_range w x Hw Hx) as R. pose proof (lane_shr w k x ltac:(lia) Hx) as Ls.
  destruct (Z.ltb_spec (signed w x) 0) as [Hn|Hn].
  - rewrite (lxor_ones w x) by (try exact Hx; lia).
    assert (Ho : lane w (2 ^ w - 1 - x)) by (unfold lane in *; lia).
    pose proof (lane_shr w k _ ltac:(lia) Ho) as L2. rewrite lxor_ones by (try exact L2; lia).
    assert (Es : signed w x = x - 2 ^ w) by (unfold signed in *; destruct (_ <? _); unfold lane in *; lia).
    assert (Ed : shr_spec k (2 ^ w - 1 - x) = - (signed w x / 2 ^ k) - 1).
    { unfold shr_spec. rewrite Es. set (p := 2 ^ k) in *. set (q := 2 ^ w) in *. clearbody p q.
      pose proof (Z.div_mod (x - q) p ltac:(lia)) as D. pose proof (Z.mod_pos_bound (x - q) p ltac:(lia)) as M. symmetry. apply Z.div_unique with (p - 1 - (x - q) mod p); nia. }
    rewrite Ed in *. split; [unfold lane in *; lia|].
    replace (2 ^ w - 1 - (- (signed w x / 2 ^ k) - 1)) with (signed w x / 2 ^ k + 2 ^ w) by lia.
    assert (D1 : - 2 ^ (w - 1) <= signed w x / 2 ^ k). { set (s := signed w x) in *. set (m := 2 ^ (w - 1)) in *. set (p := 2 ^ k) in *. clearbody s m p. apply Z.div_le_lower_bound; nia. }
    assert (D2 : signed w x / 2 ^ k < 0) by (apply Z.div_lt_upper_bound; lia).
    set (d := signed w x / 2 ^ k) in *. unfold signed. destruct (Z.ltb_spec (d + 2 ^ w) (2 ^ (w - 1))); lia.
  - rewrite !Z.lxor_0_r. assert (Es : signed w x = x) by (unfold signed in *; destruct (_ <? _); unfold lane in *; lia).
    split; [exact Ls|]. rewrite Es. unfold shr_spec. assert (D : x / 2 ^ k < 2 ^ (w - 1)).
    { rewrite Es in R. unfold lane in Hx. set (m := 2 ^ (w - 1)) in *. set (p := 2 ^ k) in *. clearbody m p. apply Z.div_lt_upper_bound; nia. }
    unfold signed. destruct (Z.ltb_spec (x / 2 ^ k) (2 ^ (w - 1))); lia.
Qed.
Theorem signed_shr_ok w shr ok v b : 0 < w -> vshr_op w shr ok -> ok (vxor v (map (broadcast_sign w) v)) -> length b = length v -> Forall (lane w) v -> Forall (fun k => 0 <= k < w) b ->
  Forall3 (fun x k r => sar_spec w k x r) v b (signed_shr w shr v b).
Proof.
  intros Hw Hs Ho Hl Hv Hb. unfold signed_shr.
  assert (Ha : vxor v (map (broadcast_sign w) v) = map (fun x => Z.lxor x (broadcast_sign w x)) v).
  { unfold vxor. rewrite <- (map_id v) at 1. now rewrite map2_map. }
  assert (La : Forall (lane w) (vxor v (map (broadcast_sign w) v))).
  { rewrite Ha, Forall_map. eapply Forall_impl; [|exact Hv]. intros x Hx. cbn beta. unfold broadcast_sign. destruct (_ <? _); [|now rewrite Z.lxor_0_r].
    rewrite lxor_ones by (try exact Hx; lia). unfold lane in *. lia. }
  rewrite Hs; try assumption. 2: { rewrite Ha. now rewrite map_length. }
  rewrite Ha. clear Ha La Hs Ho. revert b Hl Hb. induction Hv as [|x v Hx Hv IH]; intros [|k b] Hl Hb; try discriminate; [exact I|].
  inversion_clear Hb. cbn in Hl. split; [|apply IH; [lia|assumption]]. now apply signed_shr_lane.
Qed.
(** AVX2 *)
Lemma wide_shl w W x k : 0 <= w <= W -> 0 <= k < w -> wrap w (slli W k x) = shl_spec w k x.
Proof.
  intros Hw Hk. rewrite slli_spec by lia. apply Z.bits_inj'. intros n Hn. rewrite tb_wrap by lia. rewrite !tb_shl by lia. bcase; reflexivity || lia.
Qed.
Theorem avx2_shl_ok w W v b : 0 <= w <= W -> Forall (fun k => 0 <= k < w) b -> avx2_shl w W v b = map2 (fun x k => shl_spec w k x) v b.
Proof. intros Hw Hb. unfold avx2_shl. apply map2_ext. intros x k _ Hk. rewrite Forall_forall in Hb. apply wide_shl; [lia|now apply Hb]. Qed.
Lemma wide_shr w W x k : 0 < w < W -> 0 <= k < w -> lane w x -> demote_u w (swrap W (srli W k x)) = shr_spec k x /\ demote_u w (shr_spec k x) = shr_spec k x /\ swrap W (srli W k x) = shr_spec k x.
Proof.
  intros Hw Hk Hx. rewrite srli_spec by lia. pose proof (lane_shr w k x ltac:(lia) Hx) as L. set (r := shr_spec k x) in *. clearbody r. unfold lane in *.
  assert (2 ^ w <= 2 ^ (W - 1)) by (apply Z.pow_le_mono_r; lia). assert (2 ^ W = 2 * 2 ^ (W - 1)) by (rewrite <- Z.pow_succ_r by lia; f_equal; lia).
  assert (E : swrap W r = r). { unfold swrap. rewrite Z.mod_small by lia. destruct (Z.ltb_spec r (2 ^ (W - 1))); lia. }
  rewrite E. unfold demote_u. lia.
Qed.
Theorem avx2_shr_u_ok w W v b : 0 < w < W -> Forall (lane w) v -> Forall (fun k => 0 <= k < w) b -> avx2_shr_u w W v b = map2 (fun x k => shr_spec k x) v b.
Proof. intros Hw Hv Hb. unfold avx2_shr_u. apply map2_ext. intros x k Hx Hk. rewrite Forall_forall in Hb, Hv. apply wide_shr; [lia|now apply Hb|now apply Hv]. Qed.
Lemma map_map2 (g : Z -> Z) (f : Z -> Z -> Z) v b : map g (map2 f v b) = map2 (fun x y => g (f x y)) v b.
Proof. unfold map2. now rewrite map_map. Qed.
Theorem avx2_shr_u8_full_ok v b : Forall (lane 8) v -> Forall (fun k => 0 <= k < 8) b -> avx2_shr_u8_full v b = map2 (fun x k => shr_spec k x) v b.
Proof.
  intros Hv Hb. unfold avx2_shr_u8_full. rewrite map_map2. apply map2_ext. intros x k Hx Hk. rewrite Forall_forall in Hb, Hv. specialize (Hb k Hk). specialize (Hv x Hx).
  assert (Hv16 : lane 16 x) by (unfold lane in *; change (2 ^ 8) with 256 in *; change (2 ^ 16) with 65536; lia).
  rewrite (proj1 (wide_shr 16 32 x k ltac:(lia) ltac:(lia) Hv16)).
  destruct (wide_shr 8 16 x k ltac:(lia) Hb Hv) as [_ [E1 E2]]. rewrite srli_spec in E2 by lia. rewrite E2. exact E1.
Qed.
Lemma demote_s_ok w W k x : 0 < w < W -> 0 <= k < w -> lane w x ->
  swrap W (srai W k (wrap W (swrap w x))) = signed w x / 2 ^ k /\ sar_spec w k x (demote_s w (signed w x / 2 ^ k)) /\ - 2 ^ (w - 1) <= signed w x / 2 ^ k < 2 ^ (w - 1).
Proof.
  intros Hw Hk Hx. rewrite (swrap_signed w x) by exact Hx. pose proof (signed_range w x ltac:(lia) Hx) as R.
  assert (M : 2 ^ (w - 1) <= 2 ^ (W - 1)) by (apply Z.pow_le_mono_r; lia).
  destruct (signed_wrap W (signed w x) ltac:(lia) ltac:(lia)) as [LW SW].
  destruct (srai_spec W k (wrap W (signed w x)) ltac:(lia) LW) as [L2 S2]. rewrite swrap_signed by exact L2. rewrite S2, SW.
  assert (P : 1 <= 2 ^ k) by (change 1 with (2 ^ 0); apply Z.pow_le_mono_r; lia).
  assert (D : - 2 ^ (w - 1) <= signed w x / 2 ^ k < 2 ^ (w - 1)).
  { set (s := signed w x) in *. set (m := 2 ^ (w - 1)) in *. set (p := 2 ^ k) in *. clearbody s m p. split; [apply Z.div_le_lower_bound; nia|apply Z.div_lt_upper_bound; nia]. }
  split; [reflexivity|]. split; [|exact D]. unfold demote_s. rewrite Z.min_l, Z.max_r by lia. now apply signed_wrap.
Qed.
Theorem avx2_shr_i_ok w W v b : 0 < w < W -> length b = length v -> Forall (lane w) v -> Forall (fun k => 0 <= k < w) b ->
  Forall3 (fun x k r => sar_spec w k x r) v b (avx2_shr_i w W v b).
Proof.
  intros Hw Hl Hv Hb. unfold avx2_shr_i. apply Forall3_map2; [lia|]. intros x k Hx Hk. rewrite Forall_forall in Hb, Hv.
  destruct (demote_s_ok w W k x Hw (Hb k Hk) (Hv x Hx)) as [-> [H _]]. exact H.
Qed.
Theorem avx2_shr_i8_full_ok v b : length b = length v -> Forall (lane 8) v -> Forall (fun k => 0 <= k < 8) b ->
  Forall3 (fun x k r => sar_spec 8 k x r) v b (avx2_shr_i8_full v b).
Proof.
  intros Hl Hv Hb. unfold avx2_shr_i8_full. rewrite map_map2. apply Forall3_map2; [lia|]. intros x k Hx Hk. rewrite Forall_forall in Hb, Hv.
  destruct (demote_s_ok 8 32 k x ltac:(lia) (Hb k Hk) (Hv x Hx)) as [-> [H D]].
  assert (E : swrap 16 (demote_s 16 (signed 8 x / 2 ^ k)) = signed 8 x / 2 ^ k).
  { set (d := signed 8 x / 2 ^ k) in *. clearbody d. change (2 ^ (8 - 1)) with 128 in D. unfold demote_s. change (2 ^ (16 - 1)) with 32768. rewrite Z.min_l, Z.max_r by lia.
    destruct (signed_wrap 16 d ltac:(lia) ltac:(change (2 ^ (16 - 1)) with 32768; lia)) as [L S]. now rewrite swrap_signed. }
  rewrite E. exact H.
Qed.
Lemma gf_shl_lane k x : 0 <= k < 8 -> lane 8 x -> gmul (Z.land x (nth (Z.to_nat k) kMasks 255)) (nth (Z.to_nat k) kShl 255) = shl_spec 8 k x.
Proof.
  intros Hk Hx. apply Z.eqb_eq. revert k x Hk Hx. apply (for_bytes (fun k x => gmul (Z.land x (nth (Z.to_nat k) kMasks 255)) (nth (Z.to_nat k) kShl 255) =? shl_spec 8 k x)).
  vm_compute. reflexivity.
Qed.
Theorem gf_shl_8_ok v b : Forall (lane 8) v -> Forall (fun k => 0 <= k < 8) b -> length b = length v -> gf_shl_8 v b = map2 (fun x k => shl_spec 8 k x) v b.
Proof.
  intros Hv Hb. revert b Hb. unfold gf_shl_8, vand, tbl_lookup, map2. induction Hv as [|x v Hx Hv IH]; intros [|k b] Hb Hl; try discriminate; [reflexivity|].
  inversion_clear Hb as [|? ? Hk Hb']. cbn [map combine fst snd]. rewrite IH by (try assumption; cbn in Hl; lia). f_equal.
  destruct (Z.leb_spec 0 k), (Z.ltb_spec k 16); try lia. cbn [andb]. now apply gf_shl_lane.
Qed.
