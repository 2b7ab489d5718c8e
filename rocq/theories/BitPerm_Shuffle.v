(** BitShuffle and MultiRotateRight. *)
From Coq Require Import ZArith List Bool Lia.
From Verif Require Import Word Float_Spec Ops_Model Shift_Spec Shift_Model Shift_Proofs Shift_Var BitPerm_Model BitPerm_Proofs.
Import ListNotations.
Open Scope Z_scope.
Ltac Zify.zify_post_hook ::= idtac.

Lemma byte_lane x j : lane 8 (byte_at x j).
Proof. unfold lane, byte_at. apply Z.mod_pos_bound. lia. Qed.
Lemma le8 x : le_bytes 8 x = [byte_at x 0; byte_at x 1; byte_at x 2; byte_at x 3; byte_at x 4; byte_at x 5; byte_at x 6; byte_at x 7].
Proof. unfold le_bytes, byte_at, wrap. cbn [seq map]. now rewrite !Z.shiftr_div_pow2 by lia. Qed.
(** bits of the shifted indices *)
Lemma idx_pair lo hi : lane 8 lo -> lane 8 hi ->
  Z.land 7 (wrap 8 (srli 16 3 (lo + 2 ^ 8 * hi))) = (lo / 8) mod 8 /\ Z.land 7 (Z.shiftr (srli 16 3 (lo + 2 ^ 8 * hi)) 8) = (hi / 8) mod 8.
Proof.
  intros Hl Hh. rewrite srli_spec by lia. assert (E : forall y, (y / 8) mod 8 = wrap 3 (shr_spec 3 y)) by reflexivity. rewrite !E. change 7 with (2 ^ 3 - 1).
  split; apply Z.bits_inj'; intros n Hn; rewrite Z.land_spec, tb_ones by lia; rewrite tb_wrap by lia; rewrite tb_shr by lia.
  - rewrite tb_wrap, tb_shr by lia. rewrite tb_pair by (try exact Hl; lia). bcase; try lia; reflexivity.
  - rewrite Z.shiftr_spec by lia. rewrite tb_shr by lia. rewrite tb_pair by (try exact Hl; lia). bcase; try lia; try reflexivity. f_equal. lia.
Qed.
Lemma sum_bits b0 b1 b2 b3 b4 b5 b6 b7 :
  let bit (b : bool) k := if b then k else 0 in
  let s := fold_right Z.add 0 [bit b0 (2 ^ 0); bit b1 (2 ^ 1); bit b2 (2 ^ 2); bit b3 (2 ^ 3); bit b4 (2 ^ 4); bit b5 (2 ^ 5); bit b6 (2 ^ 6); bit b7 (2 ^ 7)] in
  lane 8 s /\ Z.testbit s 0 = b0 /\ Z.testbit s 1 = b1 /\ Z.testbit s 2 = b2 /\ Z.testbit s 3 = b3 /\ Z.testbit s 4 = b4 /\ Z.testbit s 5 = b5 /\ Z.testbit s 6 = b6 /\ Z.testbit s 7 = b7.
Proof. destruct b0, b1, b2, b3, b4, b5, b6, b7; vm_compute; repeat split; discriminate. Qed.
Lemma land_pow2 x j : 0 <= j -> Z.land x (2 ^ j) = if Z.testbit x j then 2 ^ j else 0.
Proof.
  intros Hj. apply Z.bits_inj'. intros n Hn. rewrite Z.land_spec. rewrite Z.pow2_bits_eqb by lia. destruct (Z.eqb_spec j n) as [->|E].
  - rewrite andb_true_r. destruct (Z.testbit x n); [now rewrite Z.pow2_bits_true by lia|now rewrite Z.testbit_0_l].
  - rewrite andb_false_r. destruct (Z.testbit x j); [rewrite Z.pow2_bits_false by lia; reflexivity|now rewrite Z.testbit_0_l].
Qed.
(** what one index byte selects *)
Definition q8 (i : Z) : Z := (i / 8) mod 8.
Lemma q8_range i : 0 <= q8 i < 8. Proof. apply Z.mod_pos_bound. lia. Qed.
Lemma q8_small i : 0 <= i < 64 -> q8 i = i / 8.
Proof. intros H. unfold q8. apply Z.mod_small. split; [apply Z.div_pos; lia|apply Z.div_lt_upper_bound; lia]. Qed.
Lemma wrap8_mod8 z : wrap 8 z mod 8 = z mod 8.
Proof. apply wrap_mod; [now left|lia]. Qed.
Lemma select_bit x i n j base b r : 0 <= i < 64 -> (base + n) mod 8 = j -> rotated_left 8 (wrap 8 (wrap 8 (base + n) - i)) b r -> b = byte_at x (q8 i) -> Z.testbit r j = Z.testbit x i.
Proof.
  intros Hi Hj [_ R] ->. rewrite q8_small in R by exact Hi. pose proof (Z.mod_pos_bound i 8 ltac:(lia)) as Hm. specialize (R (i mod 8) Hm).
  rewrite <- (tb_byte x i) in R by lia. rewrite <- R. f_equal. rewrite <- Zplus_mod_idemp_r, wrap8_mod8. rewrite Zplus_mod_idemp_r, Zplus_mod_idemp_l.
  replace (i + (wrap 8 (base + n) - i)) with (wrap 8 (base + n)) by lia. now rewrite wrap8_mod8.
Qed.
Lemma lookup_lo x0 x1 q : 0 <= q < 8 -> (if (0 <=? Z.lor q (Z.land 248 0)) && (Z.lor q (Z.land 248 0) <? 16) then nth (Z.to_nat (Z.lor q (Z.land 248 0))) (le_bytes 8 x0 ++ le_bytes 8 x1) 255 else 255) = byte_at x0 q.
Proof. intros H. rewrite !le8. assert (C : q = 0 \/ q = 1 \/ q = 2 \/ q = 3 \/ q = 4 \/ q = 5 \/ q = 6 \/ q = 7) by lia. now destruct C as [->|[->|[->|[->|[->|[->|[->| ->]]]]]]]. Qed.
Lemma lookup_hi x0 x1 q : 0 <= q < 8 -> (if (0 <=? Z.lor q (Z.land 248 8)) && (Z.lor q (Z.land 248 8) <? 16) then nth (Z.to_nat (Z.lor q (Z.land 248 8))) (le_bytes 8 x0 ++ le_bytes 8 x1) 255 else 255) = byte_at x1 q.
Proof. intros H. rewrite !le8. assert (C : q = 0 \/ q = 1 \/ q = 2 \/ q = 3 \/ q = 4 \/ q = 5 \/ q = 6 \/ q = 7) by lia. now destruct C as [->|[->|[->|[->|[->|[->|[->| ->]]]]]]]. Qed.
Definition rol8_op (rol8 : list Z -> list Z -> list Z) : Prop := forall a b, length a = 16%nat -> length b = 16%nat -> Forall (lane 8) a -> Forall (lane 8) b ->
  Forall3 (fun x k r => rotated_left 8 k x r) a b (rol8 a b).
Lemma byte_idx_ok (w16 : bool) (idx c : list Z) : length idx = 16%nat -> length c = 16%nat -> Forall (lane 8) idx ->
  map2 (fun u c => Z.lor (Z.land 7 u) (Z.land (255 - 7) c)) (if w16 then to8 (map (srli 16 3) (to16 idx)) else map (srli 8 3) idx) c =
  map2 (fun i c => Z.lor (q8 i) (Z.land 248 c)) idx c.
Proof.
  intros Hl Hc Hi. change (255 - 7) with 248.
  assert (G : forall u, map (Z.land 7) u = map q8 idx -> map2 (fun u c => Z.lor (Z.land 7 u) (Z.land 248 c)) u c = map2 (fun i c => Z.lor (q8 i) (Z.land 248 c)) idx c).
  { clear. unfold map2. revert idx. induction c as [|c0 c IH]; intros idx [|u0 u] H; destruct idx as [|i0 idx]; cbn in *; try discriminate; try reflexivity.
    injection H as E1 E2. rewrite (IH idx u) by exact E2. now rewrite E1. }
  apply G. destruct w16.
  - rewrite (map_ext (Z.land 7) (fun x => Z.land x 7)) by (intros; apply Z.land_comm). apply (to8_map_pair (srli 16 3) q8 7 idx).
    + exists 8%nat. lia.
    + exact Hi.
    + intros lo hi Hlo Hhi. rewrite !(Z.land_comm _ 7). now apply idx_pair.
  - rewrite map_map. apply map_ext_in. intros i Hin. rewrite Forall_forall in Hi. specialize (Hi i Hin). unfold q8. rewrite srli_spec by lia. unfold shr_spec.
    change (2 ^ 3) with 8. change 7 with (Z.ones 3). rewrite Z.land_comm. now rewrite Z.land_ones by lia.
Qed.
Theorem bit_shuffle_block_ok w16 rol8 base x0 x1 idx : rol8_op rol8 -> base mod 8 = 0 -> length idx = 16%nat -> Forall (lane 8) idx ->
  let r := bit_shuffle_block w16 rol8 base x0 x1 idx in bit_shuffled x0 (firstn 8 idx) (fst r) /\ bit_shuffled x1 (skipn 8 idx) (snd r).
Proof.
  intros Hrol Hb Hl Hi. cbv zeta. unfold bit_shuffle_block.
  change (le_bytes 8 0 ++ le_bytes 8 0x0808080808080808) with [0; 0; 0; 0; 0; 0; 0; 0; 8; 8; 8; 8; 8; 8; 8; 8].
  rewrite byte_idx_ok by (assumption || reflexivity).
  change (le_bytes 8 kExtractedBitsMask ++ le_bytes 8 kExtractedBitsMask) with [2 ^ 0; 2 ^ 1; 2 ^ 2; 2 ^ 3; 2 ^ 4; 2 ^ 5; 2 ^ 6; 2 ^ 7; 2 ^ 0; 2 ^ 1; 2 ^ 2; 2 ^ 3; 2 ^ 4; 2 ^ 5; 2 ^ 6; 2 ^ 7].
  set (v := le_bytes 8 x0 ++ le_bytes 8 x1). pose proof (fun q => lookup_lo x0 x1 q) as LO. pose proof (fun q => lookup_hi x0 x1 q) as HI. fold v in LO, HI. clearbody v.
  take4 idx Hl. take4 idx Hl. take4 idx Hl. take4 idx Hl. destruct idx; [|cbn in Hl; lia]. clear Hl Hi.
  unfold tbl_lookup, map2. cbn [combine map seq fst snd].
  rewrite !LO, !HI by apply q8_range. clear LO HI.
  match goal with |- context [rol8 ?A ?B] => set (va := A); set (vb := B); assert (R : Forall3 (fun x k r => rotated_left 8 k x r) va vb (rol8 va vb)) end.
  { apply Hrol; [reflexivity|reflexivity| |]; unfold va, vb; repeat (constructor; [first [apply byte_lane|unfold lane, wrap; apply Z.mod_pos_bound; lia]|]); constructor. }
  generalize dependent (rol8 va vb). intros rr R. unfold va, vb in R. clear va vb.
  do 16 (destruct rr as [|? rr]; [exfalso; cbn in R; tauto|]). destruct rr; [|exfalso; cbn in R; tauto].
  cbn [Forall3] in R. destruct R as (R0 & R1 & R2 & R3 & R4 & R5 & R6 & R7 & R8 & R9 & R10 & R11 & R12 & R13 & R14 & R15 & _).
  unfold vand, map2. cbn [combine map fst snd firstn skipn].
  rewrite !land_pow2 by lia.
  match goal with |- bit_shuffled _ _ (fold_right _ _ [if ?b0 then _ else _; if ?b1 then _ else _; if ?b2 then _ else _; if ?b3 then _ else _; if ?b4 then _ else _;
      if ?b5 then _ else _; if ?b6 then _ else _; if ?b7 then _ else _]) /\ bit_shuffled _ _ (fold_right _ _ [if ?c0 then _ else _; if ?c1 then _ else _; if ?c2 then _ else _;
      if ?c3 then _ else _; if ?c4 then _ else _; if ?c5 then _ else _; if ?c6 then _ else _; if ?c7 then _ else _]) =>
    pose proof (sum_bits b0 b1 b2 b3 b4 b5 b6 b7) as S; pose proof (sum_bits c0 c1 c2 c3 c4 c5 c6 c7) as T end.
  cbv zeta in S, T.
  match type of S with lane 8 ?x /\ _ => set (s := x) in * end. match type of T with lane 8 ?x /\ _ => set (t := x) in * end. clearbody s t.
  destruct S as (Sl & S0 & S1 & S2 & S3 & S4 & S5 & S6 & S7). destruct T as (Tl & T0 & T1 & T2 & T3 & T4 & T5 & T6 & T7).
  assert (BN : forall n j, 0 <= j < 8 -> n mod 8 = j -> (base + n) mod 8 = j).
  { intros n j Hj E. rewrite <- Zplus_mod_idemp_l, Hb. exact E. }
  split; (split; [assumption|]); intros j Hj; destruct j as [|[|[|[|[|[|[|[|j]]]]]]]]; try lia; cbn [nth]; intros Hn;
    cbn [Z.of_nat Pos.of_succ_nat Pos.succ].
  - rewrite S0. eapply select_bit; [exact Hn|apply (BN 0); [lia|reflexivity]|exact R0|reflexivity].
  - rewrite S1. eapply select_bit; [exact Hn|apply (BN 1); [lia|reflexivity]|exact R1|reflexivity].
  - rewrite S2. eapply select_bit; [exact Hn|apply (BN 2); [lia|reflexivity]|exact R2|reflexivity].
  - rewrite S3. eapply select_bit; [exact Hn|apply (BN 3); [lia|reflexivity]|exact R3|reflexivity].
  - rewrite S4. eapply select_bit; [exact Hn|apply (BN 4); [lia|reflexivity]|exact R4|reflexivity].
  - rewrite S5. eapply select_bit; [exact Hn|apply (BN 5); [lia|reflexivity]|exact R5|reflexivity].
  - rewrite S6. eapply select_bit; [exact Hn|apply (BN 6); [lia|reflexivity]|exact R6|reflexivity].
  - rewrite S7. eapply select_bit; [exact Hn|apply (BN 7); [lia|reflexivity]|exact R7|reflexivity].
  - rewrite T0. eapply select_bit; [exact Hn|apply (BN 8); [lia|reflexivity]|exact R8|reflexivity].
  - rewrite T1. eapply select_bit; [exact Hn|apply (BN 9); [lia|reflexivity]|exact R9|reflexivity].
  - rewrite T2. eapply select_bit; [exact Hn|apply (BN 10); [lia|reflexivity]|exact R10|reflexivity].
  - rewrite T3. eapply select_bit; [exact Hn|apply (BN 11); [lia|reflexivity]|exact R11|reflexivity].
  - rewrite T4. eapply select_bit; [exact Hn|apply (BN 12); [lia|reflexivity]|exact R12|reflexivity].
  - rewrite T5. eapply select_bit; [exact Hn|apply (BN 13); [lia|reflexivity]|exact R13|reflexivity].
  - rewrite T6. eapply select_bit; [exact Hn|apply (BN 14); [lia|reflexivity]|exact R14|reflexivity].
  - rewrite T7. eapply select_bit; [exact Hn|apply (BN 15); [lia|reflexivity]|exact R15|reflexivity].
Qed.
Theorem bit_shuffle_ok w16 rol8 base v idx : rol8_op rol8 -> base mod 8 = 0 -> length idx = length v -> Forall (fun i => length i = 16%nat /\ Forall (lane 8) i) idx ->
  Forall3 (fun p i r => bit_shuffled (fst p) (firstn 8 i) (fst r) /\ bit_shuffled (snd p) (skipn 8 i) (snd r)) v idx (bit_shuffle w16 rol8 base v idx).
Proof.
  intros Hrol. revert base idx. induction v as [|[x0 x1] v IH]; intros base [|i idx] Hb Hl Hi; cbn [length] in Hl; try lia; [exact I|].
  inversion_clear Hi as [|? ? [Hi1 Hi2] Hi']. cbn [bit_shuffle Forall3 fst snd]. split; [now apply (bit_shuffle_block_ok w16 rol8 base x0 x1 i)|].
  apply IH; [|lia|exact Hi']. rewrite <- Zplus_mod_idemp_l, Hb. reflexivity.
Qed.

(** *** MultiRotateRight *)
Definition qf (i : Z) : Z := shr_spec 3 (Z.land i 0x3F).
Definition sf (i : Z) : Z := Z.land (Z.land i 0x3F) 0x07.
Lemma qf_ok i : qf i = q8 i.
Proof.
  unfold qf, q8. apply Z.bits_inj'. intros n Hn. rewrite tb_shr by lia. rewrite Z.land_spec. change 0x3F with (2 ^ 6 - 1). rewrite tb_ones by lia.
  change (i / 8) with (shr_spec 3 i). change (shr_spec 3 i mod 8) with (wrap 3 (shr_spec 3 i)). rewrite tb_wrap by lia. rewrite tb_shr by lia. bcase; try lia; reflexivity.
Qed.
Lemma sf_ok i : sf i = i mod 8.
Proof.
  unfold sf. apply Z.bits_inj'. intros n Hn. rewrite !Z.land_spec. change 0x3F with (2 ^ 6 - 1). change 0x07 with (2 ^ 3 - 1). rewrite !tb_ones by lia.
  change (i mod 8) with (wrap 3 i). rewrite tb_wrap by lia. bcase; try lia; reflexivity.
Qed.
Definition h16 (x i : Z) : Z := byte_at x (q8 i) + 2 ^ 8 * byte_at x ((q8 i + 1) mod 8).
Definition g8 (x i : Z) : Z := wrap 8 (shr_spec (i mod 8) (h16 x i)).
Lemma seg_lookup x q : 0 <= q < 8 ->
  (if (0 <=? q) && (q <? 16) then nth (Z.to_nat q) (le_bytes 8 x ++ le_bytes 8 x) 255 else 255) = byte_at x q /\
  (if (0 <=? wrap 8 (q + 1)) && (wrap 8 (q + 1) <? 16) then nth (Z.to_nat (wrap 8 (q + 1))) (le_bytes 8 x ++ le_bytes 8 x) 255 else 255) = byte_at x ((q + 1) mod 8).
Proof. intros H. rewrite !le8. assert (C : q = 0 \/ q = 1 \/ q = 2 \/ q = 3 \/ q = 4 \/ q = 5 \/ q = 6 \/ q = 7) by lia. now destruct C as [->|[->|[->|[->|[->|[->|[->| ->]]]]]]]. Qed.
Lemma seg_ok x l : to16 (tbl_lookup (le_bytes 8 x ++ le_bytes 8 x) (interleave (map qf l) (map (fun i => wrap 8 (qf i + 1)) l))) = map (h16 x) l.
Proof.
  induction l as [|i l IH]; [reflexivity|]. cbn [map interleave]. rewrite qf_ok. unfold tbl_lookup in *. cbn [map to16].
  destruct (seg_lookup x (q8 i) (q8_range i)) as [-> ->]. rewrite IH. reflexivity.
Qed.
Lemma shift_idx_ok l n : (length l <= n)%nat -> to16 (interleave (map sf l) (repeat 0 n)) = map (fun i => i mod 8) l.
Proof.
  revert n. induction l as [|i l IH]; intros n Hn; [reflexivity|]. destruct n; [cbn in Hn; lia|]. cbn [map repeat interleave to16]. rewrite sf_ok.
  rewrite IH by (cbn in Hn; lia). f_equal. lia.
Qed.
Lemma to16_app a b : Nat.Even (length a) -> to16 (a ++ b) = to16 a ++ to16 b.
Proof. intros He. revert b. pattern a. apply to16_ind; [reflexivity| |exact He]. intros x y r IH b. cbn [app to16]. now rewrite IH. Qed.
Lemma interleave_length a b : length a = length b -> length (interleave a b) = (2 * length a)%nat.
Proof. revert b. induction a; intros [|y b] H; cbn in *; try lia. rewrite IHa by lia. lia. Qed.
Lemma to16_concat (l : list (list Z)) : Forall (fun a => Nat.Even (length a)) l -> to16 (concat l) = concat (map to16 l).
Proof. induction 1 as [|a l Ha _ IH]; [reflexivity|]. cbn [concat map]. now rewrite to16_app, IH. Qed.
Lemma even_to8 l : even_lanes (to8 l) = map (wrap 8) l.
Proof. induction l as [|x l IH]; [reflexivity|]. change (even_lanes (to8 (x :: l))) with (wrap 8 x :: even_lanes (to8 l)). now rewrite IH. Qed.
Lemma even_twice a : Nat.Even (2 * a). Proof. now exists a. Qed.
(** one half (even or odd lanes) *)
Lemma even_double n : Nat.Even (2 * n). Proof. now exists n. Qed.
Lemma map2_concat (f : Z -> Z -> Z) (A B : list (list Z)) : map (@length Z) A = map (@length Z) B -> map2 f (concat A) (concat B) = concat (map2 (map2 f) A B).
Proof.
  unfold map2. revert B. induction A as [|a A IH]; intros [|b B] H; cbn [map] in H; try discriminate; [reflexivity|]. injection H as H1 H2. cbn [concat combine map fst snd].
  rewrite <- (IH B H2). rewrite <- map_app. f_equal. clear -H1. revert b H1. induction a; intros [|y b] H1; cbn in *; try lia; [reflexivity|]. rewrite IHa by lia. reflexivity.
Qed.
Lemma groups_firstn k m L n r : length L = (k * n)%nat -> (n <= m)%nat -> firstn n (groups k m (L ++ r)) = groups k n L.
Proof.
  revert m L. induction n; intros m L HL Hm; [reflexivity|]. destruct m; [lia|]. cbn [groups firstn]. rewrite firstn_app, skipn_app.
  replace (k - length L)%nat with 0%nat by lia. cbn [firstn skipn]. rewrite app_nil_r. f_equal. apply IHn; [rewrite skipn_length; lia|lia].
Qed.
Lemma groups_concat2 k (l : list (list Z)) : Forall (fun a => length a = k) l -> groups k (length l) (concat l) = l.
Proof.
  induction 1 as [|a l Ha _ IH]; [reflexivity|]. cbn [length concat groups]. rewrite firstn_app, skipn_app, Ha, Nat.sub_diag. rewrite firstn_all2, skipn_all2 by lia.
  cbn [firstn skipn app]. now rewrite app_nil_r, IH.
Qed.
Lemma half_ok shr16 (ok : list Z -> Prop) (X : list Z) (J : list (list Z)) : vshr_op 16 shr16 ok ->
  length J = length X -> Forall (fun l => length l = 8%nat) J -> ok (concat (map2 (fun x l => map (h16 x) l) X J)) ->
  let segs := concat (map2 tbl_lookup (map (fun x => le_bytes 8 x ++ le_bytes 8 x) X) (map (fun l => interleave (map qf l) (map (fun i => wrap 8 (qf i + 1)) l)) J)) in
  let shifts := to16 (concat (map (fun l => interleave (map sf l) (repeat 0 8)) J)) in
  firstn (length X) (map of_bytes (groups 8 (2 * length X) (even_lanes (to8 (shr16 (to16 segs) shifts)) ++ repeat 0 (8 * length X)))) =
  map2 (fun x l => of_bytes (map (g8 x) l)) X J.
Proof.
  intros Hs HJ H8 Hok. cbv zeta.
  assert (E1 : to16 (concat (map2 tbl_lookup (map (fun x => le_bytes 8 x ++ le_bytes 8 x) X) (map (fun l => interleave (map qf l) (map (fun i => wrap 8 (qf i + 1)) l)) J))) =
    concat (map2 (fun x l => map (h16 x) l) X J)).
  { clear -HJ. unfold map2. revert J HJ. induction X as [|x X IH]; intros [|l J] HJ; cbn [length] in HJ; try lia; [reflexivity|]. cbn [map combine concat fst snd].
    rewrite to16_app; [|unfold tbl_lookup; rewrite map_length, interleave_length by (now rewrite !map_length); apply even_double].
    rewrite seg_ok, IH by lia. reflexivity. }
  assert (E2 : to16 (concat (map (fun l => interleave (map sf l) (repeat 0 8)) J)) = concat (map (map (fun i => i mod 8)) J)).
  { clear -H8. induction H8 as [|l J Hl _ IH]; [reflexivity|]. cbn [map concat]. rewrite to16_app; [|rewrite interleave_length by (rewrite map_length, repeat_length; exact Hl); apply even_double].
    rewrite shift_idx_ok by lia. now rewrite IH. }
  rewrite E1, E2.
  assert (E3 : map (@length Z) (map2 (fun x l => map (h16 x) l) X J) = map (@length Z) (map (map (fun i => i mod 8)) J)).
  { clear -HJ. unfold map2. revert J HJ. induction X as [|x X IH]; intros [|l J] HJ; cbn [length] in HJ; try lia; [reflexivity|]. cbn [map combine fst snd]. rewrite IH by lia. now rewrite !map_length. }
  assert (LC : forall A B : list (list Z), map (@length Z) A = map (@length Z) B -> length (concat A) = length (concat B)).
  { clear. induction A; intros [|b B] H; cbn [map] in H; try discriminate; [reflexivity|]. injection H as H1 H2. cbn [concat]. rewrite !app_length, H1, (IHA B H2). reflexivity. }
  rewrite Hs; [|exact Hok|now apply LC| |].
  - rewrite map2_concat by exact E3. rewrite even_to8, concat_map. rewrite firstn_map.
    assert (E4 : map (map (wrap 8)) (map2 (map2 (fun x k => shr_spec k x)) (map2 (fun x l => map (h16 x) l) X J) (map (map (fun i => i mod 8)) J)) = map2 (fun x l => map (g8 x) l) X J).
    { clear -HJ. unfold map2 at 1 3 4. revert J HJ. induction X as [|x X IH]; intros [|l J] HJ; cbn [length] in HJ; try lia; [reflexivity|]. cbn [map combine fst snd]. rewrite IH by lia.
      f_equal. rewrite map2_map, map_map. reflexivity. }
    rewrite E4.
    assert (E5 : Forall (fun a => length a = 8%nat) (map2 (fun x l => map (g8 x) l) X J) /\ length (map2 (fun x l => map (g8 x) l) X J) = length X).
    { clear -HJ H8. unfold map2. revert X HJ. induction H8 as [|l J Hl _ IH]; intros [|x X] HJ; cbn [length] in HJ; try lia; [split; [constructor|reflexivity]|].
      cbn [map combine fst snd length]. destruct (IH X ltac:(lia)) as [I1 I2]. split; [constructor; [now rewrite map_length|exact I1]|now rewrite I2]. }
    destruct E5 as [E5 E6].
    assert (LL : forall l : list (list Z), Forall (fun a => length a = 8%nat) l -> length (concat l) = (8 * length l)%nat).
    { clear. induction 1 as [|a l Ha _ IH]; [reflexivity|]. cbn [concat length]. rewrite app_length, Ha, IH. lia. }
    rewrite groups_firstn by (try (rewrite LL by exact E5; now rewrite E6); lia). rewrite <- E6 at 1. rewrite groups_concat2 by exact E5.
    unfold map2. rewrite map_map. reflexivity.
  - assert (LH : forall x i, lane 16 (h16 x i)) by (intros; apply (pair_lane 8); [lia|apply byte_lane|apply byte_lane]).
    apply Forall_concat. unfold map2. apply Forall_map, Forall_forall. intros [x l] _. cbn [fst snd]. apply Forall_map, Forall_forall. intros; apply LH.
  - apply Forall_concat, Forall_map, Forall_forall. intros l _. apply Forall_map, Forall_forall. intros i _. pose proof (Z.mod_pos_bound i 8 ltac:(lia)). lia.
Qed.
Definition shr3_op (shr3 : list Z -> list Z) (len : nat) : Prop := forall u, length u = len -> byte8 u -> shr3 u = map (shr_spec 3) u.
Lemma g8_ok x l : length l = 8%nat -> multi_rotated x l (of_bytes (map (g8 x) l)).
Proof.
  intros Hl. assert (B : Forall (lane 8) (map (g8 x) l)) by (apply Forall_map, Forall_forall; intros i _; unfold lane, g8, wrap; apply Z.mod_pos_bound; lia).
  split.
  - pose proof (of_bytes_lane _ B) as L. now rewrite map_length, Hl in L.
  - intros j t Hj Ht Hn. rewrite tb_byte by lia.
    replace ((8 * Z.of_nat j + t) / 8) with (Z.of_nat j) by (apply Z.div_unique with t; lia). replace ((8 * Z.of_nat j + t) mod 8) with t by (apply Z.mod_unique with (Z.of_nat j); lia).
    rewrite of_bytes_at by (try exact B; rewrite map_length; lia). rewrite (nth_indep _ 0 (g8 x 0)) by (rewrite map_length; lia). rewrite (map_nth (g8 x)).
    set (i := nth j l 0) in *. clearbody i. unfold g8, h16. rewrite q8_small by exact Hn.
    pose proof (Z.mod_pos_bound i 8 ltac:(lia)) as Hm. pose proof (Z.div_mod i 8 ltac:(lia)) as D. assert (Hq : 0 <= i / 8 < 8) by (split; [apply Z.div_pos; lia|apply Z.div_lt_upper_bound; lia]).
    rewrite tb_wrap, tb_shr by lia. rewrite tb_pair by (try apply byte_lane; lia). bcase; try lia.
    + rewrite (Z.mod_small (i + t)) by lia. rewrite (tb_byte x (i + t)) by lia. f_equal.
      * f_equal. apply Z.div_unique with (t + i mod 8); lia.
      * apply Z.mod_unique with (i / 8); lia.
    + rewrite (tb_byte x ((i + t) mod 64)) by (apply Z.mod_pos_bound; lia). destruct (Z.eq_dec (i / 8) 7) as [E|E].
      * rewrite E in D |- *. change ((7 + 1) mod 8) with 0. replace ((i + t) mod 64) with (t + i mod 8 - 8) by (apply Z.mod_unique with 1; lia). f_equal.
        -- f_equal. apply Z.div_unique with (t + i mod 8 - 8); lia.
        -- apply Z.mod_unique with 0; lia.
      * rewrite (Z.mod_small (i / 8 + 1)) by lia. rewrite (Z.mod_small (i + t)) by lia. f_equal.
        -- f_equal. apply Z.div_unique with (t + i mod 8 - 8); lia.
        -- apply Z.mod_unique with (i / 8 + 1); lia.
Qed.
Lemma masked_bytes m u : 0 <= m < 256 -> byte8 u -> byte8 (vand1 m u).
Proof.
  intros Hm Hu. unfold vand1. apply Forall_map. eapply Forall_impl; [|exact Hu]. intros x Hx.
  assert (E : Z.land x m = wrap 8 (Z.land x m)).
  { apply Z.bits_inj'. intros n Hn. rewrite tb_wrap by lia. bcase; [reflexivity|]. rewrite Z.land_spec, (tb_high 8 m) by lia. apply andb_false_r. }
  rewrite E. unfold lane, wrap. apply Z.mod_pos_bound. lia.
Qed.
Lemma F3_interleave X0 X1 J0 J1 : length X1 = length X0 -> length J0 = length X0 -> length J1 = length X0 -> Forall (fun l => length l = 8%nat) J0 -> Forall (fun l => length l = 8%nat) J1 ->
  Forall3 multi_rotated (interleave X0 X1) (concat (map2 (fun a b => [a; b]) J0 J1))
    (interleave (map2 (fun x l => of_bytes (map (g8 x) l)) X0 J0) (map2 (fun x l => of_bytes (map (g8 x) l)) X1 J1)).
Proof.
  intros L1 L2 L3 F0 F1. unfold map2. revert X0 X1 J1 L1 L2 L3 F1. induction F0 as [|l0 J0 Hl0 _ IH]; intros [|x0 X0] [|x1 X1] [|l1 J1] L1 L2 L3 F1; cbn [length] in *; try lia; [exact I|].
  inversion_clear F1 as [|? ? Hl1 F1']. cbn [map combine fst snd interleave concat app Forall3]. split; [now apply g8_ok|]. split; [now apply g8_ok|].
  apply IH; [lia..|exact F1'].
Qed.
Theorem multi_rotate_right_ok shr3 shr16 ok v idx : shr3_op shr3 16 -> vshr_op 16 shr16 ok -> (forall u, length u = (8 * length v)%nat -> ok u) ->
  length idx = length v -> Forall (fun i => length i = 16%nat /\ Forall (lane 8) i) idx ->
  Forall3 multi_rotated (interleave (map fst v) (map snd v)) (concat (map (fun i => [firstn 8 i; skipn 8 i]) idx)) (multi_rotate_right shr3 shr16 v idx).
Proof.
  intros H3 H16 Hok Hl Hi. unfold multi_rotate_right.
  assert (E1 : map shr3 (map (vand1 0x3F) idx) = map (map qf) idx).
  { rewrite map_map. apply map_ext_in. intros u Hu. rewrite Forall_forall in Hi. destruct (Hi u Hu) as [L B]. rewrite H3 by (first [unfold vand1; now rewrite map_length | apply masked_bytes; [lia|exact B]]).
    unfold vand1. rewrite map_map. reflexivity. }
  rewrite E1.
  assert (E2 : map (vand1 0x07) (map (vand1 0x3F) idx) = map (map sf) idx).
  { rewrite map_map. apply map_ext. intros u. unfold vand1. rewrite map_map. reflexivity. }
  rewrite E2. clear E1 E2 H3.
  assert (LF : forall (P : list Z -> list Z), (forall u, length u = 16%nat -> length (P u) = 8%nat) -> Forall (fun l => length l = 8%nat) (map P idx)).
  { intros P HP. apply Forall_map. eapply Forall_impl; [|exact Hi]. intros u [L _]. now apply HP. }
  assert (F0 := LF (firstn 8) ltac:(intros u Hu; rewrite firstn_length; lia)). assert (F1 := LF (skipn 8) ltac:(intros u Hu; rewrite skipn_length; lia)). clear LF.
  assert (G : forall (P : list Z -> list Z) (S : Z * Z -> Z), (forall u f, P (map f u) = map f (P u)) -> Forall (fun l => length l = 8%nat) (map P idx) ->
    firstn (length v) (map of_bytes (groups 8 (2 * length v) (even_lanes (to8 (shr16
      (to16 (concat (map2 tbl_lookup (map (fun p => le_bytes 8 (S p) ++ le_bytes 8 (S p)) v)
         (map2 (fun a b => interleave (P a) (P b)) (map (map qf) idx) (map (map (fun x => wrap 8 (x + 1))) (map (map qf) idx))))))
      (to16 (concat (map (fun s => interleave (P s) (repeat 0 8)) (map (map sf) idx)))))) ++ repeat 0 (8 * length v)))) =
    map2 (fun x l => of_bytes (map (g8 x) l)) (map S v) (map P idx)).
  { intros P S HP HF. rewrite <- (half_ok shr16 ok (map S v) (map P idx) H16).
    - cbv zeta. rewrite !map_length. rewrite !map_map. f_equal. f_equal. f_equal. f_equal. f_equal. f_equal. f_equal.
      + f_equal. f_equal. f_equal. unfold map2. clear -HP. induction idx as [|u idx IH]; [reflexivity|]. cbn [map combine fst snd]. rewrite IH. rewrite map_map, !HP. reflexivity.
      + f_equal. f_equal. apply map_ext. intros u. now rewrite HP.
    - now rewrite !map_length.
    - exact HF.
    - apply Hok. clear -Hl HF. unfold map2. revert v Hl. induction idx as [|u idx IH]; intros [|p v] Hl; cbn [length] in Hl; try lia; [reflexivity|].
      cbn [map] in HF. inversion_clear HF as [|? ? L R]. cbn [map combine concat fst snd length]. rewrite app_length, map_length, L, (IH R v ltac:(lia)). lia. }
  rewrite (G (firstn 8) fst (fun u f => firstn_map f 8 u) F0). rewrite (G (skipn 8) snd (fun u f => skipn_map f 8 u) F1).
  assert (E : concat (map (fun i => [firstn 8 i; skipn 8 i]) idx) = concat (map2 (fun a b => [a; b]) (map (firstn 8) idx) (map (skipn 8) idx))).
  { clear. unfold map2. induction idx as [|u idx IH]; [reflexivity|]. cbn [map combine concat fst snd app]. now rewrite IH. }
  rewrite E. apply F3_interleave; rewrite ?map_length; congruence || assumption.
Qed.
Theorem multi_rotate_right_1_ok shr3 shr16 ok x idx : shr3_op shr3 8 -> vshr_op 16 shr16 ok -> (forall u, length u = 8%nat -> ok u) ->
  length idx = 8%nat -> Forall (lane 8) idx -> multi_rotated x idx (multi_rotate_right_1 shr3 shr16 x idx).
Proof.
  intros H3 H16 Hok Hl Hi. unfold multi_rotate_right_1.
  rewrite H3 by (first [unfold vand1; now rewrite map_length | apply masked_bytes; [lia|exact Hi]]).
  unfold vand1. rewrite !map_map. change (fun x0 : Z => shr_spec 3 (Z.land x0 63)) with qf. change (fun x0 : Z => wrap 8 (shr_spec 3 (Z.land x0 63) + 1)) with (fun i => wrap 8 (qf i + 1)).
  change (fun x0 : Z => Z.land (Z.land x0 63) 7) with sf. rewrite seg_ok. rewrite (map_ext sf (fun i => i mod 8) sf_ok).
  rewrite H16.
  - rewrite map2_map, even_to8, map_map. rewrite firstn_app, map_length, Hl, Nat.sub_diag, firstn_O, app_nil_r, firstn_all2 by (rewrite map_length; lia).
    now apply g8_ok.
  - apply Hok. now rewrite map_length.
  - now rewrite !map_length.
  - apply Forall_map, Forall_forall. intros i _. apply (pair_lane 8); [lia|apply byte_lane|apply byte_lane].
  - apply Forall_map, Forall_forall. intros i _. pose proof (Z.mod_pos_bound i 8 ltac:(lia)). lia.
Qed.
