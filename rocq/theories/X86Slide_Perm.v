(** CombineShiftRightBytes, Reverse and Broadcast on x86: proofs. *)
From Coq Require Import ZArith List Bool Lia Arith.
From Verif Require Import Word Word_Proofs Float_Conv X86Int_Spec X86Int_Model X86Int_Proofs X86Int_Lane X86Int_Sel X86Int_Main X86Int_Two X86Mul_Model X86Mul_Move X86Slide_Model X86Slide_Proofs X86Slide_More.
Import ListNotations.
Open Scope Z_scope.
Arguments Z.pow : simpl never.
Arguments Z.mul : simpl never.
Arguments Z.add : simpl never.
Arguments Z.of_nat : simpl never.
Lemma ln1 i r : (i < length r)%nat -> ln 1 i r = nth i r 0.
Proof. intros H. unfold ln, lane_bytes. rewrite <- unsigned_at_ln by lia. cbn [unsigned_at]. rewrite Nat.mul_1_r. lia. Qed.
Lemma nth_app' (a b : reg) p : nth p (a ++ b) 0 = if (p <? length a)%nat then nth p a 0 else nth (p - length a) b 0.
Proof. destruct (Nat.ltb_spec p (length a)); [apply app_nth1; auto | apply app_nth2; auto]. Qed.
Lemma nth_palignr k hi lo p : length lo = 16%nat -> (p < 16)%nat -> nth p (palignr k hi lo) 0 = if (k + p <? 16)%nat then nth (k + p) lo 0 else nth (k + p - 16) hi 0.
Proof. intros L Hp. unfold palignr. rewrite nth_firstn'. apply Nat.ltb_lt in Hp. rewrite Hp, nth_skipn', nth_app', L. reflexivity. Qed.
Lemma combine_shift_ok t nb k hi lo p : In nb [2; 4; 8; 16]%nat -> (0 < k < nb)%nat -> register 16 hi -> register 16 lo -> (p < nb)%nat ->
  nth p (combine_shift_right t nb k hi lo) 0 = if (p + k <? nb)%nat then nth (p + k) lo 0 else nth (p + k - nb) hi 0.
Proof.
  intros Hn Hk Rh Rl Hp. assert (N : (nb <= 16)%nat) by (cbn in Hn; lia). assert (A : forall hi' lo', register 16 lo' -> (forall q, (16 - nb <= q < 16)%nat -> nth q lo' 0 = nth (q - (16 - nb)) lo 0) -> hi' = hi ->
    nth p (palignr (16 - nb + k) hi' lo') 0 = if (p + k <? nb)%nat then nth (p + k) lo 0 else nth (p + k - nb) hi 0).
  { intros hi' lo' R' H ->. rewrite nth_palignr by (try apply R'; lia). destruct (Nat.ltb_spec (16 - nb + k + p) 16), (Nat.ltb_spec (p + k) nb); try lia; [rewrite H by lia; f_equal; lia | f_equal; lia]. }
  assert (B : nth p (if (nb =? 16)%nat then palignr k hi lo else palignr (16 - nb + k) hi (shift_left_bytes (16 - nb) lo)) 0 = if (p + k <? nb)%nat then nth (p + k) lo 0 else nth (p + k - nb) hi 0).
  { destruct (Nat.eqb_spec nb 16) as [->|D]; [apply (A hi lo); auto; intros; f_equal; lia|]. apply A; auto; [apply sll_reg; auto; lia|]. intros q Hq. unfold shift_left_bytes. rewrite nth_sll by lia. destruct (Nat.ltb_spec q (16 - nb)); [lia | reflexivity]. }
  unfold combine_shift_right. destruct t; try exact B. clear A B. destruct (Nat.eqb_spec nb 16) as [->|D].
  - unfold shift_right_bytes, shift_left_bytes. cbn [Nat.eqb]. rewrite nth_or by (rewrite (proj1 (srl_reg' k lo ltac:(lia) Rl)), (proj1 (sll_reg (16 - k) hi ltac:(lia) Rh)); reflexivity).
    rewrite nth_srl, nth_sll by lia. destruct (Nat.ltb_spec p (16 - k)), (Nat.ltb_spec (p + k) 16); try lia; [rewrite Z.lor_0_r; f_equal; lia|]. rewrite (nth_out lo) by (try apply Rl; lia). rewrite Z.lor_0_l. f_equal. lia.
  - assert (C : In nb [2; 4; 8]%nat) by (cbn [In] in *; lia). assert (R : register 16 (combine_halves nb hi lo)) by (apply combine_reg; auto; cbn [In] in *; tauto).
    rewrite shift_right_ok; [| cbn [In] in *; lia | auto | lia]. assert (N8 : (nb <= 8)%nat) by (cbn [In] in C; lia). destruct (Nat.ltb_spec (p + k) (2 * nb)); [|lia]. rewrite <- ln1 by (rewrite (proj1 R); lia).
    rewrite ln_combine; [| apply Rl | apply Rh | cbn [In] in *; repeat destruct C as [<-|C]; try contradiction; tauto | rewrite Nat.div_1_r; lia]. rewrite Nat.div_1_r.
    destruct (Nat.ltb_spec (p + k) nb); apply ln1; rewrite ?(proj1 Rl), ?(proj1 Rh); lia.
Qed.
(** ** selections of whole lanes *)
Lemma lane_flat s (f : nat -> list Z) l i : (forall j, In j l -> length (f j) = s) -> (i < length l)%nat -> lane_bytes s i (flat_map f l) = f (nth i l 0%nat).
Proof.
  unfold lane_bytes. revert i. induction l as [|x l IH]; intros i H Hi; [cbn in Hi; lia|]. pose proof (H x (or_introl eq_refl)) as Hx. cbn [flat_map]. destruct i as [|i].
  - cbn [Nat.mul skipn nth]. rewrite firstn_app, Hx, Nat.sub_diag. cbn [firstn]. rewrite app_nil_r. apply firstn_all2. lia.
  - cbn [nth]. rewrite <- IH; [| intros; apply H; right; auto | cbn in Hi; lia]. f_equal. rewrite skipn_app, Hx. rewrite skipn_all2 by (rewrite Hx; cbn [Nat.mul]; lia). cbn [app]. f_equal. cbn [Nat.mul]. lia.
Qed.
Lemma lane_select s idx r i : (forall j, In j idx -> (j * s + s <= length r)%nat) -> (i < length idx)%nat -> ln s i (select s idx r) = ln s (nth i idx 0%nat) r.
Proof.
  intros H Hi. unfold ln, select. rewrite lane_flat; auto. intros j Hj. specialize (H j Hj). unfold lane_bytes. rewrite firstn_length, skipn_length. lia.
Qed.
Lemma broadcast_select t s k v : size s -> (k < 16 / s)%nat -> length v = 16%nat -> broadcast t s k v = select s (repeat k (16 / s)) v.
Proof. intros Hs Hk L. dreg v L. sizes4 Hs; cbn in Hk; destruct t; cases_lt k. Qed.
Lemma broadcast_ok t s k v i : size s -> (k < 16 / s)%nat -> register 16 v -> (i < 16 / s)%nat -> ln s i (broadcast t s k v) = ln s k v.
Proof.
  intros Hs Hk [L B] Hi. rewrite broadcast_select by auto. rewrite lane_select.
  - f_equal. assert (forall m j, (j < m)%nat -> nth j (repeat k m) 0%nat = k) as R by (induction m; intros [|j]; cbn; intros; auto; try lia; apply IHm; lia). apply R. auto.
  - intros j Hj. apply repeat_spec in Hj. subst j. rewrite L. sizes4 Hs; cbn in Hk; lia.
  - rewrite repeat_length. auto.
Qed.
Lemma broadcast_byte t s k v : size s -> (k < 16 / s)%nat -> register 16 v -> register 16 (broadcast t s k v).
Proof.
  intros Hs Hk [L B]. rewrite broadcast_select by auto. split; [|apply select_byte; auto]. clear B. dreg v L. sizes4 Hs; cbn in Hk; cases_lt k.
Qed.
(** ** Reverse *)
Lemma rotate_pair x y : byte x -> byte y -> bytes 2 (rotate8 (x + 256 * (y + 256 * 0))) = [y; x].
Proof.
  intros Hx Hy. unfold byte in *. unfold rotate8, shr_u, shl. rewrite Z.shiftr_div_pow2, Z.shiftl_mul_pow2 by lia. change (2 ^ 8) with 256. replace ((x + 256 * (y + 256 * 0)) / 256) with y by (Z.div_mod_to_equations; lia).
  assert (wrap 16 ((x + 256 * (y + 256 * 0)) * 256) = x * 2 ^ 8) as ->.
  { unfold wrap. change (2 ^ 16) with 65536. change (2 ^ 8) with 256. Z.div_mod_to_equations. lia. }
  rewrite Z.lor_comm, lor_shift_add by (change (2 ^ 8) with 256; lia). replace (x * 2 ^ 8 + y) with (le [y; x]) by (cbn [le]; change (2 ^ 8) with 256; lia). apply (bytes_le [y; x]). repeat constructor; auto; lia.
Qed.
Fixpoint swap_pairs (r : list Z) : list Z := match r with x :: y :: t => y :: x :: swap_pairs t | _ => r end.
Lemma rotate_swap r : register 16 r -> map1 2 rotate8 r = swap_pairs r.
Proof.
  intros [L B]. dreg r L. do 16 (match goal with B : Forall _ (_ :: _) |- _ => inversion B; clear B; subst end). unfold map1, lanes, of_lanes.
  cbn [length Nat.div Nat.divmod fst seq map flat_map lane_bytes skipn firstn Nat.mul Nat.add le app]. rewrite !rotate_pair by auto. reflexivity.
Qed.
Lemma reverse_reg t s n v : cfg s n -> register 16 v -> register 16 (reverse t s n v).
Proof.
  intros Hc R. pose proof R as [L B]. cfgs_tac Hc; destruct t; try exact R; cbn [reverse Nat.eqb reverse16 Nat.div Nat.divmod fst Nat.sub];
    first [ rewrite rotate_swap by auto; assert (Forall byte (swap_pairs v)) by (rewrite <- rotate_swap by auto; apply map1_byte) | idtac ];
    (split; [ clear - L; dreg v L; reflexivity | first [ apply pshufb_byte; auto | repeat apply select_byte; auto ] ]).
Qed.
Lemma reverse_ok t s n v i : cfg s n -> register 16 v -> (i < n)%nat -> ln s i (reverse t s n v) = ln s (n - 1 - i) v.
Proof.
  intros Hc R Hi. pose proof R as [L B]. cfgs_tac Hc; destruct t; try (destruct i; [reflexivity | exfalso; lia]); cbn [reverse Nat.eqb]; rewrite ?rotate_swap by auto; clear B R; dreg v L; cases_lt i.
Qed.
