(** Integer conversions on x86: moving lanes, truncation. *)
From Coq Require Import ZArith List Bool Lia Arith.
From Verif Require Import Word Word_Proofs X86Int_Spec X86Int_Model X86Int_Proofs X86Int_Lane.
Import ListNotations.
Open Scope Z_scope.
Arguments Z.pow : simpl never.
Arguments Z.mul : simpl never.
Arguments Z.add : simpl never.
Arguments Z.of_nat : simpl never.
Ltac dreg r H := do 16 (destruct r as [|? r]; [discriminate H|]); destruct r; [|discriminate H].
Ltac dreg32 r H := do 32 (destruct r as [|? r]; [discriminate H|]); destruct r; [|discriminate H].
Ltac cases_lt i := first [exfalso; lia | destruct i as [|i]; [reflexivity | cases_lt i]].
Lemma firstn_skipn_swap {A} k s (l : list A) : firstn k (skipn s l) = skipn s (firstn (s + k) l).
Proof. revert l. induction s; intros [|x l]; cbn; auto. destruct k; reflexivity. Qed.
Lemma le_skipn k bs : Forall byte bs -> (k <= length bs)%nat -> le (skipn k bs) = le bs / 2 ^ bits k.
Proof.
  intros H. revert k. induction H as [|b bs Hb Hbs IH]; intros [|k] Hk; cbn [skipn le length] in *; try lia.
  1,2: change (2 ^ bits 0) with 1; rewrite Z.div_1_r; reflexivity.
  rewrite IH by lia. rewrite pow_bits_S. rewrite <- Z.div_div by (try lia; apply pow_bits_pos). f_equal. unfold byte in Hb. rewrite Z.mul_comm, Z.div_add by lia. rewrite Z.div_small by lia. reflexivity.
Qed.
Lemma ln_even s i r : Forall byte r -> ln s (2 * i) r = wrap (bits s) (ln (2 * s) i r).
Proof.
  intros H. unfold ln. rewrite <- le_firstn by (apply lane_bytes_byte; auto). f_equal. unfold lane_bytes. rewrite firstn_firstn. replace (Nat.min s (2 * s)) with s by lia. f_equal. f_equal. lia.
Qed.
Lemma ln_odd s i r : Forall byte r -> (i * (2 * s) + 2 * s <= length r)%nat -> ln s (2 * i + 1) r = ln (2 * s) i r / 2 ^ bits s.
Proof.
  intros H L. unfold ln. rewrite <- le_skipn. 2: apply lane_bytes_byte; auto. 2: unfold lane_bytes; rewrite firstn_length, skipn_length; lia. f_equal. unfold lane_bytes.
  replace (2 * s)%nat with (s + s)%nat at 1 by lia. rewrite <- firstn_skipn_swap. f_equal. 
  replace ((2 * i + 1) * s)%nat with (s + i * (2 * s))%nat by lia. clear. generalize (i * (2 * s))%nat. intros m. revert r. induction m; intros r; [rewrite Nat.add_0_r; reflexivity|].
  destruct r; [rewrite !skipn_nil; reflexivity|]. replace (s + S m)%nat with (S (s + m)) by lia. cbn [skipn]. apply IHm.
Qed.
(** the four moves *)
Lemma ln_sel0202 s i r : length r = 16%nat -> In s [1; 2; 4]%nat -> (i < 8 / s)%nat ->
  ln s i (select 4 [0; 2; 0; 2]%nat r) = ln s (if (i <? 4 / s)%nat then i else i + 4 / s) r.
Proof.
  intros H Hs Hi. dreg r H. cbn in Hs. repeat destruct Hs as [<-|Hs]; try contradiction; cbn in Hi; cases_lt i.
Qed.
Lemma ln_combine h s i a b : length a = 16%nat -> length b = 16%nat -> In (h, s) [(1, 1); (2, 1); (2, 2); (4, 1); (4, 2); (4, 4); (8, 1); (8, 2); (8, 4); (8, 8)]%nat -> (i < 2 * (h / s))%nat ->
  ln s i (combine_halves h b a) = if (i <? h / s)%nat then ln s i a else ln s (i - h / s) b.
Proof.
  intros Ha Hb Hs Hi. unfold combine_halves. dreg a Ha. dreg b Hb. cbn in Hs.
  repeat destruct Hs as [Hs|Hs]; try contradiction; injection Hs as <- <-; cbn in Hi; cases_lt i.
Qed.
Lemma combine_length h a b : length a = 16%nat -> length b = 16%nat -> In h [1; 2; 4; 8]%nat -> length (combine_halves h b a) = 16%nat.
Proof. intros Ha Hb Hs. unfold combine_halves. dreg a Ha. dreg b Hb. cbn in Hs. repeat destruct Hs as [<-|Hs]; try contradiction; reflexivity. Qed.
Lemma flat_byte (f : nat -> list Z) l : (forall i, Forall byte (f i)) -> Forall byte (flat_map f l).
Proof. intros H. induction l; cbn; auto. apply Forall_app; auto. Qed.
Lemma unpacklo_byte s a b : Forall byte a -> Forall byte b -> Forall byte (unpacklo s a b).
Proof. intros. apply flat_byte. intros. apply Forall_app; split; apply lane_bytes_byte; auto. Qed.
Lemma combine_byte h a b : Forall byte a -> Forall byte b -> Forall byte (combine_halves h b a).
Proof. intros. apply unpacklo_byte; auto. Qed.
Lemma select_byte s l r : Forall byte r -> Forall byte (select s l r).
Proof. intros. apply flat_byte. intros. apply lane_bytes_byte; auto. Qed.
Lemma pshufb_byte r idx : Forall byte r -> Forall byte (pshufb r idx).
Proof.
  intros H. unfold pshufb. apply Forall_forall. intros x Hx. apply in_map_iff in Hx. destruct Hx as (i & <- & _). destruct (128 <=? i); [unfold byte; lia|].
  destruct (nth_in_or_default (Z.to_nat (i mod 16)) r 0) as [I| ->]; [|unfold byte; lia]. rewrite Forall_forall in H. auto.
Qed.
Lemma srl_byte k r : Forall byte r -> Forall byte (srl_bytes k r).
Proof. intros. apply Forall_app; split; [apply Forall_skipn'; auto|]. apply Forall_forall. intros x Hx. apply repeat_spec in Hx. subst. unfold byte. lia. Qed.
(** ** ConcatOdd, ConcatEven *)
Definition concat_config (nb s : nat) : Prop := In (nb, s) [(2, 1); (4, 1); (8, 1); (16, 1); (4, 2); (8, 2); (16, 2); (8, 4); (16, 4); (16, 8)]%nat.
Lemma sat_u_small s x : (0 < s)%nat -> 0 <= x < 2 ^ bits s -> wrap (bits s) (sat false (bits s) (swrap (bits (2 * s)) (wrap (bits (2 * s)) x))) = x.
Proof.
  intros Hs Hx. assert (B : bits (2 * s) = 2 * bits s) by (unfold bits; lia). pose proof (bits_pos s Hs). rewrite B, swrap_wrap by lia. assert (M : 2 ^ bits s <= 2 ^ (2 * bits s - 1)) by (apply Z.pow_le_mono_r; lia).
  rewrite swrap_small by (unfold in_s; lia). unfold sat. destruct (Z.ltb_spec x 0); [lia|]. destruct (Z.ltb_spec (2 ^ bits s - 1) x); [lia|]. apply wrap_small; auto.
Qed.
Lemma sat_s_high s x : (0 < s)%nat -> 0 <= x < 2 ^ bits (2 * s) -> wrap (bits s) (sat true (bits s) (swrap (bits (2 * s)) (wrap (bits (2 * s)) (shr_s (bits (2 * s)) (bits s) x)))) = x / 2 ^ bits s.
Proof.
  intros Hs Hx. assert (B : bits (2 * s) = 2 * bits s) by (unfold bits; lia). pose proof (bits_pos s Hs). rewrite B in *. unfold shr_s. rewrite wrap_wrap, swrap_wrap by lia. rewrite (swrap_val (2 * bits s) x) by lia. rewrite Z.shiftr_div_pow2 by lia.
  pose proof (half_pow (bits s) ltac:(lia)) as [E1 P1]. assert (E2 : 2 ^ (2 * bits s) = 2 ^ bits s * 2 ^ bits s) by (rewrite <- Z.pow_add_r by lia; f_equal; lia).
  assert (E3 : 2 ^ (2 * bits s - 1) = 2 ^ (bits s - 1) * 2 ^ bits s) by (rewrite <- Z.pow_add_r by lia; f_equal; lia). rewrite E3, E2 in *. set (p := 2 ^ (bits s - 1)) in *. rewrite E1 in *. clear E1 E2 E3.
  assert (D : 0 <= x / (2 * p) < 2 * p) by (split; [apply Z.div_pos; lia | apply Z.div_lt_upper_bound; nia]).
  assert (W : forall y, y = x / (2 * p) \/ y = x / (2 * p) - 2 * p -> -p <= y < p -> wrap (bits s) (sat true (bits s) (swrap (2 * bits s) y)) = x / (2 * p)).
  { intros y Hy R. assert (M : 2 ^ (bits s - 1) <= 2 ^ (2 * bits s - 1)) by (apply Z.pow_le_mono_r; lia). fold p in M. rewrite swrap_small by (unfold in_s; lia). unfold sat. fold p. destruct (Z.ltb_spec y (- p)); [lia|]. destruct (Z.ltb_spec (p - 1) y); [lia|].
    assert (Q : 2 ^ bits s = 2 * p) by (apply half_pow; lia). destruct Hy as [-> | ->]; unfold wrap; rewrite Q; [apply Z.mod_small; lia|]. replace (x / (2 * p) - 2 * p) with (x / (2 * p) + (-1) * (2 * p)) by lia. rewrite Z.mod_add by lia. apply Z.mod_small; lia. }
  destruct (Z.ltb_spec x (p * (2 * p))).
  - apply W; auto. split; [lia|]. apply Z.div_lt_upper_bound; lia.
  - assert (Q : (x - 2 * p * (2 * p)) / (2 * p) = x / (2 * p) - 2 * p). { replace (x - 2 * p * (2 * p)) with (x + (- (2 * p)) * (2 * p)) by lia. rewrite Z.div_add by lia. lia. }
    rewrite Q. apply W; auto. assert (p <= x / (2 * p)) by (apply Z.div_le_lower_bound; lia). lia.
Qed.
Lemma ln_pack2_lo sg a b i : length a = 16%nat -> (i < 8)%nat -> ln 1 i (pack 2 sg a b) = wrap 8 (sat sg 8 (swrap 16 (ln 2 i a))).
Proof. intros Ha Hi. apply (ln_pack_lo 2 sg a b i). rewrite Ha. exact Hi. Qed.
Lemma ln_pack2_hi sg a b i : length a = 16%nat -> length b = 16%nat -> (8 <= i < 16)%nat -> ln 1 i (pack 2 sg a b) = wrap 8 (sat sg 8 (swrap 16 (ln 2 (i - 8) b))).
Proof. intros Ha Hb Hi. pose proof (ln_pack_hi 2 sg a b i) as H. rewrite Ha, Hb in H. apply H. exact Hi. Qed.
Lemma ln_pack4_lo sg a b i : length a = 16%nat -> (i < 4)%nat -> ln 2 i (pack 4 sg a b) = wrap 16 (sat sg 16 (swrap 32 (ln 4 i a))).
Proof. intros Ha Hi. apply (ln_pack_lo 4 sg a b i). rewrite Ha. exact Hi. Qed.
Lemma ln_pack4_hi sg a b i : length a = 16%nat -> length b = 16%nat -> (4 <= i < 8)%nat -> ln 2 i (pack 4 sg a b) = wrap 16 (sat sg 16 (swrap 32 (ln 4 (i - 4) b))).
Proof. intros Ha Hb Hi. pose proof (ln_pack_hi 4 sg a b i) as H. rewrite Ha, Hb in H. apply H. exact Hi. Qed.
Lemma ln_map1_16 s f r i : length r = 16%nat -> In s [1; 2; 4; 8]%nat -> (i < 16 / s)%nat -> ln s i (map1 s f r) = wrap (bits s) (f (ln s i r)).
Proof. intros Hr Hs Hi. apply ln_map1. rewrite Hr. exact Hi. Qed.
Lemma map1_16 s f r : length r = 16%nat -> In s [1; 2; 4; 8]%nat -> length (map1 s f r) = 16%nat.
Proof. intros Hr Hs. rewrite map1_length, Hr. cbn in Hs. repeat destruct Hs as [<-|Hs]; try contradiction; reflexivity. Qed.
Lemma pack_16 s sg a b : length a = 16%nat -> length b = 16%nat -> In s [2; 4]%nat -> length (pack s sg a b) = 16%nat.
Proof. intros Ha Hb Hs. rewrite pack_length, Ha, Hb. cbn in Hs. repeat destruct Hs as [<-|Hs]; try contradiction; reflexivity. Qed.
Ltac len := first [assumption | apply map1_16; [len | cbn; tauto] | apply pack_16; [len | len | cbn; tauto] | apply combine_length; [len | len | cbn; tauto] ].
Lemma odd8 j r : register 16 r -> (j < 8)%nat -> wrap 8 (sat false 8 (swrap 16 (ln 2 j (map1 2 (shr_u 8) r)))) = ln 1 (2 * j + 1) r.
Proof.
  intros [L B] Hj. rewrite ln_map1_16 by (auto; cbn; tauto). rewrite ln_odd by (auto; rewrite L; lia). change (2 * 1)%nat with 2%nat. unfold shr_u. rewrite Z.shiftr_div_pow2 by lia.
  pose proof (ln_range 2 j r B) as R. apply (sat_u_small 1); [lia|]. change (bits 2) with 16 in R. change (bits 1) with 8. change (2 ^ 16) with 65536 in R. change (2 ^ 8) with 256. Z.div_mod_to_equations. lia.
Qed.
Lemma even8 j r : register 16 r -> (j < 8)%nat -> wrap 8 (sat false 8 (swrap 16 (ln 2 j (map1 2 (Z.land 0xFF) r)))) = ln 1 (2 * j) r.
Proof.
  intros [L B] Hj. rewrite ln_map1_16 by (auto; cbn; tauto). rewrite ln_even by auto. rewrite Z.land_comm. change 0xFF with (2 ^ 8 - 1). rewrite land_ones' by lia.
  apply (sat_u_small 1); [lia|]. apply wrap_range. unfold bits; lia.
Qed.
Lemma odd16 j r : register 16 r -> (j < 4)%nat -> wrap 16 (sat true 16 (swrap 32 (ln 4 j (map1 4 (shr_s 32 16) r)))) = ln 2 (2 * j + 1) r.
Proof.
  intros [L B] Hj. rewrite ln_map1_16 by (auto; cbn; tauto). rewrite ln_odd by (auto; rewrite L; lia). apply (sat_s_high 2); [lia|]. apply ln_range; auto.
Qed.
Lemma even16 j r : register 16 r -> (j < 4)%nat -> wrap 16 (sat false 16 (swrap 32 (ln 4 j (map1 4 (Z.land 0xFFFF) r)))) = ln 2 (2 * j) r.
Proof.
  intros [L B] Hj. rewrite ln_map1_16 by (auto; cbn; tauto). rewrite ln_even by auto. rewrite Z.land_comm. change 0xFFFF with (2 ^ 16 - 1). rewrite land_ones' by lia.
  apply (sat_u_small 2); [lia|]. apply wrap_range. unfold bits; lia.
Qed.
Lemma shl_odd j r : register 16 r -> (j < 4)%nat -> ln 2 (2 * j + 1) (map1 4 (shl 32 16) r) = ln 2 (2 * j) r.
Proof.
  intros [L B] Hj. rewrite ln_odd by (try apply map1_byte; rewrite map1_16 by (auto; cbn; tauto); lia). change (2 * 2)%nat with 4%nat. rewrite ln_map1_16 by (auto; cbn; tauto). rewrite ln_even by auto. change (2 * 2)%nat with 4%nat.
  unfold shl. change (bits 4) with 32. rewrite wrap_wrap by lia. change (bits 2) with 16. rewrite Z.shiftl_mul_pow2 by lia. unfold wrap. change (2 ^ 32) with (2 ^ 16 * 2 ^ 16). rewrite Z.mul_mod_distr_r by lia. apply Z.div_mul. lia.
Qed.
Definition pick2 (n i : nat) (f : nat -> nat) (s : nat) (hi lo : reg) : Z := if (i <? n / 2)%nat then ln s (f i) lo else ln s (f (i - n / 2)%nat) hi.
Ltac enum Hx i := cbn [In] in Hx; repeat destruct Hx as [Hx|Hx]; try contradiction; injection Hx as <- <-; cbn in i.
Lemma concat_odd_sel t nb s hi lo i : length hi = 16%nat -> length lo = 16%nat -> In (nb, s) [(2, 1); (4, 2); (8, 4); (16, 4); (16, 8)]%nat -> (i < nb / s)%nat ->
  ln s i (concat_odd t nb s hi lo) = pick2 (nb / s) i (fun i => 2 * i + 1)%nat s hi lo.
Proof. intros Lh Ll Hx Hi. dreg hi Lh. dreg lo Ll. destruct t; enum Hx Hi; cases_lt i. Qed.
Lemma concat_odd_sel2 t nb s hi lo i : t <> SSE2 -> length hi = 16%nat -> length lo = 16%nat -> In (nb, s) [(4, 1); (8, 1); (8, 2)]%nat -> (i < nb / s)%nat ->
  ln s i (concat_odd t nb s hi lo) = pick2 (nb / s) i (fun i => 2 * i + 1)%nat s hi lo.
Proof. intros Ht Lh Ll Hx Hi. dreg hi Lh. dreg lo Ll. destruct t; [congruence| |]; enum Hx Hi; cases_lt i. Qed.
Lemma concat_even_sel t nb s hi lo i : length hi = 16%nat -> length lo = 16%nat -> In (nb, s) [(2, 1); (4, 2); (8, 4); (16, 4); (16, 8)]%nat -> (i < nb / s)%nat ->
  ln s i (concat_even t nb s hi lo) = pick2 (nb / s) i (fun i => 2 * i)%nat s hi lo.
Proof. intros Lh Ll Hx Hi. dreg hi Lh. dreg lo Ll. destruct t; enum Hx Hi; cases_lt i. Qed.
Lemma concat_even_sel2 t nb s hi lo i : t <> SSE2 -> length hi = 16%nat -> length lo = 16%nat -> In (nb, s) [(4, 1); (8, 1); (8, 2)]%nat -> (i < nb / s)%nat ->
  ln s i (concat_even t nb s hi lo) = pick2 (nb / s) i (fun i => 2 * i)%nat s hi lo.
Proof. intros Ht Lh Ll Hx Hi. dreg hi Lh. dreg lo Ll. destruct t; [congruence| |]; enum Hx Hi; cases_lt i. Qed.
Lemma concat_even_sel3 hi lo i : length hi = 16%nat -> length lo = 16%nat -> (i < 8)%nat ->
  ln 2 i (concat_even SSSE3 16 2 hi lo) = pick2 8 i (fun i => 2 * i)%nat 2 hi lo.
Proof. intros Lh Ll Hi. dreg hi Lh. dreg lo Ll. cases_lt i. Qed.
(** pack of both, then possibly the lower halves of each *)
Lemma pack_full2 sg a b i : length a = 16%nat -> length b = 16%nat -> (i < 16)%nat -> ln 1 i (pack 2 sg a b) = wrap 8 (sat sg 8 (swrap 16 (if (i <? 8)%nat then ln 2 i a else ln 2 (i - 8) b))).
Proof. intros. destruct (Nat.ltb_spec i 8); [apply ln_pack2_lo; auto | apply ln_pack2_hi; auto; lia]. Qed.
Lemma pack_full4 sg a b i : length a = 16%nat -> length b = 16%nat -> (i < 8)%nat -> ln 2 i (pack 4 sg a b) = wrap 16 (sat sg 16 (swrap 32 (if (i <? 4)%nat then ln 4 i a else ln 4 (i - 4) b))).
Proof. intros. destruct (Nat.ltb_spec i 4); [apply ln_pack4_lo; auto | apply ln_pack4_hi; auto; lia]. Qed.
Lemma pack_half2 sg a b i : length a = 16%nat -> length b = 16%nat -> (i < 8)%nat -> ln 1 i (select 4 [0; 2; 0; 2]%nat (pack 2 sg a b)) = wrap 8 (sat sg 8 (swrap 16 (if (i <? 4)%nat then ln 2 i a else ln 2 (i - 4) b))).
Proof.
  intros La Lb Hi. rewrite ln_sel0202 by (len || cbn; tauto). change (4 / 1)%nat with 4%nat. destruct (Nat.ltb_spec i 4); [apply ln_pack2_lo; auto; lia|]. rewrite ln_pack2_hi by (auto; lia). do 4 f_equal. lia.
Qed.
Lemma pack_half4 sg a b i : length a = 16%nat -> length b = 16%nat -> (i < 4)%nat -> ln 2 i (select 4 [0; 2; 0; 2]%nat (pack 4 sg a b)) = wrap 16 (sat sg 16 (swrap 32 (if (i <? 2)%nat then ln 4 i a else ln 4 (i - 2) b))).
Proof.
  intros La Lb Hi. rewrite ln_sel0202 by (len || cbn; tauto). change (4 / 2)%nat with 2%nat. destruct (Nat.ltb_spec i 2); [apply ln_pack4_lo; auto; lia|]. rewrite ln_pack4_hi by (auto; lia). do 4 f_equal. lia.
Qed.
Lemma concat_odd_ok t nb s hi lo i : concat_config nb s -> register 16 hi -> register 16 lo -> (i < nb / s)%nat -> ln s i (concat_odd t nb s hi lo) = pick2 (nb / s) i (fun i => 2 * i + 1)%nat s hi lo.
Proof.
  intros Hc Hh Hl Hi. pose proof Hh as [Lh Bh]. pose proof Hl as [Ll Bl].
  unfold concat_config in Hc. enum Hc Hi; try (apply concat_odd_sel; auto; cbn; tauto); unfold pick2.
  - destruct t; try (apply concat_odd_sel2; auto; try congruence; cbn; tauto). cbn [concat_odd]. cbn zeta. rewrite ln_pack2_lo by (len || lia). rewrite ln_combine by (len || cbn; tauto || lia).
    change (4 / 2)%nat with 2%nat. change (4 / 1 / 2)%nat with 2%nat. destruct (Nat.ltb_spec i 2); apply odd8; auto; lia.
  - destruct t; try (apply concat_odd_sel2; auto; try congruence; cbn; tauto). cbn [concat_odd]. rewrite pack_half2 by (len || lia). change (8 / 1 / 2)%nat with 4%nat. destruct (Nat.ltb_spec i 4); apply odd8; auto; lia.
  - cbn [concat_odd]. rewrite pack_full2 by (len || lia). change (16 / 1 / 2)%nat with 8%nat. destruct (Nat.ltb_spec i 8); apply odd8; auto; lia.
  - destruct t; try (apply concat_odd_sel2; auto; try congruence; cbn; tauto). cbn [concat_odd]. rewrite pack_half4 by (len || lia). change (8 / 2 / 2)%nat with 2%nat. destruct (Nat.ltb_spec i 2); apply odd16; auto; lia.
  - cbn [concat_odd]. rewrite pack_full4 by (len || lia). change (16 / 2 / 2)%nat with 4%nat. destruct (Nat.ltb_spec i 4); apply odd16; auto; lia.
Qed.
Lemma map1_reg s f r : register 16 r -> In s [1; 2; 4; 8]%nat -> register 16 (map1 s f r).
Proof. intros [L B] H. split; [apply map1_16; auto|apply map1_byte]. Qed.
Lemma concat_even_ok t nb s hi lo i : concat_config nb s -> register 16 hi -> register 16 lo -> (i < nb / s)%nat -> ln s i (concat_even t nb s hi lo) = pick2 (nb / s) i (fun i => 2 * i)%nat s hi lo.
Proof.
  intros Hc Hh Hl Hi. pose proof Hh as [Lh Bh]. pose proof Hl as [Ll Bl].
  unfold concat_config in Hc. enum Hc Hi; try (apply concat_even_sel; auto; cbn; tauto); unfold pick2.
  - destruct t; try (apply concat_even_sel2; auto; try congruence; cbn; tauto). cbn [concat_even]. cbn zeta. rewrite ln_pack2_lo by (len || lia). rewrite ln_combine by (len || cbn; tauto || lia).
    change (4 / 2)%nat with 2%nat. change (4 / 1 / 2)%nat with 2%nat. destruct (Nat.ltb_spec i 2); apply even8; auto; lia.
  - destruct t; try (apply concat_even_sel2; auto; try congruence; cbn; tauto). cbn [concat_even]. rewrite pack_half2 by (len || lia). change (8 / 1 / 2)%nat with 4%nat. destruct (Nat.ltb_spec i 4); apply even8; auto; lia.
  - cbn [concat_even]. rewrite pack_full2 by (len || lia). change (16 / 1 / 2)%nat with 8%nat. destruct (Nat.ltb_spec i 8); apply even8; auto; lia.
  - destruct t; try (apply concat_even_sel2; auto; try congruence; cbn; tauto). change (concat_even SSE2 8 2 hi lo) with (concat_odd SSE2 8 2 (map1 4 (shl 32 16) hi) (map1 4 (shl 32 16) lo)).
    rewrite concat_odd_ok by (try (apply map1_reg; auto; cbn; tauto); auto; cbn; tauto). unfold pick2. change (8 / 2 / 2)%nat with 2%nat. destruct (Nat.ltb_spec i 2); apply shl_odd; auto; lia.
  - destruct t.
    + change (concat_even SSE2 16 2 hi lo) with (concat_odd SSE2 16 2 (map1 4 (shl 32 16) hi) (map1 4 (shl 32 16) lo)).
      rewrite concat_odd_ok by (try (apply map1_reg; auto; cbn; tauto); auto; cbn; tauto). unfold pick2. change (16 / 2 / 2)%nat with 4%nat. destruct (Nat.ltb_spec i 4); apply shl_odd; auto; lia.
    + apply concat_even_sel3; auto.
    + cbn [concat_even]. rewrite pack_full4 by (len || lia). change (16 / 2 / 2)%nat with 4%nat. destruct (Nat.ltb_spec i 4); apply even16; auto; lia.
Qed.
