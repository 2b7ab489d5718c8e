(** Table lookups on x86: two tables. *)
From Coq Require Import ZArith List Bool Lia Arith.
From Verif Require Import Word Word_Proofs Float_Conv X86Int_Spec X86Int_Model X86Int_Proofs X86Int_Lane X86Int_Sel X86Int_Main X86Int_Two X86Mul_Model Properties_X86Int X86Mul_Move X86Slide_Model X86Slide_Proofs X86Slide_More X86Slide_Perm X86Table_Model X86Table_Proofs X86Table_More.
Import ListNotations.
Open Scope Z_scope.
Arguments Z.pow : simpl never.
Arguments Z.mul : simpl never.
Arguments Z.add : simpl never.
Arguments Z.of_nat : simpl never.
Lemma all_below (P : Z -> bool) k : forallb P (map Z.of_nat (seq 0 k)) = true -> forall x, 0 <= x < Z.of_nat k -> P x = true.
Proof. intros H x Hx. rewrite forallb_forall in H. apply H. apply in_map_iff. exists (Z.to_nat x). split; [lia|]. apply in_seq. lia. Qed.
Lemma bit7 y : 0 <= y < 32 -> Z.testbit (y * 2 ^ 3) 7 = (16 <=? y).
Proof. intros H. apply Bool.eqb_prop. apply (all_below (fun y => Bool.eqb (Z.testbit (y * 2 ^ 3) 7) (16 <=? y)) 32 eq_refl). exact H. Qed.
Lemma bit31 y : 0 <= y < 8 -> Z.testbit (wrap 32 (shl 32 29 y)) 31 = (4 <=? y).
Proof. intros H. apply Bool.eqb_prop. apply (all_below (fun y => Bool.eqb (Z.testbit (wrap 32 (shl 32 29 y)) 31) (4 <=? y)) 8 eq_refl). exact H. Qed.
Lemma bit63 y : 0 <= y < 4 -> Z.testbit (wrap 64 (shl 64 62 y)) 63 = (2 <=? y).
Proof. intros H. apply Bool.eqb_prop. apply (all_below (fun y => Bool.eqb (Z.testbit (wrap 64 (shl 64 62 y)) 63) (2 <=? y)) 4 eq_refl). exact H. Qed.
Lemma gt8 y : 0 <= y < 32 -> wrap 8 (gt 8 y 15) = full 8 (16 <=? y).
Proof. intros H. apply Z.eqb_eq. apply (all_below (fun y => wrap 8 (gt 8 y 15) =? full 8 (16 <=? y)) 32 eq_refl). exact H. Qed.
Lemma gt16 y : 0 <= y < 16 -> wrap 16 (gt 16 y 7) = full 16 (8 <=? y).
Proof. intros H. apply Z.eqb_eq. apply (all_below (fun y => wrap 16 (gt 16 y 7) =? full 16 (8 <=? y)) 16 eq_refl). exact H. Qed.
Lemma gt32 y : 0 <= y < 8 -> wrap 32 (gt 32 y 3) = full 32 (4 <=? y).
Proof. intros H. apply Z.eqb_eq. apply (all_below (fun y => wrap 32 (gt 32 y 3) =? full 32 (4 <=? y)) 8 eq_refl). exact H. Qed.
Lemma gt32_1 y : 0 <= y < 4 -> wrap 32 (gt 32 y 1) = full 32 (2 <=? y).
Proof. intros H. apply Z.eqb_eq. apply (all_below (fun y => wrap 32 (gt 32 y 1) =? full 32 (2 <=? y)) 4 eq_refl). exact H. Qed.
Lemma ln_gather_mod s v idx i : size s -> register 16 v -> register 16 idx -> (i < 16 / s)%nat -> ln s i (gather s v idx) = ln s (Z.to_nat (ln s i idx mod Z.of_nat (16 / s))) v.
Proof.
  intros Hs [Lv Bv] [Li Bi] Hi. unfold gather. rewrite ln_of_lanes by (rewrite map_length, lanes_length, Li; auto). rewrite (nth_map' _ _ i 0) by (rewrite lanes_length, Li; auto). rewrite (nth_lanes s idx) by (rewrite Li; auto).
  assert (Z.land (ln s i idx) (Z.of_nat (16 / s) - 1) = ln s i idx mod Z.of_nat (16 / s)) as ->.
  { sizes4 Hs; [change (Z.of_nat (16 / 1)) with (2 ^ 4) | change (Z.of_nat (16 / 2)) with (2 ^ 3) | change (Z.of_nat (16 / 4)) with (2 ^ 2) | change (Z.of_nat (16 / 8)) with (2 ^ 1)]; rewrite land_ones' by lia; reflexivity. }
  assert (0 <= ln s i idx mod Z.of_nat (16 / s) < Z.of_nat (16 / s)) by (apply Z.mod_pos_bound; lia).
  rewrite nth_lanes by (rewrite Lv; lia). apply wrap_small. apply ln_range; auto.
Qed.
Lemma gather_reg s v idx : size s -> register 16 idx -> register 16 (gather s v idx).
Proof. intros Hs [Li Bi]. split; [|apply of_lanes_byte]. unfold gather. rewrite of_lanes_length, map_length, lanes_length, Li. sizes4 Hs; reflexivity. Qed.
(** bytes *)
Lemma two8_byte t a b idx p : register 16 a -> register 16 b -> register 16 idx -> (forall q, (q < 16)%nat -> nth q idx 0 < 32) -> (p < 16)%nat ->
  nth p (two_tables8 t a b idx) 0 = if 16 <=? nth p idx 0 then nth (Z.to_nat (nth p idx 0 - 16)) b 0 else nth (Z.to_nat (nth p idx 0)) a 0.
Proof.
  intros Ra Rb Ri X Hp. pose proof Ri as [L B]. pose proof (nth_byte p idx B) as Y0. pose proof (X p Hp) as Y1. unfold two_tables8. cbv zeta.
  assert (Rt : forall v, register 16 v -> register 16 (table_bytes t v idx)) by (intros; apply table_reg; auto).
  set (m := match t with SSE4 => map1 2 (shl 16 3) idx | _ => map1 1 (fun x => gt 8 x 15) idx end).
  assert (Rm : register 16 m) by (unfold m; destruct t; apply map1_reg; auto; first [apply size1 | apply size2]).
  assert (S : selects t (nth p m 0) (16 <=? nth p idx 0)).
  { assert (F : nth p (map1 1 (fun x => gt 8 x 15) idx) 0 = full 8 (16 <=? nth p idx 0)).
    { pose proof (map1_reg 1 (fun x => gt 8 x 15) idx Ri size1) as R1. rewrite <- (ln1 p (map1 1 _ idx)) by (rewrite (proj1 R1); auto). rewrite ln_map1' by (auto; apply size1). rewrite (ln1 p idx) by (rewrite L; auto). apply gt8. lia. }
    unfold m. destruct t; cbn [selects]; try exact F. rewrite nth_shl16; auto; [| lia | intros q Hq; specialize (X q Hq); change (2 ^ 3) with 8; lia]. split; [change (2 ^ 3) with 8; lia | apply bit7; lia]. }
  rewrite (nth_ite t m _ _ p _ Rm (Rt b Rb) (Rt a Ra) Hp S). rewrite !nth_table by (rewrite ?L; lia). destruct (Z.leb_spec 16 (nth p idx 0)); do 2 f_equal.
  - rewrite <- (Z.mod_small (nth p idx 0 - 16) 16) by lia. rewrite <- (Z.mod_add (nth p idx 0 - 16) 1 16) by lia. f_equal. lia.
  - apply Z.mod_small. lia.
Qed.
Lemma two8_lane t s n i x a b idx : size s -> (n * s = 16)%nat -> (i < n)%nat -> register 16 a -> register 16 b -> register 16 idx -> (forall q, (q < 16)%nat -> nth q idx 0 < 32) -> 0 <= x ->
  (forall q, (q < s)%nat -> nth (i * s + q) idx 0 = x * Z.of_nat s + Z.of_nat q) ->
  ln s i (two_tables8 t a b idx) = if x <? Z.of_nat n then ln s (Z.to_nat x) a else ln s (Z.to_nat (x - Z.of_nat n)) b.
Proof.
  intros Hs Hn Hi Ra Rb Ri X X0 H. pose proof (size_pos s Hs) as S0. assert (I : (i * s + s <= 16)%nat) by nia. assert (XS : 0 <= x * Z.of_nat s) by (apply Z.mul_nonneg_nonneg; lia). assert (NS : Z.of_nat n * Z.of_nat s = 16) by lia.
  assert (N : forall q, (q < s)%nat -> nth (i * s + q) (two_tables8 t a b idx) 0 = if x <? Z.of_nat n then nth (Z.to_nat x * s + q) a 0 else nth (Z.to_nat (x - Z.of_nat n) * s + q) b 0).
  { intros q Hq. rewrite two8_byte by (auto; lia). rewrite H by auto. destruct (Z.ltb_spec x (Z.of_nat n)) as [C|C].
    - assert (16 <=? x * Z.of_nat s + Z.of_nat q = false) as -> by (apply Z.leb_gt; nia). f_equal. rewrite Z2Nat.inj_add, Z2Nat.inj_mul by lia. rewrite !Nat2Z.id. reflexivity.
    - assert (16 <= x * Z.of_nat s) by nia. assert (16 <=? x * Z.of_nat s + Z.of_nat q = true) as -> by (apply Z.leb_le; lia). f_equal. replace (x * Z.of_nat s + Z.of_nat q - 16) with ((x - Z.of_nat n) * Z.of_nat s + Z.of_nat q) by lia.
      rewrite Z2Nat.inj_add, Z2Nat.inj_mul by nia. rewrite !Nat2Z.id. reflexivity. }
  destruct (x <? Z.of_nat n); rewrite <- !lvu; apply lane_ext; intros q Hq; apply N; auto.
Qed.
(** the low halves of 64-bit indices *)
Lemma pairs_low j idx : (j < 4)%nat -> length idx = 16%nat -> ln 4 j (select 4 [0; 0; 2; 2]%nat idx) = ln 4 (2 * (j / 2)) idx.
Proof. intros Hj L. dreg idx L. cases_lt j. Qed.
Lemma mask64 idx i q : register 16 idx -> (i < 2)%nat -> ln 8 i idx < 4 -> (q < 8)%nat -> nth (i * 8 + q) (map1 4 (fun x => gt 32 x 1) (select 4 [0; 0; 2; 2]%nat idx)) 0 = full 8 (2 <=? ln 8 i idx).
Proof.
  intros R Hi X Hq. assert (Rs : register 16 (select 4 [0; 0; 2; 2]%nat idx)) by (apply select4_ok; auto; cbn [In]; intros; lia). set (j := (2 * i + q / 4)%nat). assert (D : (q / 4 < 2 /\ q mod 4 < 4 /\ q = 4 * (q / 4) + q mod 4)%nat) by (split; [apply Nat.div_lt_upper_bound; lia | split; [apply Nat.mod_upper_bound; lia | apply Nat.div_mod; lia]]).
  destruct D as (D1 & D2 & D3). replace (i * 8 + q)%nat with (j * 4 + q mod 4)%nat by (unfold j; lia). assert (J : (j < 4)%nat) by (unfold j; lia). assert (J2 : (j / 2 = i)%nat) by (unfold j; rewrite Nat.mul_comm, Nat.div_add_l, (Nat.div_small (q / 4)) by lia; lia).
  apply (full_bytes 4 j); auto; [apply size4 | apply map1_reg; [auto | apply size4] |]. rewrite ln_map1' by (auto; apply size4). rewrite pairs_low by (auto; apply R). rewrite J2. rewrite (ln_even 4 i idx) by apply R. change (2 * 4)%nat with 8%nat. pose proof (ln_range 8 i idx (proj2 R)) as Y.
  rewrite (wrap_small (bits 4) (ln 8 i idx)) by (change (2 ^ bits 4) with 4294967296; lia). apply gt32_1. lia.
Qed.
Lemma lookup64_reg t avx2 v idx : register 16 v -> register 16 idx -> register 16 (table_lookup t avx2 8 2 v idx).
Proof.
  intros Rv Ri. unfold table_lookup. cbn [Nat.eqb]. destruct avx2.
  - pose proof (map2_reg 8 Z.add idx idx size8 Ri Ri) as [L B]. split; [|apply of_lanes_byte]. unfold permutevar_pd, add. rewrite of_lanes_length, map_length, lanes_length, L. reflexivity.
  - destruct (const64 0 1 ltac:(lia) ltac:(lia)) as (R0 & _). destruct (const64 1 1 ltac:(lia) ltac:(lia)) as (R1 & _). cbv zeta. apply ite_reg; auto; [apply size1 | | apply select4_ok; auto; cbn [In]; intros; lia].
    apply map2_reg; [apply size8 | | exact R1]. apply map2_reg; [apply size8 | exact Ri | exact R0].
Qed.
Lemma mod_split x n : 0 < n -> 0 <= x < 2 * n -> x mod n = if x <? n then x else x - n.
Proof. intros H0 H. destruct (Z.ltb_spec x n); [apply Z.mod_small; lia|]. rewrite <- (Z.mod_small (x - n) n) by lia. rewrite <- (Z.mod_add (x - n) 1 n) by lia. f_equal. lia. Qed.
Lemma two_ok t avx2 s n a b vec i : config t avx2 -> cfg s n -> register 16 a -> register 16 b -> register 16 vec -> (forall j, (j < n)%nat -> ln s j vec < Z.of_nat (2 * n)) -> (i < n)%nat ->
  ln s i (two_tables t avx2 s n a b (indices_from_vec t avx2 s n vec)) = if ln s i vec <? Z.of_nat n then ln s (Z.to_nat (ln s i vec)) a else ln s (Z.to_nat (ln s i vec - Z.of_nat n)) b.
Proof.
  intros C Hc Ra Rb Rx X Hi. pose proof (cfg_lane s n i Hc Hi) as I. pose proof (X i Hi) as X1. pose proof (ln_range s i vec (proj2 Rx)) as X0. unfold two_tables. destruct (Nat.leb_spec (n * s) 8) as [P|P].
  - assert (Hm : cfg s (2 * n)) by (cfgs_tac Hc; try (exfalso; lia); repeat split; cbn; try tauto; lia). assert (Rc : register 16 (combine_halves (n * s) b a)) by (apply combine_reg; auto; cfgs_tac Hc; try (exfalso; lia); cbn; tauto).
    rewrite (lookup_ok t avx2 s n (2 * n)) by (auto; lia). rewrite ln_combine; [| apply Ra | apply Rb | cfgs_tac Hc; try (exfalso; lia); cbn; tauto |]; rewrite Nat.div_mul by (cfgs_tac Hc; lia); [|lia].
    destruct (Nat.ltb_spec (Z.to_nat (ln s i vec)) n), (Z.ltb_spec (ln s i vec) (Z.of_nat n)); try (exfalso; lia); [reflexivity|]. f_equal. lia.
  - assert (N16 : (n * s = 16)%nat) by (cfgs_tac Hc; lia). pose proof Hc as (Hs & Cn & Sn). cbv zeta. clear P.
    assert (W : wide s -> ln s i (two_tables8 t a b (to_byte_indices t s n vec)) = if ln s i vec <? Z.of_nat n then ln s (Z.to_nat (ln s i vec)) a else ln s (Z.to_nat (ln s i vec - Z.of_nat n)) b).
    { intros Hw. assert (N32 : Z.of_nat (2 * n) = 32 / Z.of_nat s) by (destruct Hw as [E|E]; subst s; [assert (n = 8)%nat as -> by lia | assert (n = 4)%nat as -> by lia]; reflexivity). rewrite N32 in X.
      assert (Q : forall j q, (j < n)%nat -> (q < s)%nat -> nth (j * s + q) (to_byte_indices t s n vec) 0 = ln s j vec * Z.of_nat s + Z.of_nat q) by (intros j q Hj Hq; apply (to_byte_ok t s n vec j q); auto).
      assert (Ri : register 16 (to_byte_indices t s n vec)). { assert (Z32 : (0 < s)%nat) by (destruct Hw; lia). split; [apply (to_byte_ok t s n vec i 0); auto|]. apply of_lanes_byte. }
      apply (two8_lane t s n i (ln s i vec) a b); auto; [|lia]. intros p Hp. assert (Z32 : (0 < s)%nat) by (destruct Hw; lia). assert (E : (p = p / s * s + p mod s)%nat) by (rewrite Nat.mul_comm; apply Nat.div_mod; lia). rewrite E.
      assert (J : (p / s < n)%nat) by (apply Nat.div_lt_upper_bound; lia). pose proof (Nat.mod_upper_bound p s ltac:(lia)) as M. rewrite Q by auto. specialize (X (p / s)%nat J). destruct Hw; subst s; [change (32 / Z.of_nat 2) with 16 in X | change (32 / Z.of_nat 4) with 8 in X]; lia. }
    assert (G : forall w k, (s = 2 \/ s = 4)%nat -> w = bits s -> Z.of_nat n = k + 1 -> wrap w (gt w (ln s i vec) k) = full w (Z.of_nat n <=? ln s i vec) -> forall s', s' = s ->
      ln s i (if_then_else t 1 (map1 s (fun x => gt w x k) vec) (gather s' b vec) (gather s' a vec)) = if ln s i vec <? Z.of_nat n then ln s (Z.to_nat (ln s i vec)) a else ln s (Z.to_nat (ln s i vec - Z.of_nat n)) b).
    { intros w k S24 -> NK GT s' ->. rewrite (ite_lane t s i _ _ _ (Z.of_nat n <=? ln s i vec)); auto; try (apply gather_reg; auto); [| apply map1_reg; auto | rewrite ln_map1' by auto; exact GT].
      rewrite !ln_gather_mod by auto. assert (16 / s = n)%nat as -> by (destruct S24; subst s; [change (16 / 2)%nat with 8%nat | change (16 / 4)%nat with 4%nat]; lia). rewrite mod_split by lia.
      destruct (Z.leb_spec (Z.of_nat n) (ln s i vec)), (Z.ltb_spec (ln s i vec) (Z.of_nat n)); try (exfalso; lia); reflexivity. }
    sizes4 Hs; cbn [indices_from_vec].
    + assert (n = 16)%nat as -> by lia. apply two8_lane; auto; [apply size1 | intros q Hq; rewrite <- ln1 by (rewrite (proj1 Rx); auto); specialize (X q Hq); lia | lia |]. intros q Hq. assert (q = 0%nat) as -> by lia. rewrite ln1 by (rewrite (proj1 Rx); lia). rewrite Nat.mul_1_r, Nat.add_0_r. lia.
    + assert (n = 8)%nat as -> by lia. destruct t; try (apply W; left; reflexivity). unfold table_lookup. cbn [Nat.eqb]. apply G; auto. apply gt16. lia.
    + assert (n = 4)%nat as -> by lia. destruct t.
      * unfold table_lookup. cbn [Nat.eqb]. apply G; auto. apply gt32. lia.
      * destruct avx2; [specialize (C eq_refl); discriminate|]. apply W. right. reflexivity.
      * destruct avx2; [|apply W; right; reflexivity]. unfold table_lookup. cbn [Nat.eqb if_then_else]. rewrite ln_blendv; auto; try (apply gather_reg; auto; apply size4); try apply size4; [|apply map1_reg; auto; apply size4].
        rewrite ln_map1' by (auto; apply size4). change (bits 4) with 32 in *. change (32 - 1) with 31. rewrite bit31 by lia. rewrite !ln_gather_mod by (auto; apply size4). change (16 / 4)%nat with 4%nat. rewrite mod_split by lia. change (Z.of_nat 4) with 4.
        destruct (Z.leb_spec 4 (ln 4 i vec)), (Z.ltb_spec (ln 4 i vec) 4); try (exfalso; lia); reflexivity.
    + assert (n = 2)%nat as -> by lia. set (im := map1 8 (fun x => Z.land x 1) vec). assert (Rm : register 16 im) by (apply map1_reg; auto; apply size8).
      assert (M : ln 8 i im = ln 8 i vec mod 2). { unfold im. rewrite ln_map1' by (auto; apply size8). rewrite (land_ones' _ 1) by lia. apply wrap_small. pose proof (Z.mod_pos_bound (ln 8 i vec) 2 ltac:(lia)). change (2 ^ bits 8) with 18446744073709551616. change (2 ^ 1) with 2. lia. }
      assert (LK : forall v, register 16 v -> ln 8 i (table_lookup t avx2 8 2 v im) = ln 8 (Z.to_nat (ln 8 i vec mod 2)) v) by (intros v Rv; rewrite lookup64; auto; rewrite M; [reflexivity | apply Z.mod_pos_bound; lia]).
      assert (LR : forall v, register 16 v -> register 16 (table_lookup t avx2 8 2 v im)) by (intros; apply lookup64_reg; auto).
      assert (E : (if 2 <=? ln 8 i vec then ln 8 (Z.to_nat (ln 8 i vec mod 2)) b else ln 8 (Z.to_nat (ln 8 i vec mod 2)) a) = if ln 8 i vec <? Z.of_nat 2 then ln 8 (Z.to_nat (ln 8 i vec)) a else ln 8 (Z.to_nat (ln 8 i vec - Z.of_nat 2)) b).
      { rewrite (mod_split _ 2) by lia. change (Z.of_nat 2) with 2. destruct (Z.leb_spec 2 (ln 8 i vec)), (Z.ltb_spec (ln 8 i vec) 2); try (exfalso; lia); reflexivity. }
      rewrite <- E. rewrite <- !LK by auto. assert (F : forall q, (q < 8)%nat -> nth (i * 8 + q) (if_then_else t 1 (map1 4 (fun x => gt 32 x 1) (select 4 [0; 0; 2; 2]%nat vec)) (table_lookup t avx2 8 2 b im) (table_lookup t avx2 8 2 a im)) 0
        = if 2 <=? ln 8 i vec then nth (i * 8 + q) (table_lookup t avx2 8 2 b im) 0 else nth (i * 8 + q) (table_lookup t avx2 8 2 a im) 0).
      { intros q Hq. apply nth_ite; auto; [apply map1_reg; [apply select4_ok; auto; cbn [In]; intros; lia | apply size4] | lia |]. rewrite mask64 by (auto; lia). apply selects_full. }
      destruct t; try (destruct (2 <=? ln 8 i vec); rewrite <- !lvu; apply lane_ext; intros q Hq; apply F; exact Hq).
      cbn [if_then_else]. rewrite ln_blendv; auto; try apply size8; [|apply map1_reg; auto; apply size8]. rewrite ln_map1' by (auto; apply size8). change (bits 8) with 64. change (64 - 1) with 63. rewrite bit63 by lia. reflexivity.
Qed.
