(** C125: table lookups on SSE2, SSSE3, SSE4 and AVX2 for 128-bit vectors. A vector of [n] lanes of [s] bytes is the first n * s bytes of a 16-byte register; [lane_value sg s i r]: the number in
    lane i (X86Int_Spec). The index vector may be of signed or unsigned integers ([sgi]). *)
From Coq Require Import ZArith List Bool Lia Arith.
From Verif Require Import Word Word_Proofs X86Int_Spec X86Int_Model X86Int_Proofs X86Int_Lane X86Int_Sel X86Int_Main X86Int_Two X86Mul_Model Properties_X86Int X86Mul_Move X86Slide_Model X86Slide_Proofs X86Slide_More X86Slide_Perm X86Table_Model X86Table_Proofs X86Table_More X86Table_Two.
Import ListNotations.
Open Scope Z_scope.
Arguments Z.pow : simpl never.
Arguments Z.mul : simpl never.
Arguments Z.add : simpl never.
Arguments Z.of_nat : simpl never.
Lemma index_value sg s i vec k : size s -> Forall byte vec -> 0 <= lane_value sg s i vec < k -> ln s i vec = lane_value sg s i vec.
Proof.
  intros Hs B H. pose proof (ln_range s i vec B) as R. pose proof (lvu s i vec) as E. unfold lane_value in *. cbn [andb] in E. destruct sg; cbn [andb] in *; [|lia]. rewrite E in *. destruct (2 ^ (8 * Z.of_nat s - 1) <=? ln s i vec); [|reflexivity]. exfalso. unfold bits in R. lia.
Qed.
Lemma lane_eq sg s i j r r' : ln s i r = ln s j r' -> lane_value sg s i r = lane_value sg s j r'.
Proof. intros E. rewrite <- !lvu in E. unfold lane_value in *. cbn [andb] in E. rewrite E. reflexivity. Qed.
(** bytes: index below the size of the register *)
Theorem C125_table_lookup_bytes : forall t v from p, register 16 v -> register 16 from -> (p < 16)%nat -> nth p from 0 < 16 -> nth p (table_bytes t v from) 0 = nth (Z.to_nat (nth p from 0)) v 0.
Proof.
  intros t v from p Rv Rf Hp H. pose proof (nth_byte p from (proj2 Rf)). rewrite nth_table by (rewrite ?(proj1 Rf); lia). rewrite Z.mod_small by lia. reflexivity.
Qed.
(** the variant that returns zero where bit 7 of the index is set *)
Theorem C125_table_lookup_bytes_or0 : forall t v from p, register 16 v -> register 16 from -> (p < 16)%nat -> nth p from 0 < 16 \/ 128 <= nth p from 0 ->
  nth p (table_bytes_or0 t v from) 0 = if 128 <=? nth p from 0 then 0 else nth (Z.to_nat (nth p from 0)) v 0.
Proof.
  intros t v from p Rv Rf Hp H. pose proof (nth_byte p from (proj2 Rf)) as Y. pose proof (proj1 Rf) as L. assert (A : t <> SSE2 -> nth p (table_bytes t v from) 0 = if 128 <=? nth p from 0 then 0 else nth (Z.to_nat (nth p from 0)) v 0).
  { intros T. destruct (Z.leb_spec 128 (nth p from 0)) as [C|C]; [|apply C125_table_lookup_bytes; auto; lia]. apply Z.leb_le in C. destruct t; [congruence | |]; cbn [table_bytes]; rewrite nth_pshufb by (auto; lia); cbv zeta; rewrite C; reflexivity. }
  destruct t; cbn [table_bytes_or0]; try (apply A; discriminate). pose proof (map1_reg 1 (fun x => gt 8 0 x) from Rf size1) as Rm. pose proof (table_reg SSE2 v from Rv L) as Rt. rewrite nth_map2_1 by auto.
  rewrite <- (ln1 p (map1 1 _ from)) by (rewrite (proj1 Rm); auto). rewrite ln_map1' by (auto; apply size1). rewrite (ln1 p from) by (rewrite L; auto).
  assert (G : wrap (bits 1) (gt 8 0 (nth p from 0)) = full 8 (128 <=? nth p from 0)) by (apply Z.eqb_eq; apply (all_below (fun y => wrap 8 (gt 8 0 y) =? full 8 (128 <=? y)) 256 eq_refl); exact Y). rewrite G.
  pose proof (and_or_mask (128 <=? nth p from 0) 0 (nth p (table_bytes SSE2 v from) 0) ltac:(lia) (nth_byte p _ (proj2 Rt))) as M. rewrite Z.land_0_r in M. change (wrap 8 0) with 0 in M. rewrite Z.lor_0_l in M. rewrite M.
  destruct (Z.leb_spec 128 (nth p from 0)); [reflexivity|]. apply C125_table_lookup_bytes; auto. lia.
Qed.
(** TableLookupLanes(v, IndicesFromVec(d, vec)) *)
Theorem C125_table_lookup_lanes : forall t avx2 sg sgi s n v vec i, (avx2 = true -> t = SSE4) -> In s [1; 2; 4; 8]%nat -> lane_count n -> (n * s <= 16)%nat -> register 16 v -> register 16 vec ->
  (forall j, (j < n)%nat -> 0 <= lane_value sgi s j vec < Z.of_nat n) -> (i < n)%nat ->
  lane_value sg s i (table_lookup t avx2 s n v (indices_from_vec t avx2 s n vec)) = lane_value sg s (Z.to_nat (lane_value sgi s i vec)) v.
Proof.
  intros t avx2 sg sgi s n v vec i C Hs Hn H Rv Rx X Hi. assert (Hc : cfg s n) by (split; auto). pose proof (size_pos s Hs) as S0. pose proof (X i Hi) as Xi. destruct (Nat.eq_dec n 1) as [->|N].
  - assert (i = 0%nat) as -> by lia. unfold table_lookup. cbn [Nat.eqb]. f_equal. lia.
  - assert (IV : forall j, (j < n)%nat -> ln s j vec = lane_value sgi s j vec) by (intros j Hj; apply (index_value sgi s j vec (Z.of_nat n)); auto; apply Rx).
    assert (X' : forall j, (j < n)%nat -> ln s j vec < Z.of_nat n) by (intros j Hj; rewrite IV by auto; apply X; auto).
    apply lane_eq. rewrite (lookup_ok t avx2 s n n) by (auto; unfold lane_count in Hn; cbn in Hn; lia). rewrite IV by auto. reflexivity.
Qed.
(** TwoTablesLookupLanes(a, b, IndicesFromVec(d, vec)) *)
Theorem C125_two_tables_lookup_lanes : forall t avx2 sg sgi s n a b vec i, (avx2 = true -> t = SSE4) -> In s [1; 2; 4; 8]%nat -> lane_count n -> (n * s <= 16)%nat -> register 16 a -> register 16 b -> register 16 vec ->
  (forall j, (j < n)%nat -> 0 <= lane_value sgi s j vec < 2 * Z.of_nat n) -> (i < n)%nat ->
  let k := lane_value sgi s i vec in
  lane_value sg s i (two_tables t avx2 s n a b (indices_from_vec t avx2 s n vec)) = if k <? Z.of_nat n then lane_value sg s (Z.to_nat k) a else lane_value sg s (Z.to_nat (k - Z.of_nat n)) b.
Proof.
  intros t avx2 sg sgi s n a b vec i C Hs Hn H Ra Rb Rx X Hi k. assert (Hc : cfg s n) by (split; auto).
  assert (IV : forall j, (j < n)%nat -> ln s j vec = lane_value sgi s j vec) by (intros j Hj; apply (index_value sgi s j vec (2 * Z.of_nat n)); auto; apply Rx).
  assert (X' : forall j, (j < n)%nat -> ln s j vec < Z.of_nat (2 * n)) by (intros j Hj; rewrite IV by auto; specialize (X j Hj); lia).
  pose proof (two_ok t avx2 s n a b vec i C Hc Ra Rb Rx X' Hi) as E. rewrite IV in E by auto. fold k in E. destruct (k <? Z.of_nat n); apply lane_eq; exact E.
Qed.
(** concrete vectors: indices 3 5 15 0 7 8 1 12 of 16-bit lanes *)
Definition table_a : reg := [1; 2; 3; 4; 5; 6; 7; 8; 9; 10; 11; 12; 13; 14; 15; 16].
Definition table_b : reg := map (fun x => 100 + x) table_a.
Definition some_indices : reg := [3; 0; 5; 0; 15; 0; 0; 0; 7; 0; 8; 0; 1; 0; 12; 0].
Example X86Table_two : register 16 table_a /\ register 16 table_b /\ register 16 some_indices /\ (forall j, (j < 8)%nat -> 0 <= lane_value true 2 j some_indices < 2 * Z.of_nat 8) /\
  two_tables SSSE3 false 2 8 table_a table_b (indices_from_vec SSSE3 false 2 8 some_indices) = [7; 8; 11; 12; 115; 116; 1; 2; 15; 16; 101; 102; 3; 4; 109; 110] /\
  two_tables SSE2 false 2 8 table_a table_b (indices_from_vec SSE2 false 2 8 some_indices) = [7; 8; 11; 12; 115; 116; 1; 2; 15; 16; 101; 102; 3; 4; 109; 110].
Proof.
  split; [split; [reflexivity | repeat constructor; lia]|]. split; [split; [reflexivity | repeat constructor; lia]|]. split; [split; [reflexivity | repeat constructor; lia]|].
  split; [|split; vm_compute; reflexivity]. intros j Hj. do 8 (destruct j as [|j]; [vm_compute; split; congruence|]). lia.
Qed.
Example X86Table_one : table_lookup SSE2 false 8 2 table_a [1; 0; 0; 0; 0; 0; 0; 0; 1; 0; 0; 0; 0; 0; 0; 0] = [9; 10; 11; 12; 13; 14; 15; 16; 9; 10; 11; 12; 13; 14; 15; 16] /\
  firstn 8 (table_lookup SSSE3 false 4 2 table_a (indices_from_vec SSSE3 false 4 2 [1; 0; 0; 0; 0; 0; 0; 0; 77; 0; 0; 0; 0; 200; 0; 0])) = [5; 6; 7; 8; 1; 2; 3; 4] /\
  table_bytes_or0 SSE2 table_a [0; 255; 128; 15; 1; 2; 3; 4; 5; 6; 7; 8; 9; 10; 11; 200] = [1; 0; 0; 16; 2; 3; 4; 5; 6; 7; 8; 9; 10; 11; 12; 0].
Proof. repeat split; vm_compute; reflexivity. Qed.
