(** C118, C119, C120: conversions between integer types on SSE2, SSSE3, SSE4 and AVX2. A vector of [n] lanes of [s] bytes is the first n * s bytes of a register of 16 or 32 bytes,
    the others are arbitrary. [lane_value sg s i r]: the number in lane i, signed if [sg] (X86Int_Spec); [closest sg s x]: the value of the type nearest to x. *)
From Coq Require Import ZArith List Bool Lia Arith.
From Verif Require Import Word Word_Proofs X86Int_Spec X86Int_Model X86Int_Proofs X86Int_Lane X86Int_Sel X86Int_Main X86Int_Two X86Int_256.
Import ListNotations.
Open Scope Z_scope.
Arguments Z.pow : simpl never.
Arguments Z.mul : simpl never.
Arguments Z.add : simpl never.
Arguments Z.of_nat : simpl never.
Lemma unsigned_at_le s k r : unsigned_at s k r = le (firstn s (skipn k r)).
Proof.
  revert k. induction s as [|s IH]; intros k; [reflexivity|]. cbn [unsigned_at]. rewrite IH. destruct (Nat.lt_ge_cases k (length r)) as [H|H].
  - assert (E : skipn k r = nth k r 0 :: skipn (S k) r). { clear IH. revert r H. induction k; intros [|x r] H; cbn in *; try lia; auto. apply IHk. lia. } rewrite E. reflexivity.
  - rewrite !skipn_all2 by lia. rewrite nth_overflow by lia. rewrite !firstn_nil. reflexivity.
Qed.
Lemma lv sg s i r : (0 < s)%nat -> Forall byte r -> lane_value sg s i r = value_of sg s (ln s i r).
Proof.
  intros Hs Hb. unfold lane_value, value_of. rewrite unsigned_at_le. fold (lane_bytes s i r). fold (ln s i r). pose proof (ln_range s i r Hb) as R. destruct sg; [|reflexivity]. cbn [andb]. unfold swrap. fold (bits s). rewrite Z.mod_small by auto.
  destruct (Z.leb_spec (2 ^ (bits s - 1)) (ln s i r)), (Z.ltb_spec (ln s i r) (2 ^ (bits s - 1))); lia.
Qed.
Lemma lvu s i r : lane_value false s i r = ln s i r. Proof. unfold lane_value. rewrite unsigned_at_le. reflexivity. Qed.
Lemma or_byte a b : byte a -> byte b -> byte (Z.lor a b).
Proof.
  unfold byte. intros Ha Hb. split; [apply Z.lor_nonneg; lia|]. destruct (Z.eq_dec (Z.lor a b) 0) as [->|N]; [lia|]. assert (0 <= Z.lor a b) by (apply Z.lor_nonneg; lia). change 256 with (2 ^ 8). apply Z.log2_lt_pow2; [lia|]. rewrite Z.log2_lor by lia.
  apply Z.max_lub_lt; [destruct (Z.eq_dec a 0) as [->|]; [cbn; lia|] | destruct (Z.eq_dec b 0) as [->|]; [cbn; lia|]]; apply Z.log2_lt_pow2; change (2 ^ 8) with 256; lia.
Qed.
Lemma or_bytes_byte a b : Forall byte a -> Forall byte b -> Forall byte (or_bytes a b).
Proof. intros Ha. revert b. induction Ha as [|x a Hx _ IH]; intros b Hb; [constructor|]. destruct Hb as [|y b Hy Hb]; [constructor|]. unfold or_bytes. cbn [combine map fst snd]. constructor; [apply or_byte; auto | apply IH; auto]. Qed.
Lemma unpackhi_byte s a b : Forall byte a -> Forall byte b -> Forall byte (unpackhi s a b).
Proof. intros. apply flat_byte. intros. apply Forall_app; split; apply lane_bytes_byte; auto. Qed.
Lemma zero_byte : Forall byte zero. Proof. unfold zero. repeat constructor; unfold byte; lia. Qed.
Ltac fb := match goal with
  | |- Forall byte (map1 _ _ _) => apply map1_byte
  | |- Forall byte (u2i _ _) => apply map1_byte
  | |- Forall byte (widen _ _ _ _) => apply of_lanes_byte
  | |- Forall byte (pack _ _ _ _) => apply pack_byte
  | |- Forall byte (pack256 _ _ _ _) => apply Forall_app; split; apply pack_byte
  | |- Forall byte (unpacklo _ _ _) => apply unpacklo_byte; fb
  | |- Forall byte (unpackhi _ _ _) => apply unpackhi_byte; fb
  | |- Forall byte (combine_halves _ _ _) => apply combine_byte; fb
  | |- Forall byte (select _ _ _) => apply select_byte; fb
  | |- Forall byte (shufflelo16 _ _) => apply select_byte; fb
  | |- Forall byte (pshufb _ _) => apply pshufb_byte; fb
  | |- Forall byte (pshufb256 _ _) => apply Forall_app; split; apply pshufb_byte; [apply Forall_firstn'; fb | apply Forall_skipn'; fb]
  | |- Forall byte (srl_bytes _ _) => apply srl_byte; fb
  | |- Forall byte (lo128 _) => apply Forall_firstn'; fb
  | |- Forall byte (hi128 _) => apply Forall_skipn'; fb
  | |- Forall byte (or_bytes _ _) => apply or_bytes_byte; fb
  | |- Forall byte (shuffle_ps _ _ _ _ _ _) => apply Forall_app; split; apply select_byte; fb
  | |- Forall byte (shuffle_ps256 _ _ _ _ _ _) => apply Forall_app; split; (apply Forall_app; split; apply select_byte; first [apply Forall_firstn'; fb | apply Forall_skipn'; fb])
  | |- Forall byte zero => exact zero_byte
  | H : register _ ?r |- Forall byte ?r => exact (proj2 H)
  | |- _ => idtac
  end.
Lemma trunc256_byte s s' v : narrower s s' -> Forall byte v -> Forall byte (truncate256 s s' v).
Proof.
  intros Hs B. assert (R : register (length v) v) by (split; auto). unfold narrower in Hs. cbn in Hs. repeat destruct Hs as [Hs|Hs]; try contradiction; injection Hs as <- <-; unfold truncate256, lookup_halves, lookup_quarters; cbn zeta; fb.
Qed.
Lemma demote256_byte sg s sg' s' v : narrower s s' -> register 32 v -> Forall byte (demote256_to sg s sg' s' v).
Proof.
  intros Hs R. destruct (Nat.eq_dec s 8) as [->|N].
  - unfold demote256_to. apply trunc256_byte; auto. fb.
  - unfold narrower in Hs. cbn in Hs. repeat destruct Hs as [Hs|Hs]; try contradiction; injection Hs as <- <-; try congruence; destruct sg, sg'; cbn [demote256_to demote256_signed_src]; cbn zeta; unfold pack_self256; fb.
Qed.
Lemma reorder256_byte sg s sg' a b : In s [2; 4; 8]%nat -> register 32 a -> register 32 b -> Forall byte (demote2_256_reorder sg s sg' a b).
Proof. intros H Ra Rb. sizes H; destruct sg, sg'; cbn [demote2_256_reorder]; fb. Qed.
Lemma promote_byte t sg s s' v : narrower s' s -> register 16 v -> Forall byte (promote_to t sg s s' v).
Proof.
  intros Hs R. unfold narrower in Hs. cbn in Hs. repeat destruct Hs as [Hs|Hs]; try contradiction; injection Hs as <- <-; destruct t, sg; cbn [promote_to promote_s promote_u promote_u_half]; unfold promote_to, promote_s, promote_u, promote_u_half; cbn zeta; fb.
Qed.
Lemma sizes_pos s : In s [1; 2; 4; 8]%nat -> (0 < s)%nat. Proof. cbn. lia. Qed.
Lemma two_of s n : In s [2; 4; 8]%nat -> lane_count n -> (n * s <= 16)%nat -> two_config s n.
Proof. intros H Hn Hb. unfold two_config, lane_count in *. cbn in H, Hn. repeat destruct H as [<-|H]; try contradiction; repeat destruct Hn as [<-|Hn]; try contradiction; cbn; try tauto; lia. Qed.

(** ** C118: demotion saturates *)
(** DemoteTo: [n] lanes of [s] bytes to lanes of [s'] bytes *)
Theorem C118_demote : forall t sg s sg' s' n v i, narrower s s' -> lane_count n -> (n * s <= 16)%nat -> register 16 v -> (i < n)%nat ->
  lane_value sg' s' i (demote_to t sg s sg' s' n v) = closest sg' s' (lane_value sg s i v).
Proof.
  intros t sg s sg' s' n v i Hs Hn Hb R Hi. destruct (demote_ok t sg s sg' s' n v i Hs Hn Hb R Hi) as [E [_ B]]. destruct (narrower_facts s s' Hs) as (S1 & _). rewrite !lv; auto; try lia. apply R.
Qed.
(** ReorderDemote2To and OrderedDemote2To of two vectors of [n] lanes: the lanes of [a], then those of [b] *)
Theorem C118_demote2 : forall t sg s sg' n a b i, In s [2; 4; 8]%nat -> lane_count n -> (n * s <= 16)%nat -> register 16 a -> register 16 b -> (i < n)%nat ->
  lane_value sg' (s / 2) i (demote2_to t sg s sg' n a b) = closest sg' (s / 2) (lane_value sg s i a)
  /\ lane_value sg' (s / 2) (n + i) (demote2_to t sg s sg' n a b) = closest sg' (s / 2) (lane_value sg s i b).
Proof.
  intros t sg s sg' n a b i Hs Hn Hb Ra Rb Hi. pose proof (two_of s n Hs Hn Hb) as HC. assert (S0 : (0 < s / 2 /\ 0 < s)%nat) by (clear - Hs; sizes Hs; cbn; lia).
  destruct (demote2_ok t sg s sg' n a b i HC Ra Rb ltac:(lia)) as [E [_ B]]. destruct (demote2_ok t sg s sg' n a b (n + i) HC Ra Rb ltac:(lia)) as [E2 _]. unfold from2 in E, E2.
  destruct (Nat.ltb_spec i n); [|lia]. destruct (Nat.ltb_spec (n + i) n); [lia|]. replace (n + i - n)%nat with i in E2 by lia. split; rewrite !lv; auto; try lia; try apply Ra; try apply Rb.
Qed.
(** 256-bit vectors *)
Theorem C118_demote_256 : forall sg s sg' s' v i, narrower s s' -> register 32 v -> (i < 32 / s)%nat -> lane_value sg' s' i (demote256_to sg s sg' s' v) = closest sg' s' (lane_value sg s i v).
Proof.
  intros sg s sg' s' v i Hs R Hi. destruct (narrower_facts s s' Hs) as (S1 & _). rewrite !lv; try lia; [apply demote256_ok; auto|apply R|apply demote256_byte; auto].
Qed.
(** ReorderDemote2To: block k of the result (16 bytes) has the lanes of block k of [a], then of [b] *)
Theorem C118_reorder_256 : forall sg s sg' a b k j, In s [2; 4; 8]%nat -> register 32 a -> register 32 b -> (k < 2)%nat -> (j < 16 / s)%nat ->
  let n := (16 / s)%nat in let r := demote2_256_reorder sg s sg' a b in
  lane_value sg' (s / 2) (k * (2 * n) + j) r = closest sg' (s / 2) (lane_value sg s (k * n + j) a)
  /\ lane_value sg' (s / 2) (k * (2 * n) + n + j) r = closest sg' (s / 2) (lane_value sg s (k * n + j) b).
Proof.
  intros sg s sg' a b k j Hs Ra Rb Hk Hj n r. assert (D : (0 < s / 2 /\ 0 < s /\ 64 / s = 4 * n)%nat) by (unfold n; clear - Hs; sizes Hs; cbn; lia). destruct D as (D1 & D2 & D3). fold n in Hj.
  pose proof (reorder256_byte sg s sg' a b Hs Ra Rb) as B.
  assert (X : forall i, (i < 64 / s)%nat -> lane_value sg' (s / 2) i r = closest sg' (s / 2) (value_of sg s (reordered s i a b))) by (intros i Hi; rewrite lv; auto; apply reorder256_ok; auto).
  assert (Q : forall m, (m < 2 * n)%nat -> ((k * (2 * n) + m) / (2 * n) = k /\ (k * (2 * n) + m) mod (2 * n) = m)%nat). { intros m Hm. split; [symmetry; apply (Nat.div_unique _ _ k m); lia | symmetry; apply (Nat.mod_unique _ _ k m); lia]. }
  split; (rewrite X by nia); unfold reordered; fold n; cbn zeta.
  - destruct (Q j ltac:(lia)) as [-> ->]. destruct (Nat.ltb_spec j n); [|lia]. rewrite lv; auto. apply Ra.
  - rewrite <- Nat.add_assoc. destruct (Q (n + j)%nat ltac:(lia)) as [-> ->]. destruct (Nat.ltb_spec (n + j) n); [lia|]. replace (n + j - n)%nat with j by lia. rewrite lv; auto. apply Rb.
Qed.
Theorem C118_ordered_256 : forall sg s sg' a b i, In s [2; 4; 8]%nat -> register 32 a -> register 32 b -> (i < 32 / s)%nat ->
  let r := demote2_256_ordered sg s sg' a b in
  lane_value sg' (s / 2) i r = closest sg' (s / 2) (lane_value sg s i a) /\ lane_value sg' (s / 2) (32 / s + i) r = closest sg' (s / 2) (lane_value sg s i b).
Proof.
  intros sg s sg' a b i Hs Ra Rb Hi r. assert (D : (0 < s / 2 /\ 0 < s /\ 64 / s = 2 * (32 / s))%nat) by (clear - Hs; sizes Hs; cbn; lia). destruct D as (D1 & D2 & D3).
  assert (B : Forall byte r) by (unfold r, demote2_256_ordered; apply select_byte, reorder256_byte; auto).
  assert (X : forall i, (i < 64 / s)%nat -> lane_value sg' (s / 2) i r = closest sg' (s / 2) (value_of sg s (from2 s (32 / s) i a b))) by (intros m Hm; rewrite lv; auto; apply ordered256_ok; auto).
  split; (rewrite X by lia); unfold from2.
  - destruct (Nat.ltb_spec i (32 / s)); [|lia]. rewrite lv; auto. apply Ra.
  - destruct (Nat.ltb_spec (32 / s + i) (32 / s)); [lia|]. replace (32 / s + i - 32 / s)%nat with i by lia. rewrite lv; auto. apply Rb.
Qed.
(** two vectors of 128 bits with 64-bit lanes on AVX2 *)
Theorem C118_demote2_avx2 : forall sg sg' a b i, register 16 a -> register 16 b -> (i < 2)%nat ->
  lane_value sg' 4 i (demote2_to_avx2 sg sg' a b) = closest sg' 4 (lane_value sg 8 i a) /\ lane_value sg' 4 (2 + i) (demote2_to_avx2 sg sg' a b) = closest sg' 4 (lane_value sg 8 i b).
Proof.
  intros sg sg' a b i Ra Rb Hi. assert (B : Forall byte (demote2_to_avx2 sg sg' a b)) by (apply demote256_byte; [unfold narrower; cbn; tauto | apply app_reg; auto]).
  split; (rewrite lv; [|lia|exact B]); rewrite demote2_avx2_ok by (auto; lia); unfold from2; [destruct (Nat.ltb_spec i 2); [|lia] | destruct (Nat.ltb_spec (2 + i) 2); [lia|]; replace (2 + i - 2)%nat with i by lia]; (rewrite lv; [reflexivity|lia|]); [apply Ra|apply Rb].
Qed.
(** ** C119: promotion keeps the value, truncation keeps the low bits *)
Theorem C119_promote : forall t sg s s' v i, narrower s' s -> register 16 v -> (i < 16 / s')%nat -> lane_value sg s' i (promote_to t sg s s' v) = lane_value sg s i v.
Proof. intros t sg s s' v i Hs R Hi. destruct (narrower_facts s' s Hs) as (S1 & _). rewrite !lv; try lia; [apply promote_ok; auto|apply R|apply promote_byte; auto]. Qed.
Theorem C119_truncate : forall t s s' n v i, narrower s s' -> lane_count n -> (n * s <= 16)%nat -> register 16 v -> (i < n)%nat ->
  lane_value false s' i (truncate_to t s s' n v) = lane_value false s i v mod 2 ^ (8 * Z.of_nat s').
Proof. intros. rewrite !lvu. apply truncate_ok; auto. Qed.
Theorem C119_truncate2 : forall t s n a b i, In s [2; 4; 8]%nat -> lane_count n -> (n * s <= 16)%nat -> register 16 a -> register 16 b -> (i < n)%nat ->
  lane_value false (s / 2) i (truncate2_to t s n a b) = lane_value false s i a mod 2 ^ (8 * Z.of_nat (s / 2))
  /\ lane_value false (s / 2) (n + i) (truncate2_to t s n a b) = lane_value false s i b mod 2 ^ (8 * Z.of_nat (s / 2)).
Proof.
  intros t s n a b i Hs Hn Hb Ra Rb Hi. pose proof (two_of s n Hs Hn Hb) as HC. rewrite !lvu. rewrite !truncate2_ok by (auto; lia). unfold from2. destruct (Nat.ltb_spec i n); [|lia]. destruct (Nat.ltb_spec (n + i) n); [lia|]. replace (n + i - n)%nat with i by lia. split; reflexivity.
Qed.
Theorem C119_truncate_256 : forall s s' v i, narrower s s' -> register 32 v -> (i < 32 / s)%nat -> lane_value false s' i (truncate256 s s' v) = lane_value false s i v mod 2 ^ (8 * Z.of_nat s').
Proof. intros. rewrite !lvu. apply truncate256_ok; auto. Qed.
Theorem C119_truncate2_256 : forall s a b i, In s [2; 4; 8]%nat -> register 32 a -> register 32 b -> (i < 32 / s)%nat ->
  lane_value false (s / 2) i (truncate2_256 s a b) = lane_value false s i a mod 2 ^ (8 * Z.of_nat (s / 2))
  /\ lane_value false (s / 2) (32 / s + i) (truncate2_256 s a b) = lane_value false s i b mod 2 ^ (8 * Z.of_nat (s / 2)).
Proof.
  intros s a b i Hs Ra Rb Hi. assert (D : (64 / s = 2 * (32 / s))%nat) by (clear - Hs; sizes Hs; reflexivity). rewrite !lvu. rewrite !truncate2_256_ok by (auto; lia). unfold from2. destruct (Nat.ltb_spec i (32 / s)); [|lia]. destruct (Nat.ltb_spec (32 / s + i) (32 / s)); [lia|]. replace (32 / s + i - 32 / s)%nat with i by lia. split; reflexivity.
Qed.
(** ** C120: ConcatOdd, ConcatEven: the odd or even lanes of [lo], then those of [hi] *)
Lemma cfg n s : In s [1; 2; 4; 8]%nat -> In n [2; 4; 8; 16]%nat -> (n * s <= 16)%nat -> concat_config (n * s) s /\ (n * s / s = n)%nat /\ (n = 2 * (n / 2))%nat.
Proof. intros H Hn Hb. unfold concat_config. cbn in H, Hn. repeat destruct H as [<-|H]; try contradiction; repeat destruct Hn as [<-|Hn]; try contradiction; cbn; try tauto; lia. Qed.
Theorem C120_concat : forall t s n hi lo i, In s [1; 2; 4; 8]%nat -> In n [2; 4; 8; 16]%nat -> (n * s <= 16)%nat -> register 16 hi -> register 16 lo -> (i < n / 2)%nat ->
  let odd := concat_odd t (n * s) s hi lo in let even := concat_even t (n * s) s hi lo in
  lane_value false s i odd = lane_value false s (2 * i + 1) lo /\ lane_value false s (n / 2 + i) odd = lane_value false s (2 * i + 1) hi
  /\ lane_value false s i even = lane_value false s (2 * i) lo /\ lane_value false s (n / 2 + i) even = lane_value false s (2 * i) hi.
Proof.
  intros t s n hi lo i Hs Hn Hb Rh Rl Hi odd even. destruct (cfg n s Hs Hn Hb) as (C1 & C2 & C3). rewrite !lvu. unfold odd, even. rewrite !concat_odd_ok, !concat_even_ok by (auto; rewrite C2; lia). unfold pick2. rewrite C2.
  destruct (Nat.ltb_spec i (n / 2)); [|lia]. destruct (Nat.ltb_spec (n / 2 + i) (n / 2)); [lia|]. replace (n / 2 + i - n / 2)%nat with i by lia. tauto.
Qed.
Theorem C120_concat_256 : forall s hi lo i, In s [1; 2; 4; 8]%nat -> register 32 hi -> register 32 lo -> (i < 16 / s)%nat ->
  let odd := concat_odd256 s hi lo in let even := concat_even256 s hi lo in let h := (16 / s)%nat in
  lane_value false s i odd = lane_value false s (2 * i + 1) lo /\ lane_value false s (h + i) odd = lane_value false s (2 * i + 1) hi
  /\ lane_value false s i even = lane_value false s (2 * i) lo /\ lane_value false s (h + i) even = lane_value false s (2 * i) hi.
Proof.
  intros s hi lo i Hs Rh Rl Hi odd even h. fold h in Hi. assert (D : (32 / s = 2 * h /\ 32 / s / 2 = h)%nat) by (unfold h; clear - Hs; sizes Hs; split; reflexivity). destruct D as (D1 & D2).
  rewrite !lvu. unfold odd, even. rewrite !concat_odd256_ok, !concat_even256_ok by (auto; lia). unfold pick2. rewrite D2. destruct (Nat.ltb_spec i h); [|lia]. destruct (Nat.ltb_spec (h + i) h); [lia|]. replace (h + i - h)%nat with i by lia. tauto.
Qed.
(** ** concrete cases *)
Definition r16 : list Z := [0; 255; 128; 127; 1; 254; 255; 255; 200; 100; 50; 25; 0; 0; 0; 128].
Definition r32 : list Z := r16 ++ rev r16.
Lemma r16_reg : register 16 r16. Proof. split; [reflexivity|]. repeat constructor; lia. Qed.
Lemma r32_reg : register 32 r32. Proof. split; [reflexivity|]. repeat constructor; lia. Qed.
Example C118_ex : register 16 r16 /\ register 32 r32 /\ lane_count 4 /\ narrower 4 2 /\
  map (fun i => lane_value true 4 i r16) [0; 1; 2; 3]%nat = [2139160320; -511; 422733000; -2147483648] /\
  map (fun i => lane_value false 2 i (demote_to SSE2 true 4 false 2 4 r16)) [0; 1; 2; 3]%nat = [65535; 0; 65535; 0] /\
  map (fun i => lane_value true 1 i (demote_to SSSE3 false 4 true 1 4 r16)) [0; 1; 2; 3]%nat = [127; 127; 127; 127] /\
  map (fun i => lane_value true 4 i (demote2_to SSE4 true 8 true 2 r16 r16)) [0; 1; 2; 3]%nat = [-2147483648; -2147483648; -2147483648; -2147483648] /\
  map (fun i => lane_value true 2 i (demote2_256_ordered true 4 true r32 r32)) [0; 1; 2; 3; 4; 5; 6; 7; 8]%nat = [32767; -511; 32767; -32768; 128; -32768; 32767; 32767; 32767].
Proof. split; [exact r16_reg|]. split; [exact r32_reg|]. split; [unfold lane_count; cbn; tauto|]. split; [unfold narrower; cbn; tauto|]. vm_compute. repeat split; reflexivity. Qed.
Example C119_ex : register 16 r16 /\ narrower 8 1 /\
  map (fun i => lane_value true 8 i (promote_to SSE2 true 1 8 (skipn 2 r16 ++ [0; 0]))) [0; 1]%nat = [-128; 127] /\
  map (fun i => lane_value false 1 i (truncate_to SSE2 4 1 4 r16)) [0; 1; 2; 3]%nat = [0; 1; 200; 0] /\ map (fun i => lane_value false 2 i (truncate256 8 2 r32)) [0; 1; 2; 3]%nat = [65280; 25800; 128; 65535].
Proof. split; [exact r16_reg|]. split; [unfold narrower; cbn; tauto|]. vm_compute. repeat split; reflexivity. Qed.
Example C120_ex : map (fun i => lane_value false 1 i (concat_odd SSE2 4 1 (skipn 4 r16 ++ [0; 0; 0; 0]) r16)) [0; 1; 2; 3]%nat = [255; 127; 254; 255] /\
  map (fun i => lane_value false 2 i (concat_even256 2 r32 r32)) [0; 1; 2; 3]%nat = [65280; 65025; 25800; 0].
Proof. vm_compute. repeat split; reflexivity. Qed.
