(** C100-C103: Compress, CompressStore, Expand, masks as bits. *)
From Coq Require Import ZArith List Arith Bool Lia Permutation.
From Verif Require Import Word Compress_Tables Compress_Spec Compress_Model Compress_Bits Compress_Proofs Compress_Shuffle.
Import ListNotations.
Open Scope Z_scope.
(** C100: Compress. EMU128: partition of the lanes, any lane type *)
Theorem C100_compress_emu : forall {A} (zero : A) m v, length m = length v ->
  emu_compress zero m v = partitioned m v /\ emu_compress_not zero m v = partitioned (map negb m) v /\ Permutation (emu_compress zero m v) v.
Proof. intros A zero m v H. rewrite emu_compress_ok, emu_compress_not_ok by exact H. split; [reflexivity|]. split; [reflexivity|]. apply partitioned_perm, H. Qed.
Theorem C100_compress_bits_emu : forall {A} (zero : A) v bits, emu_compress_bits zero v bits = partitioned (mask_of (length v) bits) v.
Proof. intros. unfold emu_compress_bits. rewrite emu_load_ok. apply emu_compress_ok, mask_of_length. Qed.
(** SSE2 to AVX2, lanes of 2, 4 or 8 bytes by table lookup and byte shuffle *)
Theorem C100_compress_lanes : forall {B} (b0 : B) junk sz n m v, lane_config sz n -> length m = n -> length v = (n * sz)%nat ->
  to_lanes sz n (x86_compress b0 junk sz n m v) = partitioned m (to_lanes sz n v) /\ length (x86_compress b0 junk sz n m v) = (n * sz)%nat.
Proof. intros. apply x86_compress_ok; assumption. Qed.
Theorem C100_compress_not_lanes : forall {B} (b0 : B) junk sz n m v, lane_config sz n -> (sz <> 8)%nat -> length m = n -> length v = (n * sz)%nat ->
  to_lanes sz n (x86_compress_not b0 junk sz n m v) = partitioned (map negb m) (to_lanes sz n v) /\ length (x86_compress_not b0 junk sz n m v) = (n * sz)%nat.
Proof. intros. apply x86_compress_not_ok; assumption. Qed.
Theorem C100_compress_bits_lanes : forall {B} (b0 : B) junk sz n v bits, lane_config sz n -> bytes_ok bits -> length v = (n * sz)%nat ->
  to_lanes sz n (x86_compress_bits_ptr b0 junk sz n v bits) = partitioned (mask_of n bits) (to_lanes sz n v) /\ length (x86_compress_bits_ptr b0 junk sz n v bits) = (n * sz)%nat.
Proof. intros. apply x86_bits_ok; assumption. Qed.
(** two 64-bit lanes by conditional swap, one lane *)
Theorem C100_compress_swap : forall {A} m (v : list A), length m = 2%nat -> length v = 2%nat -> x86_compress64 m v = partitioned m v /\ x86_compress_not64 m v = partitioned (map negb m) v.
Proof. intros. apply x86_compress64_ok; assumption. Qed.
Theorem C100_compress_one : forall {A} m (v : list A), length m = 1%nat -> length v = 1%nat -> x86_compress1 m v = partitioned m v /\ x86_compress1 m v = partitioned (map negb m) v.
Proof. intros. apply x86_compress1_ok; assumption. Qed.
(** bytes: the selected lanes first (CompressIsPartition is false for them); [fresh] is the uninitialized local array *)
Theorem C100_compress_bytes : forall {B} (b0 : B) junk n smb fresh m v, byte_lanes n -> smb = emu_store_mask_bits \/ smb = x86_store_mask_bits -> length m = n -> length v = n -> length fresh = n ->
  (exists r, gen_compress8 b0 junk n smb fresh m v = Some r /\ length r = n /\ firstn (count m) r = select m v) /\
  (exists r, gen_compress_not8 b0 junk n smb fresh m v = Some r /\ length r = n /\ firstn (count (map negb m)) r = select (map negb m) v).
Proof. intros. split; apply gen_compress8_ok; rewrite ?map_length; assumption. Qed.
(** CompressBits of bytes, if the unused bits are zero *)
Definition unused_zero (n : nat) (bits : list Z) : Prop := (n < 8)%nat -> nth 0 bits 0 < 2 ^ Z.of_nat n.
Lemma bits_prefix n bits : byte_lanes n -> bytes_ok bits -> (n <= 8 * length bits)%nat -> unused_zero n bits -> forall i, bit_at (firstn (num_bytes n) bits) i = nth i (mask_of n bits) false.
Proof.
  intros Hn Hb Hl Hu i. rewrite nth_mask_of. destruct (Nat.ltb_spec i n) as [Hi|Hi]; cbn [andb].
  - apply bit_at_firstn. unfold num_bytes. pose proof (Nat.div_mod (n + 7) 8). pose proof (Nat.mod_upper_bound (n + 7) 8). lia.
  - destruct (le_lt_dec 8 n) as [H8|H8].
    + apply bit_at_beyond. rewrite firstn_length. unfold byte_lanes in Hn. cbn [In] in Hn. assert (Hc : (8 * num_bytes n <= n)%nat) by (destruct Hn as [<-|[<-|[<-|[<-|[<-|[]]]]]]; cbn; lia). lia.
    + specialize (Hu H8). assert (E1 : num_bytes n = 1%nat) by (unfold byte_lanes in Hn; cbn [In] in Hn; destruct Hn as [<-|[<-|[<-|[<-|[<-|[]]]]]]; try reflexivity; lia). rewrite E1.
      destruct (le_lt_dec 8 i) as [G|G]; [apply bit_at_beyond; rewrite firstn_length; lia|]. rewrite bit_at_firstn by lia. unfold bit_at. rewrite Nat.div_small, Nat.mod_small by lia.
      pose proof (bytes_nth bits 0 Hb). destruct (Z.eq_dec (nth 0 bits 0) 0) as [->|Hz]; [apply Z.testbit_0_l|]. apply Z.bits_above_log2; [lia|]. assert (Z.log2 (nth 0 bits 0) < Z.of_nat n) by (apply Z.log2_lt_pow2; lia). lia.
Qed.
Theorem C100_compress_bits_bytes_partial : forall {B} (b0 : B) junk n fresh v bits, byte_lanes n -> length v = n -> length fresh = n -> bytes_ok bits -> (n <= 8 * length bits)%nat -> unused_zero n bits ->
  exists r, gen_compress_bits8 b0 junk n fresh v bits = Some r /\ length r = n /\ firstn (count (mask_of n bits)) r = select (mask_of n bits) v.
Proof.
  intros B b0 junk n fresh v bits Hn Hv Hf Hb Hl Hu. destruct (gen_bits_store8_ok b0 junk n (mask_of n bits) v bits fresh Hn (mask_of_length _ _) Hv ltac:(lia) Hb (bits_prefix n bits Hn Hb Hl Hu)) as (r & cnt & E & (-> & L & F & _)).
  unfold gen_compress_bits8. rewrite E. exists r. split; [reflexivity|]. split; [lia|exact F].
Qed.
(** otherwise it is not Compress(v, LoadMaskBits(d, bits)): only bits 0 to 3 count for 4 lanes, none of which is set *)
Theorem C100_compress_bits_bytes_refuted : exists (v : list nat) bits, length v = 4%nat /\ bytes_ok bits /\ count (mask_of 4 bits) = O /\
  (forall junk fresh, length fresh = 4%nat -> exists r, gen_compress_bits_store8 O junk 4 v bits fresh = Some (r, 4%nat)) /\
  (forall junk fresh b, length fresh = 4%nat -> gen_compress_bits8 O (fun _ => junk) 4 fresh v bits = Some b -> b = [junk; junk; junk; junk]).
Proof.
  exists [1; 2; 3; 4]%nat, [0xF0]. split; [reflexivity|]. split; [intros b [<-|[]]; lia|]. split; [reflexivity|]. split.
  - intros junk [|a [|b [|c [|d [|]]]]] H; try (exfalso; discriminate H). exists (map junk [4; 5; 6; 7]). vm_compute. reflexivity.
  - intros junk [|a [|b [|c [|d [|]]]]] r H; try (exfalso; discriminate H). intros E. vm_compute in E. injection E as <-. reflexivity.
Qed.
Example C100_ex : x86_compress 0 (fun _ => 9) 2 4 [false; true; false; true] [10; 11; 20; 21; 30; 31; 40; 41] = [20; 21; 40; 41; 10; 11; 30; 31].
Proof. reflexivity. Qed.
Example C100_ex8 : gen_compress8 0 (fun _ => 9) 16 x86_store_mask_bits (repeat 99 16) (map (fun i => Z.odd i) (map Z.of_nat (seq 0 16))) (map Z.of_nat (seq 0 16)) = Some [1; 3; 5; 7; 9; 11; 13; 15; 8; 10; 12; 14; 99; 99; 99; 99].
Proof. reflexivity. Qed.

(** C101: CompressStore, CompressBlendedStore, CompressBitsStore. [compress_stored k ..]: the count is returned, the selected lanes are stored at the start and nothing from lane [k] on changes *)
Theorem C101_emu : forall {A} m (v buf : list A), length m = length v -> (count m <= length buf)%nat ->
  exists buf' cnt, emu_compress_store m v buf = Some (buf', cnt) /\ compress_stored (count m) m v buf buf' cnt.
Proof. intros. apply emu_compress_store_ok; assumption. Qed.
Theorem C101_bits_emu : forall {A} (zero : A) v buf bits, (length v <= length buf)%nat ->
  exists buf' cnt, emu_compress_bits_store zero v bits buf = Some (buf', cnt) /\ compress_stored (length v) (mask_of (length v) bits) v buf buf' cnt.
Proof. intros. apply emu_bits_store_ok; assumption. Qed.
Theorem C101_store_lanes : forall {B} (b0 : B) junk sz n m v buf, lane_config sz n -> length m = n -> length v = (n * sz)%nat -> (n <= length buf)%nat ->
  exists buf' cnt, x86_compress_store b0 junk sz n m v buf = Some (buf', cnt) /\ compress_stored n m (to_lanes sz n v) buf buf' cnt.
Proof. intros. apply x86_compress_store_ok; assumption. Qed.
Theorem C101_bits_lanes : forall {B} (b0 : B) junk sz n v bits buf, lane_config sz n -> bytes_ok bits -> length v = (n * sz)%nat -> (n <= length buf)%nat ->
  exists buf' cnt, x86_compress_bits_store b0 junk sz n v bits buf = Some (buf', cnt) /\ compress_stored n (mask_of n bits) (to_lanes sz n v) buf buf' cnt.
Proof. intros. apply x86_bits_store_ok; assumption. Qed.
Theorem C101_blended_lanes : forall {B} (b0 : B) junk sz n m v buf, lane_config sz n -> length m = n -> length v = (n * sz)%nat -> (count m <= length buf)%nat ->
  exists buf' cnt, x86_compress_blended_store b0 junk sz n m v buf = Some (buf', cnt) /\ compress_stored (count m) m (to_lanes sz n v) buf buf' cnt.
Proof. intros. apply x86_blended_store_ok; assumption. Qed.
Theorem C101_store_bytes : forall {B} (b0 : B) junk n smb m v buf, byte_lanes n -> smb = emu_store_mask_bits \/ smb = x86_store_mask_bits -> length m = n -> length v = n -> (n <= length buf)%nat ->
  exists buf' cnt, gen_compress_store8 b0 junk n smb m v buf = Some (buf', cnt) /\ compress_stored n m v buf buf' cnt.
Proof. intros. apply gen_store8_ok; assumption. Qed.
Theorem C101_blended_bytes : forall {B} (b0 : B) junk n smb fresh m v buf, byte_lanes n -> smb = emu_store_mask_bits \/ smb = x86_store_mask_bits -> length m = n -> length v = n -> length fresh = n -> (count m <= length buf)%nat ->
  exists buf' cnt, gen_compress_blended_store8 b0 junk n smb fresh m v buf = Some (buf', cnt) /\ compress_stored (count m) m v buf buf' cnt.
Proof. intros. apply gen_blended8_ok; assumption. Qed.
Theorem C101_bits_bytes : forall {B} (b0 : B) junk n v bits buf, byte_lanes n -> length v = n -> bytes_ok bits -> (n <= 8 * length bits)%nat -> unused_zero n bits -> (n <= length buf)%nat ->
  exists buf' cnt, gen_compress_bits_store8 b0 junk n v bits buf = Some (buf', cnt) /\ compress_stored n (mask_of n bits) v buf buf' cnt.
Proof. intros. apply gen_bits_store8_ok; try assumption; [apply mask_of_length|apply bits_prefix; assumption]. Qed.
Example C101_ex : gen_compress_store8 0 (fun _ => 9) 4 emu_store_mask_bits [true; false; true; true] [1; 2; 3; 4] [70; 71; 72; 73; 74] = Some ([1; 3; 4; 2; 74], 3%nat).
Proof. reflexivity. Qed.

(** C102: Expand, LoadExpand *)
Theorem C102_emu : forall {A} (zero : A) m v, (count m <= length v)%nat -> exists r, emu_expand zero m v = Some r /\ is_expand zero m v r.
Proof. intros. apply emu_expand_ok; assumption. Qed.
Theorem C102_bytes : forall {B} (b0 : B) junk n m v, byte_lanes n -> length m = n -> length v = n -> is_expand b0 m v (if (n <=? 8)%nat then gen_expand8_half b0 junk n m v else gen_expand8_full b0 junk m v).
Proof.
  intros B b0 junk n m v Hn Hm Hv. destruct (byte_lanes_cases n Hn) as [H8|H16].
  - assert (Hle : (n <= 8)%nat) by (cbn [In] in H8; lia). destruct (Nat.leb_spec n 8); [|lia]. apply gen_expand8_half_ok; assumption.
  - rewrite H16 in *. cbn [Nat.leb]. apply gen_expand8_full_ok; assumption.
Qed.
Theorem C102_lanes16 : forall {B} (b0 : B) junk n m v, lane_config 2 n -> length m = n -> length v = (n * 2)%nat ->
  is_expand [b0; b0] m (to_lanes 2 n v) (to_lanes 2 n (gen_expand16 b0 junk n m v)) /\ length (gen_expand16 b0 junk n m v) = (n * 2)%nat.
Proof. intros B b0 junk n m v Hn. apply gen_expand16_ok. unfold lane_config in Hn. cbn [In] in Hn |- *. repeat match goal with H : _ \/ _ |- _ => destruct H as [H|H] end; try contradiction; try discriminate; injection Hn as <-; tauto. Qed.
Theorem C102_lanes32 : forall {A} (zero : A) m v, (length m = 2 \/ length m = 4)%nat -> length v = length m -> is_expand zero m v (gen_expand32 zero m v).
Proof. intros. apply gen_expand32_ok; assumption. Qed.
Theorem C102_lanes64 : forall {A} (zero : A) m v, length m = 2%nat -> length v = 2%nat -> is_expand zero m v (gen_expand64 zero m v).
Proof. intros. apply gen_expand64_ok; assumption. Qed.
Theorem C102_one : forall {A} (zero : A) m v, length m = 1%nat -> length v = 1%nat -> is_expand zero m v (gen_expand1 zero m v).
Proof. intros. apply gen_expand1_ok; assumption. Qed.
(** LoadExpand reads [n] lanes and expands them, so the result depends on the first CountTrue(m) only *)
Theorem C102_load_expand : forall {A} (zero : A) (expand : list bool -> list A -> list A) n m arr, (forall v, length v = n -> is_expand zero m v (expand m v)) -> length m = n -> (n <= length arr)%nat ->
  exists r, gen_load_expand expand n m arr = Some r /\ is_expand zero m arr r.
Proof.
  intros A zero expand n m arr He Hm Hl. unfold gen_load_expand. destruct (Nat.leb_spec n (length arr)); [|lia]. eexists. split; [reflexivity|]. destruct (He (firstn n arr)) as [H1 H2]; [rewrite firstn_length; lia|]. split; [exact H1|].
  intros i Hi. rewrite H2 by exact Hi. destruct (nth i m false); [|reflexivity]. rewrite <- (firstn_skipn n arr) at 2. rewrite app_nth1; [reflexivity|]. rewrite firstn_length. pose proof (count_firstn_le m i). lia.
Qed.
(** Expand undoes Compress on the selected lanes *)
Theorem C102_roundtrip : forall {A} (zero : A) m v r, length m = length v -> is_expand zero m (partitioned m v) r -> forall i, (i < length m)%nat -> nth i r zero = if nth i m false then nth i v zero else zero.
Proof.
  intros A zero m v r Hm [_ H] i Hi. rewrite (H i Hi). destruct (nth i m false) eqn:E; [|reflexivity]. unfold partitioned. clear H r.
  assert (C : (count (firstn i m) < count m)%nat). { rewrite <- (firstn_skipn i m) at 2. rewrite count_app. assert (0 < count (skipn i m))%nat; [|lia]. clear Hm. revert m Hi E. induction i as [|i IH]; intros [|b m] Hi E; cbn in Hi, E; cbn [skipn]; try lia. - subst b. rewrite count_cons. lia. - apply IH; [lia|exact E]. }
  rewrite app_nth1 by (rewrite select_length by exact Hm; exact C). clear C. revert m v Hm Hi E. induction i as [|i IH]; intros [|b m] [|x v] Hm Hi E; cbn in Hm, Hi, E; try lia; rewrite select_cons; cbn [firstn].
  - subst b. reflexivity.
  - rewrite count_cons. destruct b; cbn [Nat.add nth]; apply IH; try lia; assumption.
Qed.
Example C102_ex : gen_expand8_full 0 (fun _ => 9) [true; false; true; true; true; true; true; true; false; true; false; false; true; false; false; true] (map Z.of_nat (seq 1 16)) = [1; 0; 2; 3; 4; 5; 6; 7; 0; 8; 0; 0; 9; 0; 0; 10].
Proof. reflexivity. Qed.

(** C103: LoadMaskBits, StoreMaskBits, CountTrue, AllTrue, AllFalse, FindFirstTrue, FindLastTrue *)
Theorem C103_store_emu : forall m, (1 <= length m <= 16)%nat -> stored_bits m (emu_store_mask_bits m).
Proof. intros. apply emu_store_ok; assumption. Qed.
Theorem C103_store_x86 : forall m, stored_bits m (x86_store_mask_bits m).
Proof. intros. apply x86_store_ok. Qed.
Theorem C103_load_emu : forall n bits, emu_load_mask_bits n bits = mask_of n bits.
Proof. intros. apply emu_load_ok. Qed.
Theorem C103_load_x86 : forall sz n bits, bytes_ok bits -> (n < 8 \/ n = 8 * (n / 8))%nat -> x86_load_mask_bits sz n bits = mask_of n bits.
Proof. intros. apply x86_load_ok; assumption. Qed.
Theorem C103_load_of_stored : forall m out, stored_bits m out -> mask_of (length m) out = m.
Proof. intros. apply load_store; [reflexivity|assumption]. Qed.
Theorem C103_count : forall m, emu_count_true m = count m /\ ((length m <= 64)%nat -> x86_count_true m = count m).
Proof. intros m. split; [apply emu_count_true_ok|apply x86_count_true_ok]. Qed.
Theorem C103_all : forall m, (emu_all_false m = true <-> all_false m) /\ (emu_all_true m = true <-> all_true m) /\ (x86_all_false m = true <-> all_false m) /\ (x86_all_true m = true <-> all_true m).
Proof. intros m. split; [apply emu_all_false_ok|]. split; [apply emu_all_true_ok|]. split; [apply x86_all_false_ok|apply x86_all_true_ok]. Qed.
Theorem C103_find_first : forall m, found is_first m (emu_find_first_true m) /\ ((length m <= 32)%nat -> found is_first m (x86_find_first_true m)).
Proof. intros m. split; [apply emu_first_ok|apply x86_first_ok]. Qed.
Theorem C103_find_last : forall m, found is_last m (emu_find_last_true m) /\ ((length m <= 32)%nat -> found is_last m (x86_find_last_true m)).
Proof. intros m. split; [apply emu_last_ok|apply x86_last_ok]. Qed.
Example C103_ex : x86_store_mask_bits [true; false; false; true; false; false; false; false; true] = [9; 1] /\ x86_load_mask_bits 1 16 [9; 1; 77] = [true; false; false; true; false; false; false; false; true; false; false; false; false; false; false; false] /\
  emu_find_last_true [false; true; true; false] = 2 /\ x86_find_first_true [false; true; true; false] = 1.
Proof. repeat split. Qed.
