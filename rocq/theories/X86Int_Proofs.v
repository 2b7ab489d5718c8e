(** Integer conversions on x86: proofs. *)
From Coq Require Import ZArith List Bool Lia Arith.
From Verif Require Import Word Word_Proofs X86Int_Spec X86Int_Model.
Import ListNotations.
Open Scope Z_scope.
Arguments Z.pow : simpl never.
Arguments Z.mul : simpl never.
Arguments Z.add : simpl never.
Arguments Z.of_nat : simpl never.
Definition byte (b : Z) : Prop := 0 <= b < 256.
Definition ln (s i : nat) (r : reg) : Z := le (lane_bytes s i r).
Lemma pow_bits_S s : 2 ^ bits (S s) = 256 * 2 ^ bits s.
Proof. unfold bits. replace (8 * Z.of_nat (S s)) with (8 + 8 * Z.of_nat s) by lia. rewrite Z.pow_add_r by lia. reflexivity. Qed.
Lemma pow_bits_pos s : 0 < 2 ^ bits s. Proof. apply pow2_gt0. unfold bits. lia. Qed.
Lemma bytes_length s x : length (bytes s x) = s.
Proof. revert x; induction s; intros; cbn; auto. Qed.
Lemma bytes_byte s x : Forall byte (bytes s x).
Proof. revert x; induction s; intros; cbn [bytes]; constructor; auto. apply (wrap_range 8). lia. Qed.
Lemma le_bytes s x : le (bytes s x) = wrap (bits s) x.
Proof.
  revert x; induction s as [|s IH]; intros x; cbn [bytes le].
  - unfold wrap, bits. change (2 ^ (8 * Z.of_nat 0)) with 1. rewrite Z.mod_1_r. reflexivity.
  - rewrite IH. unfold wrap. rewrite pow_bits_S. pose proof (pow_bits_pos s). rewrite (Z.rem_mul_r x 256 (2 ^ bits s)) by lia. reflexivity.
Qed.
Lemma le_range bs : Forall byte bs -> 0 <= le bs < 2 ^ bits (length bs).
Proof. induction 1 as [|b bs Hb _ IH]; [cbn; unfold bits; cbn; lia|]. cbn [le length]. rewrite pow_bits_S. unfold byte in Hb. lia. Qed.
Lemma le_firstn k bs : Forall byte bs -> le (firstn k bs) = wrap (bits k) (le bs).
Proof.
  intros H. revert k. induction H as [|b bs Hb Hbs IH]; intros [|k]; cbn [firstn le].
  1,3: unfold wrap, bits; change (2 ^ (8 * Z.of_nat 0)) with 1; rewrite Z.mod_1_r; reflexivity.
  - unfold wrap. rewrite Z.mod_0_l; auto. pose proof (pow_bits_pos (S k)). lia.
  - rewrite IH. unfold wrap. rewrite pow_bits_S. pose proof (pow_bits_pos k). rewrite (Z.rem_mul_r (b + 256 * le bs) 256 (2 ^ bits k)) by lia. unfold byte in Hb.
    replace ((b + 256 * le bs) mod 256) with b by (rewrite Z.mul_comm, Z.mod_add by lia; rewrite Z.mod_small; lia).
    replace ((b + 256 * le bs) / 256) with (le bs) by (rewrite Z.mul_comm, Z.div_add by lia; rewrite Z.div_small; lia). reflexivity.
Qed.
Lemma of_lanes_length s l : length (of_lanes s l) = (length l * s)%nat.
Proof. unfold of_lanes. induction l; cbn [flat_map length Nat.mul]; auto. rewrite app_length, bytes_length, IHl. reflexivity. Qed.
Lemma of_lanes_byte s l : Forall byte (of_lanes s l).
Proof. unfold of_lanes. induction l; cbn [flat_map]; auto. apply Forall_app; split; auto. apply bytes_byte. Qed.
Lemma lane_bytes_of_lanes s l i : (i < length l)%nat -> lane_bytes s i (of_lanes s l) = bytes s (nth i l 0).
Proof.
  revert i; induction l as [|x l IH]; intros i Hi; [cbn in Hi; lia|]. unfold lane_bytes, of_lanes in *. cbn [flat_map]. destruct i as [|i].
  - cbn [Nat.mul skipn nth]. rewrite firstn_app, bytes_length, Nat.sub_diag. cbn [firstn]. rewrite app_nil_r. rewrite <- (bytes_length s x) at 1. apply firstn_all.
  - rewrite skipn_app, bytes_length, skipn_all2 by (rewrite bytes_length; nia). replace (S i * s - s)%nat with (i * s)%nat by lia. cbn [app nth]. apply IH. cbn in Hi; lia.
Qed.
Lemma ln_of_lanes s l i : (i < length l)%nat -> ln s i (of_lanes s l) = wrap (bits s) (nth i l 0).
Proof. intros. unfold ln. rewrite lane_bytes_of_lanes by auto. apply le_bytes. Qed.
Lemma lanes_length s r : length (lanes s r) = (length r / s)%nat. Proof. unfold lanes. rewrite map_length, seq_length. reflexivity. Qed.
Lemma nth_lanes s r i : (i < length r / s)%nat -> nth i (lanes s r) 0 = ln s i r.
Proof.
  intros H. unfold lanes. rewrite nth_indep with (d' := (fun i => le (lane_bytes s i r)) 0%nat) by (rewrite map_length, seq_length; lia).
  rewrite (map_nth (fun i => le (lane_bytes s i r))). rewrite seq_nth by lia. reflexivity.
Qed.
Lemma nth_map' {A B} (f : A -> B) l i a b : (i < length l)%nat -> nth i (map f l) b = f (nth i l a).
Proof. intros. rewrite nth_indep with (d' := f a) by (rewrite map_length; lia). apply map_nth. Qed.
Lemma ln_map1 s f r i : (i < length r / s)%nat -> ln s i (map1 s f r) = wrap (bits s) (f (ln s i r)).
Proof.
  intros H. unfold map1. rewrite ln_of_lanes by (rewrite map_length, lanes_length; auto). rewrite (nth_map' f _ i 0) by (rewrite lanes_length; auto). rewrite nth_lanes by auto. reflexivity.
Qed.
Lemma map1_length s f r : (length (map1 s f r) = (length r / s) * s)%nat. Proof. unfold map1. rewrite of_lanes_length, map_length, lanes_length. reflexivity. Qed.
Lemma map1_byte s f r : Forall byte (map1 s f r). Proof. apply of_lanes_byte. Qed.
Lemma pack_length s sg a b : length (pack s sg a b) = ((length a / s + length b / s) * (s / 2))%nat.
Proof. unfold pack. rewrite of_lanes_length, map_length, app_length, !lanes_length. reflexivity. Qed.
Lemma pack_byte s sg a b : Forall byte (pack s sg a b). Proof. apply of_lanes_byte. Qed.
Lemma ln_pack_lo s sg a b i : (i < length a / s)%nat -> ln (s / 2) i (pack s sg a b) = wrap (bits (s / 2)) (sat sg (bits (s / 2)) (swrap (bits s) (ln s i a))).
Proof.
  intros H. unfold pack. rewrite ln_of_lanes by (rewrite map_length, app_length, !lanes_length; lia). rewrite (nth_map' _ _ i 0) by (rewrite app_length, !lanes_length; lia).
  rewrite app_nth1 by (rewrite lanes_length; lia). rewrite nth_lanes by auto. reflexivity.
Qed.
Lemma ln_pack_hi s sg a b i : (length a / s <= i < length a / s + length b / s)%nat ->
  ln (s / 2) i (pack s sg a b) = wrap (bits (s / 2)) (sat sg (bits (s / 2)) (swrap (bits s) (ln s (i - length a / s) b))).
Proof.
  intros H. unfold pack. rewrite ln_of_lanes by (rewrite map_length, app_length, !lanes_length; lia). rewrite (nth_map' _ _ i 0) by (rewrite app_length, !lanes_length; lia).
  rewrite app_nth2 by (rewrite lanes_length; lia). rewrite lanes_length. rewrite nth_lanes by lia. reflexivity.
Qed.
Lemma reg_facts n r : register n r -> length r = n /\ Forall byte r. Proof. auto. Qed.
Lemma Forall_firstn' {A} (P : A -> Prop) k l : Forall P l -> Forall P (firstn k l).
Proof. intros H. revert k. induction H; intros [|k]; cbn; auto. Qed.
Lemma Forall_skipn' {A} (P : A -> Prop) k l : Forall P l -> Forall P (skipn k l).
Proof. intros H. revert k. induction H; intros [|k]; cbn; auto. Qed.
Lemma lane_bytes_byte s i r : Forall byte r -> Forall byte (lane_bytes s i r).
Proof. intros. apply Forall_firstn', Forall_skipn'. auto. Qed.
Lemma ln_range s i r : Forall byte r -> 0 <= ln s i r < 2 ^ bits s.
Proof.
  intros H. unfold ln. pose proof (le_range _ (lane_bytes_byte s i r H)) as R. assert (length (lane_bytes s i r) <= s)%nat by (unfold lane_bytes; rewrite firstn_length; lia).
  assert (2 ^ bits (length (lane_bytes s i r)) <= 2 ^ bits s) by (apply Z.pow_le_mono_r; unfold bits; lia). lia.
Qed.
(** [lane_value] in terms of [ln] *)
Lemma unsigned_at_ln s k r : (k + s <= length r)%nat -> unsigned_at s k r = le (firstn s (skipn k r)).
Proof.
  revert k. induction s as [|s IH]; intros k H; [reflexivity|]. cbn [unsigned_at]. rewrite IH by lia.
  assert (E : skipn k r = nth k r 0 :: skipn (S k) r). { clear IH. revert r H. induction k; intros [|x r] H; cbn in *; try lia; auto. apply IHk. lia. }
  rewrite E. reflexivity.
Qed.
Definition value_of (sg : bool) (s : nat) (x : Z) : Z := if sg then swrap (bits s) x else x.
Lemma lane_value_ln sg s i r : (0 < s)%nat -> (i * s + s <= length r)%nat -> Forall byte r -> lane_value sg s i r = value_of sg s (ln s i r).
Proof.
  intros Hs Hi Hb. unfold lane_value, value_of. rewrite unsigned_at_ln by auto. fold (lane_bytes s i r). fold (ln s i r). pose proof (ln_range s i r Hb) as R. destruct sg; [|reflexivity]. cbn [andb]. unfold swrap. fold (bits s). rewrite Z.mod_small by auto.
  destruct (Z.leb_spec (2 ^ (bits s - 1)) (ln s i r)), (Z.ltb_spec (ln s i r) (2 ^ (bits s - 1))); lia.
Qed.
