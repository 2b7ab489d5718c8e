(** Compress and Expand: proofs. *)
From Coq Require Import ZArith List Arith Bool Lia Permutation.
From Verif Require Import Word Compress_Tables Compress_Spec Compress_Model Compress_Bits.
Import ListNotations.
Open Scope Z_scope.
Lemma skipn_add {A} (l : list A) : forall a b, skipn a (skipn b l) = skipn (b + a) l.
Proof. intros a b. revert l. induction b as [|b IH]; intros [|x l]; cbn; auto. apply skipn_nil. Qed.
(** select *)
Section Sel.
Context {A : Type}.
Lemma select_cons b m (x : A) v : select (b :: m) (x :: v) = if b then x :: select m v else select m v.
Proof. unfold select. cbn. destruct b; reflexivity. Qed.
Lemma select_length m : forall (v : list A), length m = length v -> length (select m v) = count m.
Proof. induction m as [|b m IH]; intros [|x v] H; cbn in H; try lia; [reflexivity|]. rewrite select_cons, count_cons. destruct b; cbn [length]; rewrite IH by lia; lia. Qed.
Lemma select_app m1 m2 (v1 v2 : list A) : length m1 = length v1 -> select (m1 ++ m2) (v1 ++ v2) = select m1 v1 ++ select m2 v2.
Proof. revert v1; induction m1 as [|b m1 IH]; intros [|x v1] H; cbn in H; try lia; [reflexivity|]. cbn [app]. rewrite !select_cons, IH by lia. destruct b; reflexivity. Qed.
Lemma count_negb m : (count m + count (map negb m) = length m)%nat.
Proof. induction m as [|b m IH]; [reflexivity|]. cbn [map length]. rewrite !count_cons. destruct b; cbn [negb]; lia. Qed.
Lemma partitioned_length m (v : list A) : length m = length v -> length (partitioned m v) = length v.
Proof. intros H. unfold partitioned. rewrite app_length, !select_length by (rewrite ?map_length; exact H). rewrite count_negb. exact H. Qed.
Lemma partitioned_perm m : forall (v : list A), length m = length v -> Permutation (partitioned m v) v.
Proof.
  unfold partitioned. induction m as [|b m IH]; intros [|x v] H; cbn in H; try lia; [constructor|]. cbn [map]. rewrite !select_cons. destruct b; cbn [negb app].
  - constructor. apply IH. lia.
  - etransitivity; [symmetry; apply Permutation_middle|]. constructor. apply IH. lia.
Qed.
Lemma firstn_partitioned m (v : list A) : length m = length v -> firstn (count m) (partitioned m v) = select m v.
Proof. intros H. unfold partitioned. rewrite firstn_app, select_length, Nat.sub_diag by exact H. rewrite <- (select_length m v H), firstn_all. cbn. apply app_nil_r. Qed.
End Sel.
Lemma select_map {A B} (f : A -> B) m : forall v, select m (map f v) = map f (select m v).
Proof. induction m as [|b m IH]; intros [|x v]; try reflexivity. cbn [map]. rewrite !select_cons. destruct b; cbn [map]; rewrite IH; reflexivity. Qed.
Lemma partitioned_map {A B} (f : A -> B) m v : partitioned m (map f v) = map f (partitioned m v).
Proof. unfold partitioned. rewrite !select_map, map_app. reflexivity. Qed.
Lemma map_negb2 m : map negb (map negb m) = m. Proof. rewrite map_map, <- (map_id m) at 1. rewrite map_id. rewrite <- (map_id m) at 2. apply map_ext. apply negb_involutive. Qed.
(** EMU128 *)
Section Emu.
Context {A : Type} (zero : A).
Lemma emu_append_ok m : forall (v : list A) (pre : list A) ret, length m = length v ->
  fold_left (fun r i => if nth (i - length pre) m false then r ++ [nth i (pre ++ v) zero] else r) (seq (length pre) (length v)) ret = ret ++ select m v.
Proof.
  induction m as [|b m IH]; intros [|x v] pre ret H; cbn in H; try lia. { cbn. rewrite app_nil_r. reflexivity. }
  cbn [length seq fold_left]. rewrite Nat.sub_diag. cbn [nth]. rewrite app_nth2, Nat.sub_diag by lia. cbn [nth]. rewrite select_cons.
  specialize (IH v (pre ++ [x]) (if b then ret ++ [x] else ret) ltac:(lia)). rewrite app_length in IH. cbn [length] in IH. rewrite Nat.add_1_r, <- app_assoc in IH. cbn [app] in IH.
  match type of IH with ?L = _ => match goal with |- ?G = _ => replace G with L end end.
  - rewrite IH. destruct b; [rewrite <- app_assoc|]; reflexivity.
  - assert (G : forall l r, (forall i, In i l -> (length pre < i)%nat) -> fold_left (fun r i => if nth (i - S (length pre)) m false then r ++ [nth i (pre ++ x :: v) zero] else r) l r = fold_left (fun r i => if nth (i - length pre) (b :: m) false then r ++ [nth i (pre ++ x :: v) zero] else r) l r).
    { induction l as [|i l IHl]; intros r Hl; [reflexivity|]. cbn [fold_left]. pose proof (Hl i (or_introl eq_refl)). replace (i - length pre)%nat with (S (i - S (length pre))) by lia. cbn [nth]. apply IHl. intros j Hj. apply Hl. right. exact Hj. }
    apply G. intros i Hi. apply in_seq in Hi. lia.
Qed.
Lemma emu_append_sel m (v ret : list A) : length m = length v -> emu_append zero (fun i => nth i m false) v ret = ret ++ select m v.
Proof.
  intros H. pose proof (emu_append_ok m v [] ret H) as E. cbn [length app] in E. unfold emu_append. rewrite <- E.
  assert (G : forall l r, fold_left (fun r i => if nth i m false then r ++ [nth i v zero] else r) l r = fold_left (fun r i => if nth (i - 0) m false then r ++ [nth i v zero] else r) l r).
  { induction l as [|i l IHl]; intros r; [reflexivity|]. cbn [fold_left]. rewrite Nat.sub_0_r. apply IHl. }
  apply G.
Qed.
Lemma emu_append_nsel m (v ret : list A) : length m = length v -> emu_append zero (fun i => negb (nth i m false)) v ret = ret ++ select (map negb m) v.
Proof.
  intros H. rewrite <- emu_append_sel by (rewrite map_length; exact H). unfold emu_append.
  assert (G : forall l r, (forall i, In i l -> (i < length m)%nat) -> fold_left (fun r i => if negb (nth i m false) then r ++ [nth i v zero] else r) l r = fold_left (fun r i => if nth i (map negb m) false then r ++ [nth i v zero] else r) l r).
  { induction l as [|i l IHl]; intros r Hl; [reflexivity|]. cbn [fold_left]. rewrite (nth_indep (map negb m) false (negb false)) by (rewrite map_length; apply Hl; left; reflexivity). rewrite map_nth. apply IHl. intros j Hj. apply Hl. right. exact Hj. }
  apply G. intros i Hi. apply in_seq in Hi. lia.
Qed.
Lemma emu_compress_ok m (v : list A) : length m = length v -> emu_compress zero m v = partitioned m v.
Proof. intros H. unfold emu_compress. rewrite emu_append_sel, emu_append_nsel by exact H. reflexivity. Qed.
Lemma emu_compress_not_ok m (v : list A) : length m = length v -> emu_compress_not zero m v = partitioned (map negb m) v.
Proof. intros H. unfold emu_compress_not. rewrite emu_append_nsel, emu_append_sel by exact H. unfold partitioned. rewrite map_negb2. reflexivity. Qed.
(** stores *)
Lemma storeu_ok (buf : list A) pos vals : (pos + length vals <= length buf)%nat -> storeu buf pos vals = Some (firstn pos buf ++ vals ++ skipn (pos + length vals) buf).
Proof. intros H. unfold storeu. destruct (Nat.leb_spec (pos + length vals) (length buf)); [reflexivity|lia]. Qed.
Lemma emu_store_lanes_ok m : forall (v : list A) cnt buf, length m = length v -> (cnt + count m <= length buf)%nat ->
  emu_store_lanes m v cnt buf = Some (firstn cnt buf ++ select m v ++ skipn (cnt + count m) buf, (cnt + count m)%nat).
Proof.
  induction m as [|b m IH]; intros [|x v] cnt buf H Hc; cbn in H; try lia.
  { cbn [emu_store_lanes]. change (count []) with O. rewrite Nat.add_0_r. cbn [select combine filter map app]. unfold select. cbn. rewrite firstn_skipn. reflexivity. }
  cbn [emu_store_lanes]. rewrite count_cons in *. rewrite select_cons. destruct b.
  2:{ cbn [Nat.add]. apply IH; [lia|exact Hc]. }
  rewrite storeu_ok by (cbn [length]; lia). cbn [length]. assert (L : length (firstn cnt buf) = cnt) by (rewrite firstn_length; lia).
  assert (L' : length (firstn cnt buf ++ [x] ++ skipn (cnt + 1) buf) = length buf) by (rewrite !app_length, L, skipn_length; cbn [length]; lia).
  rewrite IH by (rewrite ?L'; lia). f_equal. f_equal; [|lia].
  rewrite firstn_app, L, firstn_all2 by lia. replace (S cnt - cnt)%nat with 1%nat by lia. cbn [app firstn]. rewrite <- app_assoc. cbn [app]. f_equal. f_equal. f_equal.
  rewrite skipn_app, L, skipn_all2 by lia. cbn [app]. replace (S cnt + count m - cnt)%nat with (S (count m)) by lia. cbn [skipn]. rewrite skipn_add. f_equal. lia.
Qed.
Lemma compress_stored_intro n m (v buf vals : list A) : length m = length v -> (count m <= length vals)%nat -> firstn (count m) vals = select m v -> length vals = n -> (n <= length buf)%nat ->
  exists buf', storeu buf O vals = Some buf' /\ compress_stored n m v buf buf' (count m).
Proof.
  intros H Hc Hv Hn Hb. exists (vals ++ skipn n buf). split. { rewrite storeu_ok by lia. rewrite Hn. reflexivity. }
  split; [reflexivity|]. split; [rewrite app_length, skipn_length; lia|]. split.
  - rewrite firstn_app. replace (count m - length vals)%nat with O by lia. cbn. rewrite app_nil_r. exact Hv.
  - rewrite skipn_app, skipn_all2 by lia. rewrite Hn, Nat.sub_diag. reflexivity.
Qed.
Lemma emu_compress_store_ok m (v buf : list A) : length m = length v -> (count m <= length buf)%nat ->
  exists buf' cnt, emu_compress_store m v buf = Some (buf', cnt) /\ compress_stored (count m) m v buf buf' cnt.
Proof.
  intros H Hb. unfold emu_compress_store. rewrite emu_store_lanes_ok by (cbn; lia || exact H). cbn [Nat.add firstn app]. eexists _, _. split; [reflexivity|].
  pose proof (select_length m v H) as L. split; [reflexivity|]. split; [rewrite app_length, skipn_length; lia|]. split.
  - rewrite firstn_app, L, Nat.sub_diag, <- L, firstn_all. apply app_nil_r.
  - rewrite skipn_app, L, Nat.sub_diag, skipn_all2 by lia. reflexivity.
Qed.
Lemma emu_bits_store_ok (v buf : list A) bits : (length v <= length buf)%nat ->
  exists buf' cnt, emu_compress_bits_store zero v bits buf = Some (buf', cnt) /\ compress_stored (length v) (mask_of (length v) bits) v buf buf' cnt.
Proof.
  intros Hb. unfold emu_compress_bits_store. rewrite emu_load_ok. set (m := mask_of _ _). assert (H : length m = length v) by apply mask_of_length. rewrite emu_compress_ok by exact H.
  pose proof (partitioned_length m v H) as L. pose proof (count_le m). destruct (compress_stored_intro (length v) m v buf (partitioned m v) H) as (buf' & E & S); [lia|apply firstn_partitioned, H|exact L|exact Hb|].
  rewrite E. cbn [option_map]. rewrite emu_count_true_ok. eexists _, _. split; [reflexivity|exact S].
Qed.
Lemma blended_ok m (v buf vals : list A) : length m = length v -> (count m <= length vals)%nat -> firstn (count m) vals = select m v -> (count m <= length buf)%nat ->
  exists buf', blended_store vals (count m) buf = Some buf' /\ compress_stored (count m) m v buf buf' (count m).
Proof.
  intros H Hc Hv Hb. unfold blended_store. pose proof (select_length m v H) as L. destruct (compress_stored_intro (count m) m v buf (select m v) H) as (buf' & E & S); [lia| |exact L|exact Hb|].
  - rewrite <- L. apply firstn_all.
  - exists buf'. rewrite Hv. split; assumption.
Qed.
(** Expand *)
Lemma emu_expand_from_ok m : forall (v : list A) p, (p + count m <= length v)%nat ->
  exists r, emu_expand_from zero m v p = Some r /\ length r = length m /\ forall i, (i < length m)%nat -> nth i r zero = if nth i m false then nth (p + count (firstn i m)) v zero else zero.
Proof.
  induction m as [|b m IH]; intros v p H. { exists []. split; [reflexivity|]. split; [reflexivity|intros i Hi; cbn in Hi; lia]. }
  rewrite count_cons in H. destruct b; cbn [emu_expand_from].
  - destruct (nth_error v p) as [x|] eqn:E; [|apply nth_error_None in E; lia]. destruct (IH v (S p) ltac:(lia)) as (r & Er & L & Hr). rewrite Er. exists (x :: r). split; [reflexivity|]. split; [cbn [length]; lia|].
    intros [|i] Hi; cbn [nth firstn]. { change (count []) with O. rewrite Nat.add_0_r. symmetry. apply nth_error_nth, E. }
    cbn [length] in Hi. rewrite Hr by lia. rewrite count_cons. replace (p + (1 + count (firstn i m)))%nat with (S p + count (firstn i m))%nat by lia. reflexivity.
  - destruct (IH v p ltac:(lia)) as (r & Er & L & Hr). rewrite Er. exists (zero :: r). split; [reflexivity|]. split; [cbn [length]; lia|].
    intros [|i] Hi; cbn [nth firstn]; [reflexivity|]. cbn [length] in Hi. rewrite Hr by lia. rewrite count_cons. reflexivity.
Qed.
Lemma emu_expand_ok m (v : list A) : (count m <= length v)%nat -> exists r, emu_expand zero m v = Some r /\ is_expand zero m v r.
Proof. intros H. destruct (emu_expand_from_ok m v O H) as (r & E & L & P). exists r. split; [exact E|]. split; [exact L|exact P]. Qed.
(** two 64-bit lanes, one lane, four 32-bit lanes *)
Lemma two {X} (l : list X) : length l = 2%nat -> exists x y, l = [x; y]. Proof. destruct l as [|x [|y [|]]]; try discriminate. intros _. exists x, y. reflexivity. Qed.
Lemma one {X} (l : list X) : length l = 1%nat -> exists x, l = [x]. Proof. destruct l as [|x [|]]; try discriminate. intros _. exists x. reflexivity. Qed.
Lemma four {X} (l : list X) : length l = 4%nat -> exists x y z w, l = [x; y; z; w]. Proof. destruct l as [|x [|y [|z [|w [|]]]]]; try discriminate. intros _. exists x, y, z, w. reflexivity. Qed.
Lemma x86_compress1_ok m (v : list A) : length m = 1%nat -> length v = 1%nat -> x86_compress1 m v = partitioned m v /\ x86_compress1 m v = partitioned (map negb m) v.
Proof. intros Hm Hv. destruct (one m Hm) as ([|] & ->), (one v Hv) as (x & ->); split; reflexivity. Qed.
Lemma x86_compress64_ok m (v : list A) : length m = 2%nat -> length v = 2%nat -> x86_compress64 m v = partitioned m v /\ x86_compress_not64 m v = partitioned (map negb m) v.
Proof. intros Hm Hv. destruct (two m Hm) as ([|] & [|] & ->), (two v Hv) as (x & y & ->); split; reflexivity. Qed.
Definition expanded (m : list bool) (v : list A) : list A := map (fun i => if nth i m false then nth (count (firstn i m)) v zero else zero) (seq 0 (length m)).
Lemma nth_map_seq {X} (f : nat -> X) n i d : (i < n)%nat -> nth i (map f (seq 0 n)) d = f i.
Proof. intros H. rewrite (nth_indep _ d (f O)) by (rewrite map_length, seq_length; exact H). rewrite map_nth, seq_nth by exact H. reflexivity. Qed.
Lemma expanded_ok m v r : r = expanded m v -> is_expand zero m v r.
Proof. intros ->. unfold expanded. split; [rewrite map_length, seq_length; reflexivity|]. intros i Hi. rewrite nth_map_seq by exact Hi. reflexivity. Qed.
Lemma gen_expand64_ok m v : length m = 2%nat -> length v = 2%nat -> is_expand zero m v (gen_expand64 zero m v).
Proof. intros Hm Hv. apply expanded_ok. destruct (two m Hm) as ([|] & [|] & ->), (two v Hv) as (x & y & ->); reflexivity. Qed.
Lemma gen_expand1_ok m v : length m = 1%nat -> length v = 1%nat -> is_expand zero m v (gen_expand1 zero m v).
Proof. intros Hm Hv. apply expanded_ok. destruct (one m Hm) as ([|] & ->), (one v Hv) as (x & ->); reflexivity. Qed.
Lemma gen_expand32_ok m v : (length m = 2 \/ length m = 4)%nat -> length v = length m -> is_expand zero m v (gen_expand32 zero m v).
Proof.
  intros [Hm|Hm] Hv; rewrite Hm in Hv; apply expanded_ok.
  - destruct (two m Hm) as ([|] & [|] & ->), (two v Hv) as (x & y & ->); reflexivity.
  - destruct (four m Hm) as ([|] & [|] & [|] & [|] & ->), (four v Hv) as (x & y & z & w & ->); reflexivity.
Qed.
End Emu.
(** every mask of a length *)
Fixpoint all_masks (n : nat) : list (list bool) := match n with O => [[]] | S n' => map (cons true) (all_masks n') ++ map (cons false) (all_masks n') end.
Lemma all_masks_in n : forall m, length m = n -> In m (all_masks n).
Proof. induction n as [|n IH]; intros [|b m] H; cbn in H; try lia; cbn [all_masks]; [left; reflexivity|]. apply in_or_app. destruct b; [left|right]; apply in_map, IH; lia. Qed.
Definition leq (a b : list Z) : bool := if list_eq_dec Z.eq_dec a b then true else false.
Lemma leq_ok a b : leq a b = true -> a = b. Proof. unfold leq. destruct list_eq_dec; [auto|discriminate]. Qed.
Lemma masks_ok n (f g : list bool -> list Z) : forallb (fun m => leq (f m) (g m)) (all_masks n) = true -> forall m, length m = n -> f m = g m.
Proof. intros H m Hm. rewrite forallb_forall in H. apply leq_ok, H, all_masks_in, Hm. Qed.
Definition byte_indices (sz : nat) (l : list nat) : list Z := flat_map (fun i => map (fun j => Z.of_nat (i * sz + j)) (seq 0 sz)) l.
Lemma indices_ok sz n m : lane_config sz n -> length m = n -> indices_from_bits sz n (bits_from_mask m) = byte_indices sz (partitioned m (seq 0 n)).
Proof.
  intros H Hm. revert m Hm. unfold lane_config in H. cbn [In] in H.
  repeat match goal with H : _ \/ _ |- _ => destruct H as [H|H] end; try contradiction; injection H as <- <-; apply masks_ok; vm_cast_no_check (@eq_refl bool true).
Qed.
Definition full_config (sz n : nat) : Prop := In (sz, n) [(2, 8); (4, 4)]%nat.
Lemma not_indices_ok sz n m : full_config sz n -> length m = n -> indices_from_not_bits sz n (bits_from_mask m) = byte_indices sz (partitioned (map negb m) (seq 0 n)).
Proof.
  intros H Hm. revert m Hm. unfold full_config in H. cbn [In] in H.
  repeat match goal with H : _ \/ _ |- _ => destruct H as [H|H] end; try contradiction; injection H as <- <-; apply masks_ok; vm_cast_no_check (@eq_refl bool true).
Qed.
Lemma table8_ok n m : In n [1; 2; 4; 8]%nat -> length m = n -> load n table_compress8 (bits_from_mask m * 8) = map Z.of_nat (partitioned m (seq 0 n)).
Proof.
  intros H Hm. revert m Hm. cbn [In] in H.
  repeat match goal with H : _ \/ _ |- _ => destruct H as [H|H] end; try contradiction; subst n; apply masks_ok; vm_cast_no_check (@eq_refl bool true).
Qed.
Definition expand_idx (m : list bool) : list Z := map (fun i => if nth i m false then Z.of_nat (count (firstn i m)) else 128) (seq 0 (length m)).
Lemma expand8_idx n m : In n [1; 2; 4; 8]%nat -> length m = n -> indices_for_expand n (bits_from_mask m) = expand_idx m.
Proof.
  intros H Hm. revert m Hm. cbn [In] in H.
  repeat match goal with H : _ \/ _ |- _ => destruct H as [H|H] end; try contradiction; subst n; apply masks_ok; vm_cast_no_check (@eq_refl bool true).
Qed.
Definition expand_idx16 (m : list bool) : list Z := flat_map (fun i => if nth i m false then [Z.of_nat (count (firstn i m) * 2); Z.of_nat (count (firstn i m) * 2 + 1)] else [128; 129]) (seq 0 (length m)).
Lemma expand16_idx n m : In n [1; 2; 4; 8]%nat -> length m = n -> zip_lower (load n table_expand16 (bits_from_mask m * 8)) = expand_idx16 m.
Proof.
  intros H Hm. revert m Hm. cbn [In] in H.
  repeat match goal with H : _ \/ _ |- _ => destruct H as [H|H] end; try contradiction; subst n; apply masks_ok; vm_cast_no_check (@eq_refl bool true).
Qed.
