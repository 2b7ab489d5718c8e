From Coq Require Import ZArith List Arith Bool Lia Permutation.
From Verif Require Import Vec_Model Partition_Proofs Sort_Spec Network_Model Network_Check.
Import ListNotations.

(** * 1. naturality *)
Section Hom.
Context {K1 K2 : Type} (f1 l1 : K1 -> K1 -> K1) (f2 l2 : K2 -> K2 -> K2) (h : K1 -> K2).
Hypothesis Hf : forall a b, h (f1 a b) = f2 (h a) (h b).
Hypothesis Hl : forall a b, h (l1 a b) = l2 (h a) (h b).
Notation mp := (map h).
Lemma zipw_hom g1 g2 a b : (forall x y, h (g1 x y) = g2 (h x) (h y)) -> mp (zipw g1 a b) = zipw g2 (mp a) (mp b).
Proof. intros H. unfold zipw. revert b. induction a as [|x a IH]; intros [|y b]; try reflexivity. cbn. rewrite H. f_equal. apply IH. Qed.
Lemma chunks_hom c1 c2 g : (forall v, mp (c1 v) = c2 (mp v)) -> forall fuel v, mp (chunks fuel g c1 v) = chunks fuel g c2 (mp v).
Proof. intros H. induction fuel as [|n IH]; intros v; [reflexivity|]. cbn [chunks]. rewrite map_app, IH, H, firstn_map, skipn_map. reflexivity. Qed.
Lemma by_chunks_hom c1 c2 g v : (forall v, mp (c1 v) = c2 (mp v)) -> mp (by_chunks g c1 v) = by_chunks g c2 (mp v).
Proof. intros H. unfold by_chunks. rewrite map_length. now apply chunks_hom. Qed.
Lemma pair_up_hom n a b : mp (pair_up f1 l1 n a b) = pair_up f2 l2 n (mp a) (mp b).
Proof. unfold pair_up. rewrite map_app, <- firstn_map, <- skipn_map. now rewrite (zipw_hom f1 f2), (zipw_hom l1 l2). Qed.
Lemma row_hom r m : mp (row r m) = row r (map mp m).
Proof. unfold row. now rewrite <- (map_nth mp). Qed.
Lemma set_row_hom v : forall m r, map mp (set_row r v m) = set_row r (mp v) (map mp m).
Proof. induction m as [|x m IH]; intros [|r]; try reflexivity. cbn. now rewrite IH. Qed.
Lemma step_hom i m : map mp (step f1 l1 i m) = step f2 l2 i (map mp m).
Proof.
  destruct i as [a b|g r|g r|n r]; cbn [step]; rewrite !set_row_hom, ?row_hom.
  - rewrite (zipw_hom l1 l2), (zipw_hom f1 f2), !row_hom by assumption. reflexivity.
  - f_equal. unfold rev_keys. rewrite (by_chunks_hom _ (@rev K2)); [now rewrite row_hom|]. intros v. apply map_rev.
  - f_equal. unfold pairs_rev. rewrite (by_chunks_hom _ (fun c => pair_up f2 l2 (g / 2) c (rev c))); [now rewrite row_hom|]. intros v. now rewrite pair_up_hom, map_rev.
  - f_equal. unfold pairs_dist. rewrite (by_chunks_hom _ (fun c => pair_up f2 l2 n c (skipn n c ++ firstn n c))); [now rewrite row_hom|]. intros v. now rewrite pair_up_hom, map_app, <- firstn_map, <- skipn_map.
Qed.
Lemma run_hom p : forall m, map mp (run f1 l1 p m) = run f2 l2 p (map mp m).
Proof. induction p as [|i p IH]; intros m; [reflexivity|]. cbn [run]. now rewrite IH, step_hom. Qed.
End Hom.

(** * 2. shape, locality, permutation *)
Section Shape.
Context {K : Type} (first last : K -> K -> K).
Notation Run := (run first last).
Notation Step := (step first last).
Definition wf (rows w : nat) (m : list (list K)) : Prop := length m = rows /\ Forall (fun v => length v = w) m.

Lemma zipw_len g a b : length (zipw (K := K) g a b) = Nat.min (length a) (length b). Proof. unfold zipw. now rewrite map_length, combine_length. Qed.
Lemma zipw_app g a b c d : length a = length c -> zipw (K := K) g (a ++ b) (c ++ d) = zipw g a c ++ zipw g b d.
Proof. revert c. induction a as [|x a IH]; intros [|y c] H; try discriminate; [reflexivity|]. cbn. f_equal. apply IH. cbn in H. lia. Qed.
Lemma firstn_zipw g n : forall a b, firstn n (zipw (K := K) g a b) = zipw g (firstn n a) (firstn n b).
Proof. induction n as [|n IH]; intros [|x a] [|y b]; try reflexivity; cbn. f_equal. apply IH. Qed.
Lemma skipn_zipw g n : forall a b, skipn n (zipw (K := K) g a b) = zipw g (skipn n a) (skipn n b).
Proof. induction n as [|n IH]; intros [|x a] [|y b]; try reflexivity; cbn; [unfold zipw; destruct (skipn n a); reflexivity|]. apply IH. Qed.
Lemma pair_up_len n c s : length c = 2 * n -> length s = 2 * n -> length (pair_up first last n c s) = 2 * n.
Proof. intros H1 H2. unfold pair_up. rewrite app_length, firstn_length, skipn_length, !zipw_len. lia. Qed.

(** decompose a vector into groups *)
Lemma chunks_app g f : forall k a b, length a = k * g -> forall n, chunks (k + n) g f (a ++ b) = chunks (K := K) k g f a ++ chunks n g f b.
Proof.
  induction k as [|k IH]; intros a b H n; [destruct a; [reflexivity|cbn in H; lia]|]. cbn [plus chunks].
  rewrite firstn_app, skipn_app. replace (g - length a) with 0 by lia. cbn [firstn skipn]. rewrite app_nil_r, <- app_assoc. f_equal. apply IH. rewrite skipn_length. lia.
Qed.
Lemma by_chunks_app g f a b : g <> 0 -> Nat.divide g (length a) -> by_chunks (K := K) g f (a ++ b) = by_chunks g f a ++ by_chunks g f b.
Proof.
  intros Hg [k Hk]. unfold by_chunks. rewrite app_length, Hk, Nat.div_mul by assumption. rewrite Nat.add_comm, Nat.div_add, Nat.add_comm by assumption. now apply chunks_app.
Qed.
Lemma chunks_len g f : (forall c, length c = g -> length (f c) = g) -> forall k v, length v = k * g -> length (chunks (K := K) k g f v) = k * g.
Proof. intros H. induction k as [|k IH]; intros v Hv; [reflexivity|]. cbn [chunks]. rewrite app_length, H, IH; [lia|rewrite skipn_length; lia|rewrite firstn_length; lia]. Qed.
Lemma by_chunks_len g f v : g <> 0 -> (forall c, length c = g -> length (f c) = g) -> Nat.divide g (length v) -> length (by_chunks (K := K) g f v) = length v.
Proof. intros Hg H [k Hk]. unfold by_chunks. rewrite Hk, Nat.div_mul by assumption. now apply chunks_len. Qed.
Lemma chunks_perm g f : (forall c, length c = g -> Permutation (f c) c) -> forall k v, length v = k * g -> Permutation (chunks (K := K) k g f v) v.
Proof.
  intros H. induction k as [|k IH]; intros v Hv; [destruct v; [constructor|cbn in Hv; lia]|]. cbn [chunks]. rewrite <- (firstn_skipn g v) at 3. apply Permutation_app; [apply H; rewrite firstn_length; lia|apply IH; rewrite skipn_length; lia].
Qed.
Lemma by_chunks_perm g f v : g <> 0 -> (forall c, length c = g -> Permutation (f c) c) -> Nat.divide g (length v) -> Permutation (by_chunks (K := K) g f v) v.
Proof. intros Hg H [k Hk]. unfold by_chunks. rewrite Hk, Nat.div_mul by assumption. now apply chunks_perm. Qed.

(** the part of a row with columns [s, s + n) *)
Definition slice (s n : nat) (v : list K) : list K := firstn n (skipn s v).
Lemma slice_split s n v : s + n <= length v -> exists a b, v = a ++ slice s n v ++ b /\ length a = s /\ length (slice s n v) = n.
Proof.
  intros H. exists (firstn s v), (skipn n (skipn s v)). unfold slice. rewrite firstn_skipn, firstn_skipn, !firstn_length, skipn_length. split; [reflexivity|]. lia.
Qed.
Lemma slice_app s n a b c : length a = s -> length b = n -> slice s n (a ++ b ++ c) = b.
Proof. intros <- <-. unfold slice. rewrite skipn_app, skipn_all, Nat.sub_diag. cbn [app skipn]. now rewrite firstn_app, firstn_all, Nat.sub_diag, app_nil_r. Qed.
Lemma slice_zipw g s n a b : slice s n (zipw (K := K) g a b) = zipw g (slice s n a) (slice s n b).
Proof. unfold slice. now rewrite skipn_zipw, firstn_zipw. Qed.
Lemma slice_by_chunks g f s n v : g <> 0 -> (forall c, length c = g -> length (f c) = g) -> Nat.divide g s -> Nat.divide g n -> Nat.divide g (length v) -> s + n <= length v ->
  slice s n (by_chunks (K := K) g f v) = by_chunks g f (slice s n v).
Proof.
  intros Hg Hf D1 D2 D3 HL. destruct (slice_split s n v HL) as (a & b & E & La & Lb). rewrite E at 1. rewrite !by_chunks_app by (rewrite ?La, ?Lb; assumption).
  apply slice_app; rewrite by_chunks_len; rewrite ?La, ?Lb; auto.
Qed.

Lemma row_in (m : list (list K)) r : r < length m -> In (row r m) m. Proof. apply nth_In. Qed.
Lemma row_len rows w m r : wf rows w m -> r < rows -> length (row r m) = w.
Proof. intros (L & F) H. rewrite Forall_forall in F. apply F. apply row_in. lia. Qed.
Lemma set_row_len (v : list K) : forall m r, length (set_row r v m) = length m.
Proof. induction m as [|x m IH]; intros [|r]; try reflexivity. cbn. now rewrite IH. Qed.
Lemma set_row_wf rows w (v : list K) m r : wf rows w m -> length v = w -> wf rows w (set_row r v m).
Proof.
  intros (L & F) H. split; [now rewrite set_row_len|]. clear L. revert r. induction F as [|x m Hx F IH]; intros [|r]; cbn; try constructor; auto.
Qed.
Lemma row_set_same (v : list K) : forall m r, r < length m -> row r (set_row r v m) = v.
Proof. unfold row. induction m as [|x m IH]; intros [|r] H; cbn in *; try lia; [reflexivity|]. apply IH. lia. Qed.
Lemma row_set_other (v : list K) : forall m r s, r <> s -> row s (set_row r v m) = row s m.
Proof. unfold row. induction m as [|x m IH]; intros [|r] [|s] H; cbn; try lia; try reflexivity. apply IH. lia. Qed.
Lemma map_set_row {B} (f : list K -> list B) (v : list K) : forall m r, map f (set_row r v m) = set_row r (f v) (map f m).
Proof. induction m as [|x m IH]; intros [|r]; try reflexivity. cbn. now rewrite IH. Qed.
Lemma row_map_slice s n (m : list (list K)) r : slice s n (row r m) = row r (map (slice s n) m).
Proof. unfold row. rewrite <- (map_nth (slice s n)). unfold slice. now rewrite skipn_nil, firstn_nil. Qed.
Lemma perm_set_row (v : list K) : forall (m : list (list K)) r, r < length m -> Permutation (row r m ++ concat (set_row r v m)) (v ++ concat m).
Proof.
  unfold row. induction m as [|x m IH]; intros [|r] H; cbn [length nth set_row concat] in *; try lia.
  - papp.
  - specialize (IH r ltac:(lia)). rewrite Permutation_app_swap_app, IH. papp.
Qed.

(** valid instructions for a matrix of [rows] rows whose width is a multiple of g *)
Definition ok_instr (rows g : nat) (i : instr) : Prop :=
  match i with
  | S2 a b => a < rows /\ b < rows /\ a <> b
  | Rev q r => r < rows /\ q <> 0 /\ Nat.divide q g
  | PairsRev q r => r < rows /\ q <> 0 /\ Nat.divide q g /\ q = 2 * (q / 2)
  | PairsDist h r => r < rows /\ h <> 0 /\ Nat.divide (2 * h) g
  end.
Definition ok_instrb (rows g : nat) (i : instr) : bool :=
  match i with
  | S2 a b => (a <? rows) && (b <? rows) && negb (a =? b)
  | Rev q r => (r <? rows) && negb (q =? 0) && (g mod q =? 0)
  | PairsRev q r => (r <? rows) && negb (q =? 0) && (g mod q =? 0) && (q =? 2 * (q / 2))
  | PairsDist h r => (r <? rows) && negb (h =? 0) && (g mod (2 * h) =? 0)
  end.
Lemma ok_instr_dec rows g i : ok_instrb rows g i = true -> ok_instr rows g i.
Proof.
  destruct i; cbn [ok_instr ok_instrb]; rewrite ?andb_true_iff, ?negb_true_iff, ?Nat.ltb_lt, ?Nat.eqb_neq, ?Nat.eqb_eq.
  - intros ((? & ?) & ?). auto.
  - intros ((? & ?) & ?). split; [assumption|]. split; [assumption|]. now apply Nat.mod_divide.
  - intros (((? & ?) & ?) & ?). split; [assumption|]. split; [assumption|]. split; [now apply Nat.mod_divide|assumption].
  - intros ((? & ?) & ?). split; [assumption|]. split; [assumption|]. apply Nat.mod_divide; [lia|assumption].
Qed.
Lemma ok_prog_dec rows g p : forallb (ok_instrb rows g) p = true -> Forall (ok_instr rows g) p.
Proof. intros H. apply Forall_forall. intros i Hi. rewrite forallb_forall in H. apply ok_instr_dec. auto. Qed.

Lemma rev_chunk_len (q : nat) (c : list K) : length c = q -> length (rev c) = q. Proof. now rewrite rev_length. Qed.
Lemma pr_len q c : q = 2 * (q / 2) -> length c = q -> length (pair_up first last (q / 2) c (rev c)) = q.
Proof. intros E H. rewrite pair_up_len; rewrite ?rev_length; lia. Qed.
Lemma pd_len n c : length c = 2 * n -> length (pair_up first last n c (skipn n c ++ firstn n c)) = 2 * n.
Proof. intros H. apply pair_up_len; rewrite ?app_length, ?skipn_length, ?firstn_length; lia. Qed.

Lemma step_wf rows w g i m : wf rows w m -> Nat.divide g w -> ok_instr rows g i -> wf rows w (Step i m).
Proof.
  intros W D O. destruct i as [a b|q r|q r|n r]; cbn [step ok_instr] in *.
  - destruct O as (Ha & Hb & Hn). apply set_row_wf; [apply set_row_wf; [exact W|]|]; rewrite zipw_len, !(row_len rows w) by assumption; lia.
  - destruct O as (Hr & Hq & Hd). pose proof (row_len rows w m r W Hr). apply set_row_wf; [exact W|]. unfold rev_keys. rewrite by_chunks_len; auto using rev_chunk_len. rewrite H. eapply Nat.divide_trans; eassumption.
  - destruct O as (Hr & Hq & Hd & He). pose proof (row_len rows w m r W Hr). apply set_row_wf; [exact W|]. unfold pairs_rev. rewrite by_chunks_len; auto using pr_len. rewrite H. eapply Nat.divide_trans; eassumption.
  - destruct O as (Hr & Hq & Hd). pose proof (row_len rows w m r W Hr). apply set_row_wf; [exact W|]. unfold pairs_dist. rewrite by_chunks_len; auto using pd_len; [lia|]. rewrite H. eapply Nat.divide_trans; eassumption.
Qed.
Lemma run_wf rows w g p : forall m, wf rows w m -> Nat.divide g w -> Forall (ok_instr rows g) p -> wf rows w (Run p m).
Proof. induction p as [|i p IH]; intros m W D F; [exact W|]. inversion F; subst. cbn [run]. apply IH; auto. eapply step_wf; eauto. Qed.

Lemma step_slice rows w g i m s n : wf rows w m -> Nat.divide g w -> Nat.divide g s -> Nat.divide g n -> s + n <= w -> ok_instr rows g i ->
  map (slice s n) (Step i m) = Step i (map (slice s n) m).
Proof.
  intros W D Ds Dn HL O. destruct i as [a b|q r|q r|h r]; cbn [step ok_instr] in *.
  - rewrite !map_set_row, !slice_zipw, !row_map_slice. reflexivity.
  - destruct O as (Hr & Hq & Hd). pose proof (row_len rows w m r W Hr). rewrite map_set_row. unfold rev_keys. rewrite slice_by_chunks, row_map_slice; auto using rev_chunk_len; try (rewrite ?H; try lia; eapply Nat.divide_trans; eassumption).
  - destruct O as (Hr & Hq & Hd & He). pose proof (row_len rows w m r W Hr). rewrite map_set_row. unfold pairs_rev. rewrite slice_by_chunks, row_map_slice; auto using pr_len; try (rewrite ?H; try lia; eapply Nat.divide_trans; eassumption).
  - destruct O as (Hr & Hq & Hd). pose proof (row_len rows w m r W Hr). rewrite map_set_row. unfold pairs_dist. rewrite slice_by_chunks, row_map_slice; auto using pd_len; try (rewrite ?H; try lia; eapply Nat.divide_trans; eassumption).
Qed.
Lemma run_slice rows w g s n p : Nat.divide g w -> Nat.divide g s -> Nat.divide g n -> s + n <= w -> forall m, wf rows w m -> Forall (ok_instr rows g) p ->
  map (slice s n) (Run p m) = Run p (map (slice s n) m).
Proof.
  intros D Ds Dn HL. induction p as [|i p IH]; intros m W F; [reflexivity|]. inversion F; subst. cbn [run]. rewrite IH; [|eapply step_wf; eauto|assumption].
  erewrite step_slice; eauto.
Qed.
Lemma wf_slice rows w m s n : wf rows w m -> s + n <= w -> wf rows n (map (slice s n) m).
Proof. intros (L & F) H. split; [now rewrite map_length|]. apply Forall_map. eapply Forall_impl; [|exact F]. cbn. intros v Hv. unfold slice. rewrite firstn_length, skipn_length. lia. Qed.

(** Sort2 keeps the two keys *)
Hypothesis Hpair : forall a b, Permutation [first a b; last a b] [a; b].
Hypothesis Hlc : forall a b, last a b = last b a.
Lemma zipw_perm : forall a b, length a = length b -> Permutation (zipw first a b ++ zipw last a b) (a ++ b).
Proof.
  induction a as [|x a IH]; intros [|y b] H; try discriminate; [constructor|]. cbn in *. specialize (IH b ltac:(lia)). fold (zipw first a b) (zipw last a b).
  change (Permutation ([first x y] ++ zipw first a b ++ [last x y] ++ zipw last a b) ([x] ++ a ++ [y] ++ b)).
  transitivity (([first x y; last x y]) ++ zipw first a b ++ zipw last a b); [change [first x y; last x y] with ([first x y] ++ [last x y]); papp|].
  rewrite Hpair, IH. change [x; y] with ([x] ++ [y]). papp.
Qed.
Lemma zipw_lc a : forall b, zipw last a b = zipw last b a.
Proof. induction a as [|x a IH]; intros [|y b]; try reflexivity. cbn. f_equal; [apply Hlc|apply IH]. Qed.
Lemma zipw_rev g a : forall b, length a = length b -> rev (zipw (K := K) g a b) = zipw g (rev a) (rev b).
Proof.
  induction a as [|x a IH]; intros [|y b] H; try discriminate; [reflexivity|]. change (rev (zipw g a b) ++ [g x y] = zipw g (rev a ++ [x]) (rev b ++ [y])). rewrite IH by (cbn in H; lia).
  rewrite zipw_app by (rewrite !rev_length; cbn in H; lia). reflexivity.
Qed.
Lemma pr_perm q c : q = 2 * (q / 2) -> length c = q -> Permutation (pair_up first last (q / 2) c (rev c)) c.
Proof.
  intros E H. set (n := q / 2) in *. unfold pair_up. rewrite firstn_zipw, skipn_zipw. rewrite firstn_rev, skipn_rev. replace (length c - n) with n by lia.
  set (a := firstn n c). set (b := skipn n c). assert (La : length a = n) by (unfold a; rewrite firstn_length; lia). assert (Lb : length b = n) by (unfold b; rewrite skipn_length; lia).
  assert (Ec : c = a ++ b) by (unfold a, b; now rewrite firstn_skipn). 
  rewrite (zipw_lc b (rev a)). rewrite <- (rev_involutive b) at 2. rewrite <- zipw_rev by (rewrite rev_length; lia). rewrite <- (Permutation_rev (zipw last a (rev b))).
  rewrite zipw_perm by (rewrite rev_length; lia). rewrite <- Permutation_rev, Ec. reflexivity.
Qed.
Lemma pd_perm n c : length c = 2 * n -> Permutation (pair_up first last n c (skipn n c ++ firstn n c)) c.
Proof.
  intros H. unfold pair_up. rewrite firstn_zipw, skipn_zipw. set (a := firstn n c). set (b := skipn n c).
  assert (La : length a = n) by (unfold a; rewrite firstn_length; lia). assert (Lb : length b = n) by (unfold b; rewrite skipn_length; lia). assert (Ec : c = a ++ b) by (unfold a, b; now rewrite firstn_skipn).
  rewrite firstn_app, skipn_app. replace (n - length b) with 0 by lia. rewrite (firstn_all2 b), (skipn_all2 b) by lia. cbn [firstn skipn app]. rewrite app_nil_r, (zipw_lc b a).
  rewrite zipw_perm by lia. rewrite Ec. reflexivity.
Qed.
Lemma step_perm rows w g i m : wf rows w m -> Nat.divide g w -> ok_instr rows g i -> Permutation (concat (Step i m)) (concat m).
Proof.
  intros W D O. pose proof (proj1 W) as LM. destruct i as [a b|q r|q r|n r]; cbn [step ok_instr] in *.
  - destruct O as (Ha & Hb & Hn). set (va := row a m). set (vb := row b m). set (m1 := set_row a (zipw first va vb) m).
    pose proof (perm_set_row (zipw first va vb) m a ltac:(lia)) as P1. pose proof (perm_set_row (zipw last va vb) m1 b ltac:(unfold m1; rewrite set_row_len; lia)) as P2.
    assert (E : row b m1 = vb) by (apply row_set_other; exact Hn). rewrite E in P2. fold m1 va in P1.
    apply (Permutation_app_inv_l (va ++ vb)).
    transitivity (va ++ (vb ++ concat (set_row b (zipw last va vb) m1))); [papp|]. rewrite P2.
    transitivity (zipw last va vb ++ (va ++ concat m1)); [papp|]. rewrite P1.
    transitivity ((zipw first va vb ++ zipw last va vb) ++ concat m); [papp|]. rewrite zipw_perm; [reflexivity|]. unfold va, vb. now rewrite !(row_len rows w) by assumption.
  - destruct O as (Hr & Hq & Hd). pose proof (row_len rows w m r W Hr). apply (Permutation_app_inv_l (row r m)). rewrite perm_set_row by lia. apply Permutation_app_tail. unfold rev_keys.
    apply by_chunks_perm; [exact Hq|intros c _; symmetry; apply Permutation_rev|]. rewrite H. eapply Nat.divide_trans; eassumption.
  - destruct O as (Hr & Hq & Hd & He). pose proof (row_len rows w m r W Hr). apply (Permutation_app_inv_l (row r m)). rewrite perm_set_row by lia. apply Permutation_app_tail. unfold pairs_rev.
    apply by_chunks_perm; [exact Hq|intros c; now apply pr_perm|]. rewrite H. eapply Nat.divide_trans; eassumption.
  - destruct O as (Hr & Hq & Hd). pose proof (row_len rows w m r W Hr). apply (Permutation_app_inv_l (row r m)). rewrite perm_set_row by lia. apply Permutation_app_tail. unfold pairs_dist.
    apply by_chunks_perm; [lia|intros c; now apply pd_perm|]. rewrite H. eapply Nat.divide_trans; eassumption.
Qed.
Lemma run_perm rows w g p : forall m, wf rows w m -> Nat.divide g w -> Forall (ok_instr rows g) p -> Permutation (concat (Run p m)) (concat m).
Proof. induction p as [|i p IH]; intros m W D F; [reflexivity|]. inversion F; subst. cbn [run]. rewrite IH; [|eapply step_wf; eauto|assumption|assumption]. eapply step_perm; eauto. Qed.
End Shape.
