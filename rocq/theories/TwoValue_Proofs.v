From Coq Require Import ZArith List Lia Bool Permutation.
From Verif Require Import Word Word_Proofs Vec_Model Vec_Proofs Partition_Model Partition_Proofs TwoValue_Model.
Import ListNotations.
Local Open Scope Z_scope.

Lemma zlen_repeat {A} (x : A) n : zlen (repeat x n) = Z.of_nat n. Proof. unfold zlen. now rewrite repeat_length. Qed.
Ltac lr := unfold zlen in *; repeat rewrite app_length in *; repeat rewrite repeat_length in *; cbn [length] in *; lia.
Lemma repeat_add {A} (x : A) a b : repeat x (a + b) = repeat x a ++ repeat x b. Proof. apply repeat_app. Qed.

Lemma all_true_map {A} (f : A -> bool) v : all_true (map f v) = forallb f v.
Proof. induction v as [|a v IH]; [reflexivity|]. cbn. now rewrite <- IH. Qed.
Lemma mask_or_map {A} (f g : A -> bool) v : mask_or (map f v) (map g v) = map (fun y => f y || g y) v.
Proof. induction v as [|a v IH]; [reflexivity|]. cbn. now rewrite <- IH. Qed.
Lemma mask_not_map {A} (f : A -> bool) v : mask_not (map f v) = map (fun y => negb (f y)) v.
Proof. apply map_map. Qed.
Lemma count_true_map {A} (f : A -> bool) v : count_true (map f v) = zlen (filter f v).
Proof. unfold count_true, zlen. induction v as [|a v IH]; [reflexivity|]. cbn. destruct (f a); cbn [length]; lia. Qed.
Lemma fft_from {A} (f : A -> bool) v m2 : forall i, forallb f v = false -> exists P x Q, v = P ++ x :: Q /\ f x = false /\ find_first_true_from (map (fun y => negb (f y)) v ++ m2) i = i + zlen P.
Proof.
  induction v as [|a v IH]; intros i H; [discriminate|]. cbn in H. destruct (f a) eqn:E; cbn in H.
  - destruct (IH (i + 1) H) as (P & x & Q & -> & Hx & E2). exists (a :: P), x, Q. split; [reflexivity|]. split; [exact Hx|].
    cbn [map app find_first_true_from]. rewrite E. cbn [negb]. rewrite E2. lr.
  - exists [], a, v. split; [reflexivity|]. split; [exact E|]. cbn. rewrite E. cbn. lia.
Qed.
Lemma fft_map {A} (f : A -> bool) v m2 : forallb f v = false -> exists P x Q, v = P ++ x :: Q /\ f x = false /\ find_first_true (map (fun y => negb (f y)) v ++ m2) = zlen P.
Proof. intros H. destruct (fft_from f v m2 0 H) as (P & x & Q & E & Hx & E2). exists P, x, Q. split; [exact E|]. split; [exact Hx|]. exact E2. Qed.
Lemma rd_at {A} (a b : list A) x i : i = zlen a -> rd (a ++ x :: b) i = Some x.
Proof. intros ->. rewrite rd_app2 by lia. rewrite Z.sub_diag. reflexivity. Qed.

Lemma mask_or_app a b c d : length a = length c -> mask_or (a ++ b) (c ++ d) = mask_or a c ++ mask_or b d.
Proof. revert c. induction a as [|x a IH]; intros [|y c] H; try discriminate; [reflexivity|]. cbn in *. f_equal. apply IH. lia. Qed.
Lemma mask_and_app a b c d : length a = length c -> mask_and (a ++ b) (c ++ d) = mask_and a c ++ mask_and b d.
Proof. revert c. induction a as [|x a IH]; intros [|y c] H; try discriminate; [reflexivity|]. cbn in *. f_equal. apply IH. lia. Qed.
Lemma mask_and_true m : mask_and m (repeat true (length m)) = m.
Proof. induction m as [|x m IH]; [reflexivity|]. cbn. rewrite andb_true_r. now f_equal. Qed.
Lemma mask_and_false m : mask_and m (repeat false (length m)) = repeat false (length m).
Proof. induction m as [|x m IH]; [reflexivity|]. cbn. rewrite andb_false_r. now f_equal. Qed.
Lemma mask_or_true m : mask_or m (repeat true (length m)) = repeat true (length m).
Proof. induction m as [|x m IH]; [reflexivity|]. cbn. rewrite orb_true_r. now f_equal. Qed.
Lemma mask_or_false m : mask_or m (repeat false (length m)) = m.
Proof. induction m as [|x m IH]; [reflexivity|]. cbn. rewrite orb_false_r. now f_equal. Qed.

Section P.
Context {K : Type} (eqk : K -> K -> bool) (N : Z).
Hypothesis HN : 1 <= N.

Lemma fill_loop_ok x : forall fuel (A G B : list K) pos end_, zlen G < Z.of_nat fuel -> zlen (A ++ G ++ B) < 2 ^ 62 -> N < 2 ^ 62 -> pos = zlen A -> end_ = zlen A + zlen G ->
  exists n G2, fill_loop N fuel x (A ++ G ++ B) pos end_ = Some (A ++ repeat x n ++ G2 ++ B, zlen A + Z.of_nat n) /\ Z.of_nat n + zlen G2 = zlen G /\ zlen G2 < N.
Proof.
  induction fuel as [|fuel IH]; intros A G B pos end_ HF HS HNb -> ->; [lr|]. cbn [fill_loop].
  destruct (Z.leb_spec N (zlen G)).
  - assert (N <= zlen A + zlen G) by lr. rewrite (proj2 (Z.leb_le N (zlen A + zlen G))) by lia. cbn [andb].
    rewrite (wrap_small 64 (zlen A + zlen G - N)) by lr. rewrite (proj2 (Z.leb_le _ _)) by lia.
    destruct (storeu_gap A G B (set N x) (zlen A)) as (G' & E & LG'). { reflexivity. } { unfold set. rewrite zlen_repeat. lia. }
    rewrite E. unfold set in *. rewrite zlen_repeat in LG'.
    rewrite app_assoc. destruct (IH (A ++ repeat x (Z.to_nat N)) G' B (zlen A + N) (zlen A + zlen G)) as (n & G2 & E2 & L2 & L3); try lr.
    rewrite E2. exists (Z.to_nat N + n)%nat, G2. split; [|split]; [|lr|lr]. rewrite repeat_app, <- !app_assoc. f_equal. f_equal. lr.
  - replace ((N <=? zlen A + zlen G) && (zlen A <=? wrap 64 (zlen A + zlen G - N))) with false.
    + exists 0%nat, G. split; [cbn; f_equal; f_equal; lia|]. split; [lia|lia].
    + symmetry. destruct (Z.leb_spec N (zlen A + zlen G)); [|reflexivity]. cbn [andb]. rewrite (wrap_small 64 (zlen A + zlen G - N)) by lr. apply Z.leb_gt. lia.
Qed.
Lemma fill_ok x (A G B : list K) pos end_ : zlen (A ++ G ++ B) < 2 ^ 62 -> N < 2 ^ 62 -> pos = zlen A -> end_ = zlen A + zlen G ->
  fill N x (A ++ G ++ B) pos end_ = Some (A ++ repeat x (length G) ++ B).
Proof.
  intros HS HNb HP HE. unfold fill. destruct (fill_loop_ok x (S (length (A ++ G ++ B))) A G B pos end_) as (n & G2 & E & L1 & L2); try lr.
  rewrite E. rewrite (wrap_small 64 (end_ - (zlen A + Z.of_nat n))) by lr.
  rewrite app_assoc. replace (zlen A + Z.of_nat n) with (zlen (A ++ repeat x n)) by lr.
  rewrite store_n_ok; try (unfold set; lr). f_equal.
  unfold set. replace (end_ - zlen (A ++ repeat x n)) with (zlen G2) by lr.
  rewrite <- !app_assoc. f_equal. replace (length G) with (n + length G2)%nat by lr. rewrite repeat_app, <- app_assoc. f_equal.
  f_equal.
  - unfold zlen. rewrite Nat2Z.id. assert (length G2 <= Z.to_nat N)%nat by lr. replace (Z.to_nat N) with (length G2 + (Z.to_nat N - length G2))%nat by lia.
    rewrite repeat_app, firstn_app, repeat_length, Nat.sub_diag. cbn. rewrite app_nil_r. rewrite <- (repeat_length x (length G2)) at 1. apply firstn_all.
  - unfold zlen. rewrite Nat2Z.id, skipn_app, skipn_all, Nat.sub_diag. reflexivity.
Qed.

Hypothesis Heq : forall a b, eqk a b = true <-> a = b.
Variables (L R : K).
Notation isL := (fun y => eqk y L).
Notation isR := (fun y => eqk y R).
Notation isLR := (fun y => eqk y L || eqk y R).

Lemma two_perm v : forallb isLR v = true -> exists c, Z.of_nat c = zlen (filter isL v) /\ (c <= length v)%nat /\ Permutation v (repeat L c ++ repeat R (length v - c)).
Proof.
  induction v as [|y v IH]; intros H; [exists 0%nat; split; [reflexivity|]; split; [cbn; lia|constructor]|].
  cbn in H. apply andb_prop in H as (H1 & H2). destruct (IH H2) as (c & E & Hc & P). cbn [filter]. destruct (eqk y L) eqn:EL.
  - apply Heq in EL. subst y. exists (S c). split; [lr|]. split; [cbn; lia|]. cbn [length]. replace (S (length v) - S c)%nat with (length v - c)%nat by lia. cbn. now constructor.
  - cbn in H1. apply Heq in H1. subst y. exists c. split; [exact E|]. split; [cbn; lia|]. cbn [length]. replace (S (length v) - c)%nat with (S (length v - c)) by lia. cbn [repeat].
    rewrite <- Permutation_middle. now constructor.
Qed.
Lemma two_perm_r v : forallb isLR v = true -> L <> R -> exists c, Z.of_nat c = zlen (filter isR v) /\ (c <= length v)%nat /\ Permutation v (repeat L (length v - c) ++ repeat R c).
Proof.
  intros H NE. induction v as [|y v IH]; [exists 0%nat; split; [reflexivity|]; split; [cbn; lia|constructor]|].
  cbn in H. apply andb_prop in H as (H1 & H2). destruct (IH H2) as (c & E & Hc & P). cbn [filter]. destruct (eqk y R) eqn:EL.
  - apply Heq in EL. subst y. exists (S c). split; [lr|]. split; [cbn; lia|]. cbn [length]. replace (S (length v) - S c)%nat with (length v - c)%nat by lia. cbn [repeat]. rewrite <- Permutation_middle. now constructor.
  - cbn in H1. rewrite orb_false_r in H1. apply Heq in H1. subst y. exists c. split; [exact E|]. split; [cbn; lia|]. cbn [length]. replace (S (length v) - c)%nat with (S (length v - c)) by lia. cbn [repeat app]. now constructor.
Qed.

Definition third_ok (t : K) (keys : list K) : Prop := In t keys /\ t <> L /\ t <> R.
Lemma isLR_false x : isLR x = false -> x <> L /\ x <> R.
Proof. intros H. apply orb_false_elim in H as (H1 & H2). split; intros ->; [rewrite (proj2 (Heq L L) eq_refl) in H1|rewrite (proj2 (Heq R R) eq_refl) in H2]; discriminate. Qed.

(** whole-vector loop of MaybePartitionTwoValue *)
Lemma two_loop_ok : forall fuel (X P rest : list K) w i, zlen rest < Z.of_nat fuel -> zlen (P ++ rest) < 2 ^ 62 -> N < 2 ^ 62 ->
  i = zlen P -> Z.of_nat w + zlen X = i -> Permutation P (repeat L w ++ repeat R (length X)) ->
  (exists k t, two_loop eqk N fuel L R (repeat L w ++ X ++ rest) (zlen (P ++ rest)) i (Z.of_nat w) = Some (k, inl t) /\ Permutation (P ++ rest) k /\ third_ok t rest) \/
  (exists w' X' done rest', two_loop eqk N fuel L R (repeat L w ++ X ++ rest) (zlen (P ++ rest)) i (Z.of_nat w) = Some (repeat L w' ++ X' ++ rest', inr (zlen (P ++ done), Z.of_nat w')) /\
     rest = done ++ rest' /\ zlen rest' < N /\ Z.of_nat w' + zlen X' = zlen (P ++ done) /\ Permutation (P ++ done) (repeat L w' ++ repeat R (length X'))).
Proof.
  induction fuel as [|fuel IH]; intros X P rest w i HF HS HNb -> HW HP; [lr|]. cbn [two_loop].
  destruct (Z.leb_spec N (zlen rest)) as [HR|HR].
  - rewrite (proj2 (Z.leb_le N (zlen (P ++ rest)))) by lr. rewrite (wrap_small 64 (zlen (P ++ rest) - N)) by lr. rewrite (proj2 (Z.leb_le _ _)) by lr. cbn [andb].
    destruct (split_at rest N) as (v & rest' & -> & LV); [lia|].
    rewrite (app_assoc (repeat L w)), (loadu_at (repeat L w ++ X) v rest') by lr.
    unfold eq_mask, exclusive_neither. rewrite mask_or_map, all_true_map, mask_not_map. destruct (forallb isLR v) eqn:EA; cbn [negb].
    + rewrite <- app_assoc, (app_assoc X). destruct (storeu_gap (repeat L w) (X ++ v) rest' (set N L) (Z.of_nat w)) as (X' & E & LX'); [lr|unfold set; lr|].
      rewrite E. unfold set in *. rewrite zlen_repeat in LX'. rewrite count_true_map. destruct (two_perm v EA) as (c & Ec & Hc & Pv). rewrite <- Ec.
      replace (P ++ v ++ rest') with ((P ++ v) ++ rest') in * by (now rewrite <- app_assoc).
      assert (EQ : repeat L w ++ repeat L (Z.to_nat N) ++ X' ++ rest' = repeat L (w + c) ++ (repeat L (Z.to_nat N - c) ++ X') ++ rest').
      { replace (Z.to_nat N) with (c + (Z.to_nat N - c))%nat at 1 by lr. rewrite !repeat_app, <- !app_assoc. reflexivity. }
      rewrite EQ. replace (Z.of_nat w + Z.of_nat c) with (Z.of_nat (w + c)) by lia.
      destruct (IH (repeat L (Z.to_nat N - c) ++ X') (P ++ v) rest' (w + c)%nat (zlen P + N)) as [(k & t & E2 & P2 & T)|(w' & X2 & dn & r2 & E2 & -> & Lr & Lw & P2)]; try lr.
      { replace (length (repeat L (Z.to_nat N - c) ++ X')) with (length X + (length v - c))%nat by lr. eapply Permutation_trans; [exact (Permutation_app HP Pv)|]. rewrite !repeat_app. papp. }
      * left. exists k, t. split; [exact E2|]. split; [exact P2|]. destruct T as (T1 & T2). split; [apply in_or_app; now right|exact T2].
      * right. exists w', X2, (v ++ dn), r2. replace (P ++ v ++ dn) with ((P ++ v) ++ dn) by (now rewrite <- app_assoc). split; [exact E2|]. split; [now rewrite <- app_assoc|]. split; [exact Lr|]. split; [exact Lw|exact P2].
    + left. destruct (fft_map isLR v [] EA) as (p & x & q & -> & Hx & EF). rewrite app_nil_r in EF. rewrite EF.
      replace ((repeat L w ++ X) ++ (p ++ x :: q) ++ rest') with ((repeat L w ++ X ++ p) ++ x :: q ++ rest') by (now rewrite <- !app_assoc).
      rewrite (rd_at (repeat L w ++ X ++ p)) by lr.
      replace ((repeat L w ++ X ++ p) ++ x :: q ++ rest') with (repeat L w ++ X ++ (p ++ x :: q) ++ rest') by (now rewrite <- !app_assoc).
      rewrite fill_ok by lr. exists (repeat L w ++ repeat R (length X) ++ (p ++ x :: q) ++ rest'), x. split; [reflexivity|]. split; [rewrite HP; rewrite <- !app_assoc; reflexivity|].
      split; [rewrite <- app_assoc; apply in_or_app; right; now left|]. now apply isLR_false.
  - right. replace ((N <=? zlen (P ++ rest)) && (zlen P <=? wrap 64 (zlen (P ++ rest) - N))) with false.
    + exists w, X, [], rest. rewrite app_nil_r. split; [reflexivity|]. split; [reflexivity|]. split; [lia|]. split; assumption.
    + symmetry. destruct (Z.leb_spec N (zlen (P ++ rest))); [|reflexivity]. cbn [andb]. rewrite (wrap_small 64 (zlen (P ++ rest) - N)) by lr. apply Z.leb_gt. lr.
Qed.

(** masks of the final partial vector *)
Lemma partial_masks (f g : K -> bool) (p z : list K) : zlen p + zlen z = N ->
  let valid := first_n N (zlen p) in
  mask_and (map f (p ++ z)) valid = map f p ++ repeat false (length z) /\
  mask_or (mask_or (map f p ++ repeat false (length z)) (map g (p ++ z))) (mask_not valid) = map (fun y => f y || g y) p ++ repeat true (length z).
Proof.
  intros H valid. assert (EV : valid = repeat true (length p) ++ repeat false (length z)).
  { unfold valid. rewrite first_n_eq by lr. f_equal; f_equal; lr. }
  rewrite EV, !map_app. split.
  - rewrite mask_and_app by (now rewrite map_length, repeat_length). rewrite <- (map_length f p) at 1. rewrite mask_and_true. f_equal. rewrite <- (map_length f z) at 1. rewrite mask_and_false. now rewrite map_length.
  - rewrite mask_not_app, !mask_not_repeat. cbn [negb]. rewrite (mask_or_app (map f p)) by (now rewrite !map_length). rewrite mask_or_map. rewrite mask_or_app by (now rewrite map_length, repeat_length). f_equal.
    + pose proof (mask_or_false (map (fun y => f y || g y) p)) as Y. now rewrite map_length in Y.
    + set (m := mask_or _ (map g z)). replace (length z) with (length m); [apply mask_or_true|]. unfold m, mask_or. rewrite map_length, combine_length, repeat_length, map_length. lia.
Qed.
Lemma all_true_app a b : all_true (a ++ b) = all_true a && all_true b. Proof. apply forallb_app. Qed.
Lemma all_true_rep n : all_true (repeat true n) = true. Proof. induction n; auto. Qed.
Lemma count_true_app a b : count_true (a ++ b) = count_true a + count_true b. Proof. unfold count_true. rewrite filter_app. lr. Qed.
Lemma count_false n : count_true (repeat false n) = 0. Proof. induction n; auto. Qed.

(** what is left in the buffer: unchanged, or the last keys are copied to its start *)
Definition buf_ok (keys buf buf' : list K) : Prop := exists p, buf' = p ++ skipn (length p) buf /\ incl p keys /\ (length p <= length buf)%nat.
Lemma buf_ok_refl keys buf : buf_ok keys buf buf.
Proof. exists []. split; [reflexivity|]. split; [intros x []|cbn; lia]. Qed.

Lemma buf_ok_len keys buf buf' : buf_ok keys buf buf' -> zlen buf' = zlen buf.
Proof. intros (p & -> & _ & H). unfold zlen in *. rewrite app_length, skipn_length. lia. Qed.

Theorem maybe_two_value_ok (buf keys : list K) : N <= zlen buf -> zlen keys < 2 ^ 62 -> N < 2 ^ 62 ->
  exists keys' buf' o, maybe_two_value eqk N L R keys (zlen keys) buf = Some (keys', buf', o) /\ Permutation keys keys' /\ buf_ok keys buf buf' /\
    match o with inl t => third_ok t keys | inr _ => exists a b, keys' = repeat L a ++ repeat R b end.
Proof.
  intros HSt HK HNb. unfold maybe_two_value.
  destruct (two_loop_ok (S (Z.to_nat (zlen keys))) [] [] keys 0 0) as [(k & t & E & P & T)|(w & X & dn & rest & E & EK & Lr & Lw & P)]; try lr; [reflexivity| |].
  - cbn [app repeat] in E. change (Z.of_nat 0) with 0 in E. rewrite E. exists k, buf, (inl t). split; [reflexivity|]. split; [exact P|]. split; [apply buf_ok_refl|exact T].
  - cbn [app repeat] in *. change (Z.of_nat 0) with 0 in E. rewrite E. clear E. subst keys.
    replace (zlen (dn ++ rest) - zlen dn) with (zlen rest) by lr. rewrite app_assoc.
    rewrite <- (app_nil_r rest), (loadu_at (repeat L w ++ X) rest []), !app_nil_r by lr.
    pose proof (storeu_app [] buf rest ltac:(lr)) as ES0. cbn [app] in ES0. change (zlen (@nil K)) with 0 in ES0. rewrite ES0. clear ES0.
    set (sk := skipn (length rest) buf). assert (Lsk : zlen sk = zlen buf - zlen rest) by (unfold sk, zlen in *; rewrite skipn_length; lia).
    assert (BO : buf_ok (dn ++ rest) buf (rest ++ sk)) by (exists rest; split; [reflexivity|]; split; [intros x Hx; apply in_or_app; now right|lr]).
    destruct (split_at sk (N - zlen rest)) as (z & z' & Esk & Lz0); [lia|]. rewrite Esk in *.
    rewrite (app_assoc rest z z'). pose proof (loadu_at [] (rest ++ z) z' 0 N ltac:(lr) ltac:(lr)) as EL. cbn [app] in EL. rewrite EL. clear EL. rewrite <- (app_assoc rest z z').
    assert (Lz : zlen rest + zlen z = N) by lia.
    unfold eq_mask. destruct (partial_masks isL isR rest z Lz) as (E1 & E2). rewrite E1, E2. rewrite all_true_app, all_true_rep, andb_true_r, all_true_map.
    destruct (forallb isLR rest) eqn:EA; cbn [negb].
    + destruct (two_perm rest EA) as (c & Ec & Hc & Pv). rewrite count_true_app, count_false, count_true_map, Z.add_0_r, <- Ec.
      rewrite <- app_assoc. pose proof (store_n_ok (set N L) N (repeat L w) (X ++ rest) (zlen rest) ltac:(unfold set; lr) ltac:(unfold set; lr) ltac:(unfold set; lr) ltac:(unfold set; lr)) as ES. rewrite zlen_repeat in ES. rewrite ES. clear ES.
      set (tl := skipn (Z.to_nat (zlen rest)) (X ++ rest)). assert (Ltl : zlen tl = zlen X) by (unfold tl, zlen in *; rewrite skipn_length, app_length; lia).
      assert (EF : firstn (Z.to_nat (zlen rest)) (set N L) = repeat L (length rest)).
      { unfold set, zlen. rewrite Nat2Z.id. replace (Z.to_nat N) with (length rest + (Z.to_nat N - length rest))%nat by lr. rewrite repeat_app, firstn_app, repeat_length, Nat.sub_diag. cbn. rewrite app_nil_r. rewrite <- (repeat_length L (length rest)) at 1. apply firstn_all. }
      rewrite EF. assert (EQ : repeat L w ++ repeat L (length rest) ++ tl = repeat L (w + c) ++ (repeat L (length rest - c) ++ tl) ++ []).
      { rewrite app_nil_r. replace (length rest) with (c + (length rest - c))%nat at 1 by lia. rewrite !repeat_app, <- !app_assoc. reflexivity. }
      rewrite EQ, fill_ok by lr. eexists; eexists; exists (inr tt). split; [reflexivity|]. split; [|split; [exact BO|]].
      * rewrite app_nil_r. eapply Permutation_trans; [exact (Permutation_app P Pv)|]. replace (length (repeat L (length rest - c) ++ tl)) with (length X + (length rest - c))%nat by lr. rewrite !repeat_app. papp.
      * rewrite app_nil_r. eauto.
    + rewrite mask_not_app, mask_not_repeat, mask_not_map. destruct (fft_map isLR rest (repeat (negb true) (length z)) EA) as (p & x & q & -> & Hx & EF). rewrite EF.
      replace ((repeat L w ++ X) ++ p ++ x :: q) with ((repeat L w ++ X ++ p) ++ x :: q) by (now rewrite <- !app_assoc).
      rewrite (rd_at (repeat L w ++ X ++ p)) by lr.
      replace ((repeat L w ++ X ++ p) ++ x :: q) with (repeat L w ++ X ++ (p ++ x :: q)) by (now rewrite <- !app_assoc).
      rewrite fill_ok by lr. exists (repeat L w ++ repeat R (length X) ++ p ++ x :: q); eexists; exists (inl x). split; [reflexivity|]. split; [rewrite P; rewrite <- !app_assoc; reflexivity|]. split; [exact BO|].
      split; [apply in_or_app; right; apply in_or_app; right; now left|]. now apply isLR_false.
Qed.

Lemma mask_or_comm a : forall b, mask_or a b = mask_or b a.
Proof. induction a as [|x a IH]; intros [|y b]; try reflexivity. cbn. f_equal; [apply orb_comm|apply IH]. Qed.
Lemma repeat_split (x : K) n a : (a <= n)%nat -> repeat x n = repeat x a ++ repeat x (n - a).
Proof. intros H. rewrite <- repeat_app. f_equal. lia. Qed.

Lemma two_loop_r_ok (NE : L <> R) : forall fuel (pre Q : list K) c, zlen pre < Z.of_nat fuel -> zlen (pre ++ Q) < 2 ^ 62 -> N < 2 ^ 62 -> (c <= length Q)%nat ->
  Permutation Q (repeat L (length Q - c) ++ repeat R c) ->
  (exists k t, two_loop_r eqk N fuel L R (pre ++ repeat R (length Q)) (zlen (pre ++ Q)) (wrap 64 (zlen pre - N)) (Z.of_nat c) = Some (k, inl t) /\ Permutation (pre ++ Q) k /\ third_ok t pre) \/
  (exists pre' Q' c', two_loop_r eqk N fuel L R (pre ++ repeat R (length Q)) (zlen (pre ++ Q)) (wrap 64 (zlen pre - N)) (Z.of_nat c) = Some (pre' ++ repeat R (length Q'), inr (wrap 64 (zlen pre' - N), Z.of_nat c')) /\
     pre ++ Q = pre' ++ Q' /\ zlen pre' < N /\ (c' <= length Q')%nat /\ Permutation Q' (repeat L (length Q' - c') ++ repeat R c')).
Proof.
  induction fuel as [|fuel IH]; intros pre Q c HF HS HNb Hc HP; [lr|]. cbn [two_loop_r].
  destruct (Z.leb_spec N (zlen pre)) as [HR|HR].
  - rewrite (wrap_small 64 (zlen pre - N)) by lr. rewrite (proj2 (Z.ltb_lt _ _)) by lr.
    destruct (split_at pre (zlen pre - N)) as (p0 & v & -> & LP); [lia|]. assert (LV : zlen v = N) by lr.
    rewrite <- (app_assoc p0 v), (loadu_at p0 v) by lr.
    unfold eq_mask, exclusive_neither. rewrite mask_or_map, all_true_map, mask_not_map. destruct (forallb isLR v) eqn:EA; cbn [negb].
    + rewrite (storeu_at p0 v) by (unfold set; lr). rewrite count_true_map. destruct (two_perm_r v EA NE) as (c2 & Ec & Hc2 & Pv). rewrite <- Ec.
      assert (EQ : p0 ++ set N R ++ repeat R (length Q) = p0 ++ repeat R (length (v ++ Q))) by (unfold set; rewrite app_length, repeat_app; f_equal; f_equal; f_equal; lr). rewrite EQ.
      rewrite <- (app_assoc p0 v Q) in *. replace (zlen (p0 ++ v) - N) with (zlen p0) by lr. replace (Z.of_nat c + Z.of_nat c2) with (Z.of_nat (c + c2)) by lia.
      destruct (IH p0 (v ++ Q) (c + c2)%nat) as [(k & t & E2 & P2 & T)|(p' & Q' & c' & E2 & EQ2 & L2 & Hc' & P2)]; try lr.
      { replace (length (v ++ Q) - (c + c2))%nat with ((length v - c2) + (length Q - c))%nat by lr. rewrite !repeat_app. eapply Permutation_trans; [exact (Permutation_app Pv HP)|]. papp. }
      * left. exists k, t. split; [exact E2|]. split; [exact P2|]. destruct T as (T1 & T2). split; [apply in_or_app; now left|exact T2].
      * right. exists p', Q', c'. split; [exact E2|]. split; [exact EQ2|]. split; [exact L2|]. split; [exact Hc'|exact P2].
    + left. destruct (fft_map isLR v [] EA) as (p & x & q & -> & Hx & EF). rewrite app_nil_r in EF. rewrite EF.
      replace (p0 ++ (p ++ x :: q) ++ repeat R (length Q)) with ((p0 ++ p) ++ x :: q ++ repeat R (length Q)) by (now rewrite <- !app_assoc).
      rewrite (rd_at (p0 ++ p)) by lr. rewrite (wrap_small 64 (zlen (p0 ++ p ++ x :: q) - N + N)) by lr.
      assert (EQ : (p0 ++ p) ++ x :: q ++ repeat R (length Q) = (p0 ++ p ++ x :: q) ++ repeat R (length Q - c) ++ repeat R c) by (rewrite <- repeat_app; replace (length Q - c + c)%nat with (length Q) by lia; now rewrite <- !app_assoc). rewrite EQ.
      rewrite fill_ok by lr. eexists; exists x. split; [reflexivity|]. split; [apply Permutation_app; [reflexivity|]; rewrite repeat_length; exact HP|].
      split; [apply in_or_app; right; apply in_or_app; right; now left|]. now apply isLR_false.
  - right. assert (EW : wrap 64 (zlen pre - N) = 2 ^ 64 + zlen pre - N). { unfold wrap. replace (zlen pre - N) with ((2 ^ 64 + zlen pre - N) + (-1) * 2 ^ 64) by lia. rewrite Z.mod_add by lia. apply Z.mod_small. lr. }
    rewrite EW, (proj2 (Z.ltb_ge _ _)) by lr. exists pre, Q, c. rewrite EW. split; [reflexivity|]. split; [reflexivity|]. split; [lia|]. split; assumption.
Qed.

Theorem maybe_two_value_r_ok (keys buf : list K) : L <> R -> N <= zlen keys -> zlen keys < 2 ^ 62 -> N <= zlen buf ->
  exists keys' buf' o, maybe_two_value_r eqk N L R keys (zlen keys) buf = Some (keys', buf', o) /\ Permutation keys keys' /\ zlen buf' = zlen buf /\
    match o with inl t => third_ok t keys /\ buf' = buf | inr _ => exists a b, keys' = repeat L a ++ repeat R b end.
Proof.
  intros NE HNk HK HBuf. unfold maybe_two_value_r.
  destruct (two_loop_r_ok NE (S (Z.to_nat (zlen keys))) keys [] 0) as [(k & t & E & P & T)|(pre & Q & c & E & EK & Lr & Hc & P)]; try lr; [reflexivity| |].
  - rewrite !app_nil_r in *. cbn [length repeat] in E. rewrite ?app_nil_r in E. change (Z.of_nat 0) with 0 in E. rewrite E. exists k, buf, (inl t). split; [reflexivity|]. split; [exact P|]. split; [reflexivity|]. split; [exact T|reflexivity].
  - rewrite !app_nil_r in *. cbn [length repeat] in E. rewrite ?app_nil_r in E. change (Z.of_nat 0) with 0 in E. rewrite E. clear E. subst keys.
    assert (EW : wrap 64 (wrap 64 (zlen pre - N) + N) = zlen pre). { unfold wrap. rewrite Z.add_mod_idemp_l by lia. replace (zlen pre - N + N) with (zlen pre) by lia. apply Z.mod_small. lr. }
    rewrite EW. rewrite (repeat_split R (length Q) (Z.to_nat (N - zlen pre))) by lr.
    set (z := repeat R (Z.to_nat (N - zlen pre))). set (z2 := repeat R (length Q - Z.to_nat (N - zlen pre))). assert (Lz : zlen pre + zlen z = N) by (unfold z; lr).
    assert (LQ : zlen z + zlen z2 = zlen Q) by (unfold z, z2; lr).
    rewrite app_assoc. pose proof (loadu_at [] (pre ++ z) z2 0 N ltac:(lr) ltac:(lr)) as EL. cbn [app] in EL. rewrite EL. clear EL.
    unfold eq_mask. destruct (partial_masks isR isL pre z Lz) as (E1 & E2). rewrite E1. rewrite (mask_or_comm (map isL (pre ++ z))), E2. rewrite all_true_app, all_true_rep, andb_true_r, all_true_map.
    assert (EX : forallb (fun y => eqk y R || eqk y L) pre = forallb isLR pre) by (clear; induction pre as [|a l IH]; [reflexivity|]; cbn; now rewrite IH, orb_comm).
    rewrite EX. destruct (forallb isLR pre) eqn:EA; cbn [negb].
    + destruct (two_perm_r pre EA NE) as (c2 & Ec & Hc2 & Pv). rewrite count_true_app, count_false, count_true_map, Z.add_0_r, <- Ec.
      pose proof (storeu_at [] (pre ++ z) z2 (set N R) 0 ltac:(lr) ltac:(unfold set; lr)) as ES. cbn [app] in ES. rewrite ES. clear ES.
      assert (EQ : set N R ++ z2 = repeat R (length (pre ++ Q))). { unfold set, z2. rewrite <- repeat_app. f_equal. lr. } rewrite EQ.
      rewrite (repeat_split R (length (pre ++ Q)) (length (pre ++ Q) - (c + c2))) by lr. replace (length (pre ++ Q) - (length (pre ++ Q) - (c + c2)))%nat with (c + c2)%nat by lr.
      replace (Z.of_nat c + Z.of_nat c2) with (Z.of_nat (c + c2)) by lia.
      set (G := repeat R (length (pre ++ Q) - (c + c2))). set (B := repeat R (c + c2)).
      destruct (fill_loop_ok L (S (length (G ++ B))) [] G B 0 (zlen (pre ++ Q) - Z.of_nat (c + c2))) as (n & G2 & E & L1 & L2); try (unfold G, B; lr).
      cbn [app] in E. rewrite E. clear E.
      pose proof (storeu_app [] buf (set N L) ltac:(unfold set; lr)) as ES0. cbn [app] in ES0. change (zlen (@nil K)) with 0 in ES0. rewrite ES0. clear ES0.
      set (er := zlen (pre ++ Q) - Z.of_nat (c + c2) - (zlen (@nil K) + Z.of_nat n)). assert (Her : 0 <= er <= N) by (unfold er, G in *; lr).
      set (sk := skipn (length (set N L)) buf). assert (Lsk : zlen sk = zlen buf - N) by (unfold sk, set, zlen in *; rewrite skipn_length, repeat_length; lia).
      assert (ELD : loadu (set N L ++ sk) 0 er = Some (repeat L (Z.to_nat er))).
      { unfold set. replace (Z.to_nat N) with (Z.to_nat er + Z.to_nat (N - er))%nat by lia. rewrite repeat_app, <- app_assoc. apply (loadu_at [] (repeat L (Z.to_nat er))); lr. }
      rewrite ELD. clear ELD. unfold er. rewrite (storeu_at (repeat L n) G2 B) by (unfold G, B in *; lr).
      eexists; eexists; exists (inr tt). split; [reflexivity|].
      assert (EF : repeat L n ++ repeat L (Z.to_nat (zlen (pre ++ Q) - Z.of_nat (c + c2) - (zlen (@nil K) + Z.of_nat n))) ++ B = repeat L (length (pre ++ Q) - (c + c2)) ++ repeat R (c + c2)).
      { unfold B. rewrite app_assoc, <- repeat_app. f_equal. f_equal. unfold G in *. lr. }
      rewrite EF. split; [|split; [unfold set; lr|eauto]]. replace (length (pre ++ Q) - (c + c2))%nat with ((length pre - c2) + (length Q - c))%nat by lr. rewrite !repeat_app. eapply Permutation_trans; [exact (Permutation_app Pv P)|]. papp.
    + rewrite mask_not_app, mask_not_repeat, mask_not_map.
      destruct (fft_map (fun y => eqk y R || eqk y L) pre (repeat (negb true) (length z)) EX) as (p & x & q & -> & Hx & EF). rewrite EF.
      replace (((p ++ x :: q) ++ z) ++ z2) with (p ++ x :: (q ++ z ++ z2)) by (now rewrite <- !app_assoc).
      rewrite (rd_at p) by lr.
      assert (EQ : p ++ x :: (q ++ z ++ z2) = (p ++ x :: q) ++ repeat R (length Q - c) ++ repeat R c).
      { rewrite <- repeat_app. replace (length Q - c + c)%nat with (length Q) by lia. rewrite <- app_assoc. cbn [app]. do 3 f_equal. unfold z, z2. rewrite <- repeat_app. f_equal. lr. }
      rewrite EQ, fill_ok by lr. eexists; exists buf, (inl x). split; [reflexivity|]. split; [apply Permutation_app; [reflexivity|]; rewrite repeat_length; exact P|]. split; [reflexivity|]. split; [|reflexivity].
      split; [rewrite <- app_assoc; apply in_or_app; right; now left|]. apply isLR_false. now rewrite orb_comm.
Qed.
End P.
