(** Proofs about Dot and MatVec. *)
From Coq Require Import ZArith List Lia Bool Arith.
From Verif Require Import Word Word_Proofs Vec_Model Vec_Proofs Dot_Model.
Import ListNotations.
Local Open Scope Z_scope.

Lemma wloop_ok {S} (P : Z -> S -> Prop) step num body : 0 < step -> num + step < 2 ^ 64 ->
  (forall i s, 0 <= i -> P i s -> i + step <= num -> exists s', body i s = Some s' /\ P (i + step) s') ->
  forall fuel i s, 0 <= i <= num -> num - i < Z.of_nat fuel * step -> P i s ->
  exists i' s', wloop fuel step num i body s = Some (i', s') /\ P i' s' /\ i <= i' <= num /\ num < i' + step.
Proof.
  intros HS HN HB. induction fuel as [|f IH]; intros i s Hi Hf HP; [lia|]. cbn [wloop]. rewrite wrap_small by (unfold in_u; lia).
  destruct (Z.leb_spec (i + step) num) as [C|C].
  - destruct (HB i s ltac:(lia) HP C) as (s' & -> & P'). cbn [bind]. destruct (IH (i + step) s' ltac:(lia) ltac:(nia) P') as (i' & s'' & E & R & ?). exists i', s''. split; [exact E|]. split; [exact R|]. lia.
  - exists i, s. split; [reflexivity|]. split; [exact HP|]. lia.
Qed.
Lemma run_loop_ok {S} (P : Z -> S -> Prop) step num body i s : 0 < step -> num + step < 2 ^ 64 -> 0 <= i <= num ->
  (forall i s, 0 <= i -> P i s -> i + step <= num -> exists s', body i s = Some s' /\ P (i + step) s') -> P i s ->
  exists i' s', run_loop step num i body s = Some (i', s') /\ P i' s' /\ i <= i' <= num /\ num < i' + step.
Proof. intros H1 H2 H3 H4 H5. unfold run_loop. apply (wloop_ok P); auto. nia. Qed.

Section D.
Context {A A' B : Type} (mul : A -> A' -> B) (add : B -> B -> B) (zA : A) (zA' : A') (zB : B).
Context (add_comm : forall x y, add x y = add y x) (add_assoc : forall x y z, add x (add y z) = add (add x y) z) (add_0 : forall x, add zB x = x) (mul_0 : mul zA zA' = zB).
Notation total := (reduce_sum add zB).
Definition mulsum (a : list A) (b : list A') : B := total (map (fun p => mul (fst p) (snd p)) (combine a b)).

Lemma add_0r x : add x zB = x. Proof. now rewrite add_comm. Qed.
Lemma swap4 a b c d : add (add a b) (add c d) = add (add a c) (add b d).
Proof. rewrite <- !add_assoc. f_equal. rewrite !add_assoc. now rewrite (add_comm b c). Qed.
Lemma total_app u v : total (u ++ v) = add (total u) (total v).
Proof. unfold reduce_sum. induction u as [|x u IH]; cbn [app fold_right]; [now rewrite add_0|]. now rewrite IH, add_assoc. Qed.
Lemma total_zero n : total (repeat zB n) = zB.
Proof. unfold reduce_sum. induction n; cbn [repeat fold_right]; [reflexivity|]. now rewrite add_0. Qed.
Lemma mulsum_cons x a y b : mulsum (x :: a) (y :: b) = add (mul x y) (mulsum a b). Proof. reflexivity. Qed.
Lemma mulsum_app a1 : forall b1 a2 b2, length a1 = length b1 -> mulsum (a1 ++ a2) (b1 ++ b2) = add (mulsum a1 b1) (mulsum a2 b2).
Proof.
  induction a1 as [|x a1 IH]; intros [|y b1] a2 b2 H; cbn [length] in H; try discriminate; cbn [app]; [unfold mulsum at 2; cbn; now rewrite add_0|].
  rewrite !mulsum_cons, IH by lia. now rewrite add_assoc.
Qed.
Lemma mulsum_zero a b n : mulsum (map (fun _ : A => zA) a) (map (fun _ : A' => zA') b) = zB /\ mulsum (repeat zA n) (repeat zA' n) = zB.
Proof.
  split.
  - revert b. induction a as [|x a IH]; intros [|y b]; try reflexivity. cbn [map]. now rewrite mulsum_cons, mul_0, IH, add_0.
  - induction n; [reflexivity|]. cbn [repeat]. now rewrite mulsum_cons, mul_0, IHn, add_0.
Qed.
Lemma mul_add_total a : forall b s, length a = length s -> length b = length s -> length (mul_add mul add a b s) = length s /\ total (mul_add mul add a b s) = add (total s) (mulsum a b).
Proof.
  induction a as [|x a IH]; intros [|y b] [|z s] H1 H2; cbn [length] in *; try discriminate.
  - split; [reflexivity|]. unfold mulsum, reduce_sum. cbn. now rewrite add_0.
  - destruct (IH b s ltac:(lia) ltac:(lia)) as (L & T). unfold mul_add in *. cbn [combine map fst snd length]. split; [now rewrite L|].
    unfold reduce_sum in *. cbn [fold_right]. rewrite T, mulsum_cons, (add_comm (mul x y) z). apply swap4.
Qed.
Lemma vadd_total a : forall b, length a = length b -> length (vadd add a b) = length b /\ total (vadd add a b) = add (total a) (total b).
Proof.
  induction a as [|x a IH]; intros [|y b] H; cbn [length] in *; try discriminate.
  - split; [reflexivity|]. unfold reduce_sum. cbn. now rewrite add_0.
  - destruct (IH b ltac:(lia)) as (L & T). unfold vadd in *. cbn [combine map fst snd length]. split; [now rewrite L|].
    unfold reduce_sum in *. cbn [fold_right]. rewrite T. apply swap4.
Qed.

(** ** accumulators *)
Definition LEN (M : Z) (s : sums (B := B)) : Prop := let '(s0, s1, s2, s3) := s in zlen s0 = M /\ zlen s1 = M /\ zlen s2 = M /\ zlen s3 = M.
Definition SUM (s : sums (B := B)) : B := let '(s0, s1, s2, s3) := s in add (add (total s0) (total s1)) (add (total s2) (total s3)).
Definition ACC (M N : Z) (acc : list A -> list A' -> sums (B := B) -> sums (B := B)) : Prop :=
  forall a b s, zlen a = N -> zlen b = N -> LEN M s -> LEN M (acc a b s) /\ SUM (acc a b s) = add (SUM s) (mulsum a b).

Lemma add_right a b x : add (add a x) b = add (add a b) x.
Proof. rewrite <- !add_assoc. f_equal. apply add_comm. Qed.
Ltac acc_tac := intros a b (((s0 & s1) & s2) & s3) Ha Hb (L0 & L1 & L2 & L3); cbn [acc0 acc1 acc2 acc3 LEN SUM];
  match goal with |- context [mul_add mul add a b ?s] => destruct (mul_add_total a b s) as (L & T); [unfold zlen in *; lia|unfold zlen in *; lia|]; rewrite T end;
  unfold zlen in *; split; [lia|].
Lemma acc0_ok N : ACC N N (acc0 mul add).
Proof. acc_tac. rewrite (add_right (total s0) (total s1)). now rewrite (add_right (add (total s0) (total s1))). Qed.
Lemma acc1_ok N : ACC N N (acc1 mul add).
Proof. acc_tac. rewrite (add_assoc (total s0)). now rewrite (add_right (add (total s0) (total s1))). Qed.
Lemma acc2_ok N : ACC N N (acc2 mul add).
Proof. acc_tac. rewrite (add_right (total s2) (total s3)). now rewrite !add_assoc. Qed.
Lemma acc3_ok N : ACC N N (acc3 mul add).
Proof. acc_tac. now rewrite !add_assoc. Qed.
Definition RW (M N : Z) (rw : list A -> list A' -> list B -> list B -> list B * list B) : Prop :=
  forall a b s0 s1, zlen a = N -> zlen b = N -> zlen s0 = M -> zlen s1 = M ->
  let '(t0, t1) := rw a b s0 s1 in zlen t0 = M /\ zlen t1 = M /\ add (total t0) (total t1) = add (add (total s0) (total s1)) (mulsum a b).
Lemma rw01_ok M N rw : RW M N rw -> ACC M N (rw01 rw).
Proof.
  intros HR a b (((s0 & s1) & s2) & s3) Ha Hb (L0 & L1 & L2 & L3). cbn [rw01]. specialize (HR a b s0 s1 Ha Hb L0 L1). destruct (rw a b s0 s1) as (t0 & t1). destruct HR as (T0 & T1 & T).
  cbn [LEN SUM]. split; [auto|]. rewrite T. apply add_right.
Qed.
Lemma rw23_ok M N rw : RW M N rw -> ACC M N (rw23 rw).
Proof.
  intros HR a b (((s0 & s1) & s2) & s3) Ha Hb (L0 & L1 & L2 & L3). cbn [rw23]. specialize (HR a b s2 s3 Ha Hb L2 L3). destruct (rw a b s2 s3) as (t0 & t1). destruct HR as (T0 & T1 & T).
  cbn [LEN SUM]. split; [auto|]. rewrite T. apply add_assoc.
Qed.
Lemma zero_sums M : 0 <= M -> let z := vzero zB M in LEN M (z, z, z, z) /\ SUM (z, z, z, z) = zB.
Proof.
  intros HM z. cbn [LEN SUM]. unfold z, vzero, zlen. rewrite repeat_length. split; [lia|]. rewrite total_zero. now rewrite !add_0.
Qed.
Lemma reduce_ok M s : LEN M s -> dot_reduce add zB s = SUM s.
Proof.
  destruct s as (((s0 & s1) & s2) & s3). intros (L0 & L1 & L2 & L3). cbn [dot_reduce SUM]. unfold zlen in *.
  destruct (vadd_total s0 s1 ltac:(lia)) as (La & Ta). destruct (vadd_total s2 s3 ltac:(lia)) as (Lb & Tb).
  destruct (vadd_total (vadd add s0 s1) (vadd add s2 s3) ltac:(lia)) as (_ & T). now rewrite T, Ta, Tb.
Qed.

(** ** prefixes. [row]: offset of the row in the first array *)
Section P.
Context (row num : Z) (pa : list A) (pb : list A') (Hrow : 0 <= row).
Definition pre (i : Z) : B := mulsum (firstn (Z.to_nat i) (skipn (Z.to_nat row) pa)) (firstn (Z.to_nat i) pb).
Lemma pre_add i n : 0 <= i -> 0 <= n -> row + i + n <= zlen pa -> i + n <= zlen pb ->
  pre (i + n) = add (pre i) (mulsum (firstn (Z.to_nat n) (skipn (Z.to_nat (row + i)) pa)) (firstn (Z.to_nat n) (skipn (Z.to_nat i) pb))).
Proof.
  intros Hi Hn Ha Hb. unfold pre. rewrite (Z2Nat.inj_add i n), !firstn_add by lia. rewrite skipn_add. replace (Z.to_nat row + Z.to_nat i)%nat with (Z.to_nat (row + i)) by lia.
  apply mulsum_app. unfold zlen in *. rewrite !firstn_length, !skipn_length. lia.
Qed.
Definition Inv (M : Z) (i : Z) (s : sums (B := B)) : Prop := LEN M s /\ SUM s = pre i.
Lemma load_a i n : 0 <= i -> 0 <= n -> row + i + n <= zlen pa -> loadu pa (row + i) n = Some (firstn (Z.to_nat n) (skipn (Z.to_nat (row + i)) pa)).
Proof. intros. apply loadu_ok; lia. Qed.
Lemma load_b i n : 0 <= i -> 0 <= n -> i + n <= zlen pb -> loadu pb i n = Some (firstn (Z.to_nat n) (skipn (Z.to_nat i) pb)).
Proof. intros. apply loadu_ok; lia. Qed.
Lemma zlen_window {T} (l : list T) i n : 0 <= i -> 0 <= n -> i + n <= zlen l -> zlen (firstn (Z.to_nat n) (skipn (Z.to_nat i) l)) = n.
Proof. intros. apply zlen_firstn. rewrite zlen_skipn; lia. Qed.
Lemma acc_step M N acc i s : ACC M N acc -> 0 <= N -> 0 <= i -> row + i + N <= zlen pa -> i + N <= zlen pb -> Inv M i s ->
  Inv M (i + N) (acc (firstn (Z.to_nat N) (skipn (Z.to_nat (row + i)) pa)) (firstn (Z.to_nat N) (skipn (Z.to_nat i) pb)) s).
Proof.
  intros HA HN Hi Ha Hb (L & E). destruct (HA (firstn (Z.to_nat N) (skipn (Z.to_nat (row + i)) pa)) (firstn (Z.to_nat N) (skipn (Z.to_nat i) pb)) s) as (L' & E').
  - apply zlen_window; lia.
  - apply zlen_window; lia.
  - exact L.
  - split; [exact L'|]. rewrite E', E. symmetry. now apply pre_add.
Qed.
Lemma upper_window {T} (l : list T) i N : 0 <= i -> 0 <= N ->
  firstn (Z.to_nat N) (firstn (Z.to_nat (2 * N)) (skipn (Z.to_nat i) l)) = firstn (Z.to_nat N) (skipn (Z.to_nat i) l) /\
  skipn (Z.to_nat N) (firstn (Z.to_nat (2 * N)) (skipn (Z.to_nat i) l)) = firstn (Z.to_nat N) (skipn (Z.to_nat (i + N)) l).
Proof.
  intros Hi HN. split.
  - rewrite firstn_firstn. f_equal. lia.
  - rewrite skipn_firstn_comm, skipn_add. f_equal; [lia|f_equal; lia].
Qed.

Lemma ite_app {T} (m1 m2 : list bool) (y1 y2 n1 n2 : list T) : length m1 = length y1 -> length n1 = length y1 ->
  if_then_else (m1 ++ m2) (y1 ++ y2) (n1 ++ n2) = if_then_else m1 y1 n1 ++ if_then_else m2 y2 n2.
Proof.
  revert y1 n1. induction m1 as [|b m1 IH]; intros [|y y1] [|n n1] H1 H2; cbn [length] in *; try discriminate; [reflexivity|].
  unfold if_then_else in *. cbn [app combine map]. f_equal. apply IH; lia.
Qed.
Lemma ite_true {T} k (y n : list T) : length y = k -> length n = k -> if_then_else (repeat true k) y n = y.
Proof. revert y n. induction k; intros [|a y] [|b n] H1 H2; cbn [length] in *; try discriminate; [reflexivity|]. unfold if_then_else in *. cbn [repeat combine map fst snd]. f_equal. apply IHk; lia. Qed.
Lemma ite_false {T} k (y n : list T) : length y = k -> length n = k -> if_then_else (repeat false k) y n = n.
Proof. revert y n. induction k; intros [|a y] [|b n] H1 H2; cbn [length] in *; try discriminate; [reflexivity|]. unfold if_then_else in *. cbn [repeat combine map fst snd]. f_equal. apply IHk; lia. Qed.
Lemma keep_first_eq {T} (z : T) N k (v : list T) : 0 <= k <= N -> zlen v = N -> keep_first z N k v = firstn (Z.to_nat k) v ++ repeat z (Z.to_nat (N - k)).
Proof.
  intros Hk Hv. unfold keep_first. rewrite first_n_eq by lia. unfold zlen in Hv.
  rewrite <- (firstn_skipn (Z.to_nat k) v) at 1 2. rewrite map_app.
  assert (Lf : length (firstn (Z.to_nat k) v) = Z.to_nat k) by (rewrite firstn_length; lia).
  assert (Ls : length (skipn (Z.to_nat k) v) = Z.to_nat (N - k)) by (rewrite skipn_length; lia).
  rewrite ite_app by (rewrite ?repeat_length, ?map_length; lia). rewrite ite_true by (rewrite ?map_length; lia). rewrite ite_false by (rewrite ?map_length; lia).
  f_equal. rewrite <- Ls. clear. induction (skipn (Z.to_nat k) v); [reflexivity|]. cbn [map length repeat]. now f_equal.
Qed.
Lemma zero_first_eq {T} (z : T) N k (v : list T) : 0 <= k <= N -> zlen v = N -> zero_first z N k v = repeat z (Z.to_nat k) ++ skipn (Z.to_nat k) v.
Proof.
  intros Hk Hv. unfold zero_first. rewrite first_n_eq by lia. unfold zlen in Hv.
  rewrite <- (firstn_skipn (Z.to_nat k) v) at 1 2. rewrite map_app.
  assert (Lf : length (firstn (Z.to_nat k) v) = Z.to_nat k) by (rewrite firstn_length; lia).
  assert (Ls : length (skipn (Z.to_nat k) v) = Z.to_nat (N - k)) by (rewrite skipn_length; lia).
  rewrite ite_app by (rewrite ?repeat_length, ?map_length; lia). rewrite ite_true by (rewrite ?map_length; lia). rewrite ite_false by (rewrite ?map_length; lia).
  f_equal. set (l := firstn (Z.to_nat k) v) in *. clearbody l. rewrite <- Lf. clear. induction l; [reflexivity|]. cbn [map length repeat]. now f_equal.
Qed.
(** the masked remainder adds the missing products *)
Lemma tail_step M N acc i k s a b : ACC M N acc -> 0 <= k <= N -> 0 <= i -> row + i + k <= zlen pa -> i + k <= zlen pb -> Inv M i s -> zlen a = N -> zlen b = N ->
  mulsum a b = mulsum (firstn (Z.to_nat k) (skipn (Z.to_nat (row + i)) pa)) (firstn (Z.to_nat k) (skipn (Z.to_nat i) pb)) -> Inv M (i + k) (acc a b s).
Proof.
  intros HA Hk Hi Ha Hb (L & E) La Lb EQ. destruct (HA a b s La Lb L) as (L' & E'). split; [exact L'|]. rewrite E', E, EQ. symmetry. apply pre_add; lia.
Qed.
Lemma load_n_step M N acc i k s : ACC M N acc -> 0 < k <= N -> 0 <= i -> row + i + k <= zlen pa -> i + k <= zlen pb -> zlen pa <= 2 ^ 64 -> zlen pb <= 2 ^ 64 -> Inv M i s ->
  exists a b, load_n zA N pa (row + i) k = Some a /\ load_n zA' N pb i k = Some b /\ Inv M (i + k) (acc a b s) /\
    zlen a = N /\ zlen b = N /\ mulsum a b = mulsum (firstn (Z.to_nat k) (skipn (Z.to_nat (row + i)) pa)) (firstn (Z.to_nat k) (skipn (Z.to_nat i) pb)).
Proof.
  intros HA Hk Hi Ha Hb W1 W2 HI.
  pose proof (load_n_ok zA N pa (row + i) k ltac:(lia) ltac:(lia) ltac:(lia) W1) as EA. pose proof (load_n_ok zA' N pb i k ltac:(lia) ltac:(lia) ltac:(lia) W2) as EB.
  eexists. eexists. split; [exact EA|]. split; [exact EB|].
  match goal with |- Inv M (i + k) (acc ?a ?b s) /\ _ => set (av := a); set (bv := b) end.
  assert (L1 : zlen av = N) by (unfold av; rewrite zlen_app, zlen_window by lia; unfold zlen; rewrite repeat_length; lia).
  assert (L2 : zlen bv = N) by (unfold bv; rewrite zlen_app, zlen_window by lia; unfold zlen; rewrite repeat_length; lia).
  assert (EQ : mulsum av bv = mulsum (firstn (Z.to_nat k) (skipn (Z.to_nat (row + i)) pa)) (firstn (Z.to_nat k) (skipn (Z.to_nat i) pb))).
  { unfold av, bv. rewrite mulsum_app by (unfold zlen in *; rewrite !firstn_length, !skipn_length; lia). destruct (mulsum_zero [] [] (Z.to_nat (N - k))) as (_ & ->). apply add_0r. }
  split; [apply (tail_step M N acc i k s av bv); auto; lia|auto].
Qed.
End P.
End D.
