(** Lemmas about arrays and vector memory operations. *)
From Coq Require Import ZArith List Lia Bool.
From Verif Require Import Word Word_Proofs Vec_Model.
Import ListNotations.
Local Open Scope Z_scope.

Section Arr.
Context {A : Type}.
Implicit Types (l a b v no : list A) (m : list bool).

Lemma zlen_app a b : zlen (a ++ b) = zlen a + zlen b.
Proof. unfold zlen. rewrite app_length. lia. Qed.
Lemma zlen_nonneg l : 0 <= zlen l. Proof. unfold zlen. lia. Qed.
Lemma zlen_firstn l k : 0 <= k <= zlen l -> zlen (firstn (Z.to_nat k) l) = k.
Proof. unfold zlen. intros. rewrite firstn_length. lia. Qed.
Lemma zlen_skipn l k : 0 <= k <= zlen l -> zlen (skipn (Z.to_nat k) l) = zlen l - k.
Proof. unfold zlen. intros. rewrite skipn_length. lia. Qed.

Lemma skipn_add (i j : nat) l : skipn i (skipn j l) = skipn (j + i) l.
Proof.
  revert l; induction j as [|j IH]; intros l; cbn [skipn Nat.add]; [reflexivity|].
  destruct l; [now rewrite skipn_nil|apply IH].
Qed.
Lemma firstn_add (i j : nat) l : firstn (i + j) l = firstn i l ++ firstn j (skipn i l).
Proof.
  revert l; induction i as [|i IH]; intros l; cbn [firstn skipn Nat.add app]; [reflexivity|].
  destruct l; [now rewrite firstn_nil|]. cbn [app]. f_equal. apply IH.
Qed.

Lemma rd_app2 a b i : zlen a <= i -> rd (a ++ b) i = rd b (i - zlen a).
Proof.
  unfold rd, zlen. intros H. destruct (Z.ltb_spec i 0); [lia|]. destruct (Z.ltb_spec (i - Z.of_nat (length a)) 0); [lia|].
  rewrite nth_error_app2 by lia. f_equal. lia.
Qed.
Lemma rd_0 x l : rd (x :: l) 0 = Some x. Proof. reflexivity. Qed.

Lemma wr_app a x b y : wr (a ++ x :: b) (zlen a) y = Some (a ++ y :: b).
Proof.
  unfold wr. assert (0 <= zlen a < zlen (a ++ x :: b)).
  { split; [apply zlen_nonneg|]. unfold zlen. rewrite app_length. cbn [length]. lia. }
  destruct (Z.leb_spec 0 (zlen a)); [|lia]. destruct (Z.ltb_spec (zlen a) (zlen (a ++ x :: b))); [|lia]. cbn [andb].
  unfold zlen. rewrite Nat2Z.id. rewrite firstn_app, Nat.sub_diag, firstn_all. cbn [firstn]. rewrite app_nil_r.
  f_equal. f_equal. f_equal. rewrite skipn_app. rewrite skipn_all2 by lia. replace (S (length a) - length a)%nat with 1%nat by lia. reflexivity.
Qed.

Lemma loadu_app a b n : 0 <= n <= zlen b -> loadu (a ++ b) (zlen a) n = Some (firstn (Z.to_nat n) b).
Proof.
  intros H. unfold loadu. pose proof (zlen_nonneg a). rewrite zlen_app.
  destruct (Z.leb_spec 0 (zlen a)); [|lia]. destruct (Z.leb_spec (zlen a + n) (zlen a + zlen b)); [|lia]. cbn [andb].
  unfold zlen at 1. rewrite Nat2Z.id. rewrite skipn_app, skipn_all, Nat.sub_diag. reflexivity.
Qed.
Lemma loadu_ok l i n : 0 <= i -> 0 <= n -> i + n <= zlen l -> loadu l i n = Some (firstn (Z.to_nat n) (skipn (Z.to_nat i) l)).
Proof. intros. unfold loadu. destruct (Z.leb_spec 0 i); [|lia]. destruct (Z.leb_spec (i + n) (zlen l)); [|lia]. reflexivity. Qed.
Lemma loadu_one l i : 0 <= i < zlen l -> exists x, nth_error l (Z.to_nat i) = Some x /\ loadu l i 1 = Some [x].
Proof.
  intros H. unfold zlen in H. destruct (nth_error l (Z.to_nat i)) eqn:E.
  - exists a. split; [reflexivity|]. rewrite loadu_ok by (unfold zlen; lia).
    destruct (nth_error_split l _ E) as (l1 & l2 & -> & HL). rewrite <- HL. rewrite skipn_app, skipn_all, Nat.sub_diag. reflexivity.
  - apply nth_error_None in E. lia.
Qed.

Lemma storeu_app a b v : zlen v <= zlen b -> storeu (a ++ b) (zlen a) v = Some (a ++ v ++ skipn (length v) b).
Proof.
  intros H. unfold storeu. pose proof (zlen_nonneg a). rewrite zlen_app.
  destruct (Z.leb_spec 0 (zlen a)); [|lia]. destruct (Z.leb_spec (zlen a + zlen v) (zlen a + zlen b)); [|lia]. cbn [andb].
  unfold zlen. rewrite Nat2Z.id. rewrite firstn_app, Nat.sub_diag, firstn_all. cbn [firstn]. rewrite app_nil_r.
  do 3 f_equal. rewrite skipn_app, skipn_all2 by lia. cbn [app]. f_equal. lia.
Qed.

(** masks *)
Lemma first_n_seq k n i : map (fun j => Z.of_nat j <? Z.of_nat k) (seq i n) = repeat true (Nat.min n (k - i)) ++ repeat false (n - (k - i)).
Proof.
  revert i; induction n as [|n IH]; intros i; [reflexivity|]. cbn [seq map]. rewrite IH.
  destruct (Z.ltb_spec (Z.of_nat i) (Z.of_nat k)) as [H|H].
  - replace (k - i)%nat with (S (k - S i)) by lia. reflexivity.
  - replace (k - i)%nat with 0%nat by lia. replace (k - S i)%nat with 0%nat by lia. rewrite Nat.min_0_r, Nat.min_0_r.
    rewrite Nat.sub_0_r, Nat.sub_0_r. reflexivity.
Qed.
Lemma first_n_eq N k : 0 <= k <= N -> first_n N k = repeat true (Z.to_nat k) ++ repeat false (Z.to_nat (N - k)).
Proof.
  intros H. unfold first_n. pose proof (first_n_seq (Z.to_nat k) (Z.to_nat N) 0) as E. rewrite Z2Nat.id in E by lia. rewrite E. f_equal; f_equal; lia.
Qed.
Lemma mask_not_app m1 m2 : mask_not (m1 ++ m2) = mask_not m1 ++ mask_not m2.
Proof. apply map_app. Qed.
Lemma mask_not_repeat (b : bool) n : mask_not (repeat b n) = repeat (negb b) n.
Proof. induction n as [|n IH]; [reflexivity|]. cbn [repeat mask_not map]. f_equal. exact IH. Qed.

Lemma mlo_true no1 : forall no2 m l off, 0 <= off -> off + zlen no1 <= zlen l -> zlen l <= 2 ^ 64 ->
  masked_load_or (no1 ++ no2) (repeat true (length no1) ++ m) l off =
  match masked_load_or no2 m l (off + zlen no1) with
  | Some t => Some (firstn (length no1) (skipn (Z.to_nat off) l) ++ t) | None => None end.
Proof.
  induction no1 as [|x no1 IH]; intros no2 m l off H0 H1 H2.
  - cbn [app length repeat firstn]. replace (off + zlen []) with off by (unfold zlen; cbn; lia).
    destruct (masked_load_or no2 m l off); reflexivity.
  - assert (E : zlen (x :: no1) = 1 + zlen no1) by (unfold zlen; cbn [length]; lia). pose proof (zlen_nonneg no1).
    cbn [app length repeat masked_load_or]. rewrite (wrap_small 64 off) by (unfold in_u; lia).
    destruct (loadu_one l off ltac:(lia)) as (y & Hy & Hl). unfold rd. destruct (Z.ltb_spec off 0); [lia|]. rewrite Hy.
    rewrite IH by lia. rewrite E. replace (off + 1 + zlen no1) with (off + (1 + zlen no1)) by lia.
    destruct (masked_load_or no2 m l (off + (1 + zlen no1))) as [t|]; [|reflexivity]. f_equal.
    destruct (nth_error_split l _ Hy) as (l1 & l2 & -> & HL).
    replace (Z.to_nat (off + 1)) with (S (length l1)) by lia. rewrite <- HL.
    rewrite !skipn_app, skipn_all, Nat.sub_diag. rewrite (skipn_all2 l1) by lia. replace (S (length l1) - length l1)%nat with 1%nat by lia.
    reflexivity.
Qed.
Lemma mlo_false no1 : forall no2 m l off,
  masked_load_or (no1 ++ no2) (repeat false (length no1) ++ m) l off =
  match masked_load_or no2 m l (off + zlen no1) with Some t => Some (no1 ++ t) | None => None end.
Proof.
  induction no1 as [|x no1 IH]; intros no2 m l off.
  - cbn [app length repeat]. replace (off + zlen []) with off by (unfold zlen; cbn; lia). destruct (masked_load_or no2 m l off); reflexivity.
  - cbn [app length repeat masked_load_or]. rewrite IH. replace (off + 1 + zlen no1) with (off + zlen (x :: no1)) by (unfold zlen; cbn [length]; lia).
    destruct (masked_load_or no2 m l (off + zlen (x :: no1))); reflexivity.
Qed.
Lemma mlo_period no : forall m l off, masked_load_or no m l (off + 2 ^ 64) = masked_load_or no m l off.
Proof.
  induction no as [|x no IH]; intros m l off; destruct m as [|b m]; try reflexivity. cbn [masked_load_or].
  replace (off + 2 ^ 64 + 1) with (off + 1 + 2 ^ 64) by lia. rewrite IH.
  replace (wrap 64 (off + 2 ^ 64)) with (wrap 64 off); [reflexivity|]. unfold wrap. replace (off + 2 ^ 64) with (off + 1 * 2 ^ 64) by lia. now rewrite Z.mod_add by lia.
Qed.

Lemma load_n_or_ok no N l off k : 0 <= off -> 0 <= k <= N -> zlen no = N -> off + k <= zlen l -> zlen l <= 2 ^ 64 ->
  load_n_or no N l off k = Some (firstn (Z.to_nat k) (skipn (Z.to_nat off) l) ++ skipn (Z.to_nat k) no).
Proof.
  intros H0 H1 H2 H3 H4. unfold load_n_or. rewrite first_n_eq by lia.
  rewrite <- (firstn_skipn (Z.to_nat k) no) at 1.
  assert (L : length (firstn (Z.to_nat k) no) = Z.to_nat k) by (rewrite firstn_length; unfold zlen in H2; lia).
  replace (repeat true (Z.to_nat k)) with (repeat true (length (firstn (Z.to_nat k) no))) by (now rewrite L). rewrite mlo_true; [|lia|unfold zlen; rewrite L; unfold zlen in *; lia|lia]. rewrite L.
  assert (E : masked_load_or (skipn (Z.to_nat k) no) (repeat false (Z.to_nat (N - k))) l (off + zlen (firstn (Z.to_nat k) no)) = Some (skipn (Z.to_nat k) no)).
  { replace (Z.to_nat (N - k)) with (length (skipn (Z.to_nat k) no)) by (rewrite skipn_length; unfold zlen in H2; lia).
    rewrite <- (app_nil_r (skipn (Z.to_nat k) no)) at 1. rewrite <- (app_nil_r (repeat _ _)). rewrite mlo_false. cbn [masked_load_or]. now rewrite app_nil_r. }
  rewrite E. reflexivity.
Qed.
Lemma load_n_ok zero N l off k : 0 <= off -> 0 <= k <= N -> off + k <= zlen l -> zlen l <= 2 ^ 64 ->
  load_n zero N l off k = Some (firstn (Z.to_nat k) (skipn (Z.to_nat off) l) ++ repeat zero (Z.to_nat (N - k))).
Proof.
  intros H0 H1 H2 H3. unfold load_n, masked_load.
  assert (E : map (fun _ : bool => zero) (first_n N k) = repeat zero (Z.to_nat N)).
  { rewrite first_n_eq by lia. rewrite map_app. assert (F : forall (b : bool) n, map (fun _ : bool => zero) (repeat b n) = repeat zero n).
    { intros b n. induction n as [|n IH]; [reflexivity|]. cbn [repeat map]. now rewrite IH. }
    rewrite !F, <- repeat_app. f_equal. lia. }
  rewrite E. fold (load_n_or (repeat zero (Z.to_nat N)) N l off k). rewrite load_n_or_ok; try lia; [|unfold zlen; rewrite repeat_length; lia].
  do 2 f_equal. replace (Z.to_nat N) with (Z.to_nat k + Z.to_nat (N - k))%nat by lia. rewrite repeat_app, skipn_app, repeat_length, Nat.sub_diag.
  rewrite skipn_all2 by (rewrite repeat_length; lia). reflexivity.
Qed.

Lemma bs_true v1 : forall v2 m a b off, off = zlen a -> zlen v1 <= zlen b -> zlen (a ++ b) <= 2 ^ 64 ->
  blended_store (v1 ++ v2) (repeat true (length v1) ++ m) (a ++ b) off = blended_store v2 m (a ++ v1 ++ skipn (length v1) b) (off + zlen v1).
Proof.
  induction v1 as [|x v1 IH]; intros v2 m a b off H1 H2 H3.
  - cbn [app length repeat skipn]. f_equal. unfold zlen. cbn. lia.
  - destruct b as [|y b]; [unfold zlen in *; cbn [length] in *; lia|].
    cbn [app length repeat blended_store].
    pose proof (zlen_nonneg a). rewrite zlen_app in H3. assert (zlen (y :: b) = 1 + zlen b) by (unfold zlen; cbn [length]; lia).
    pose proof (zlen_nonneg b). assert (E1 : zlen (x :: v1) = 1 + zlen v1) by (unfold zlen; cbn [length]; lia).
    rewrite (wrap_small 64 off) by (unfold in_u; lia). subst off. rewrite wr_app.
    replace (a ++ x :: b) with ((a ++ [x]) ++ b) by (now rewrite <- app_assoc).
    rewrite IH; [|rewrite zlen_app; reflexivity|lia|rewrite !zlen_app; unfold zlen in *; cbn [length] in *; lia].
    cbn [skipn]. rewrite <- app_assoc. cbn [app]. f_equal. lia.
Qed.
Lemma bs_false v : forall n l off, (length v <= n)%nat -> blended_store v (repeat false n) l off = Some l.
Proof.
  induction v as [|x v IH]; intros n l off H; [reflexivity|]. destruct n as [|n]; [cbn in H; lia|]. cbn [repeat blended_store].
  apply IH. cbn in H. lia.
Qed.
Lemma store_n_ok v N a b k : 0 <= k <= N -> zlen v = N -> k <= zlen b -> zlen (a ++ b) <= 2 ^ 64 ->
  store_n v N (a ++ b) (zlen a) k = Some (a ++ firstn (Z.to_nat k) v ++ skipn (Z.to_nat k) b).
Proof.
  intros H1 H2 H3 H4. unfold store_n. rewrite first_n_eq by lia. rewrite <- (firstn_skipn (Z.to_nat k) v) at 1.
  assert (L : length (firstn (Z.to_nat k) v) = Z.to_nat k) by (rewrite firstn_length; unfold zlen in H2; lia).
  replace (repeat true (Z.to_nat k)) with (repeat true (length (firstn (Z.to_nat k) v))) by (now rewrite L). rewrite bs_true; [|reflexivity|unfold zlen in *; lia|assumption].
  rewrite bs_false by (rewrite skipn_length; unfold zlen in H2; lia). now rewrite L.
Qed.

(** selection *)
Lemma select_map (p : A -> bool) v : select v (map p v) = filter p v.
Proof. induction v as [|x v IH]; [reflexivity|]. cbn. rewrite IH. reflexivity. Qed.
Lemma filter_len (p : A -> bool) v : zlen (filter p v) <= zlen v.
Proof. unfold zlen. induction v as [|x v IH]; [cbn; lia|]. cbn [filter]. destruct (p x); cbn [length]; lia. Qed.

Lemma fft_spec m : forall i, 
  match find_first_true_from m i with
  | r => (r = -1 /\ Forall (fun c : bool => c = false) m) \/
         (exists k, r = i + Z.of_nat k /\ nth_error m k = Some true /\ Forall (fun c : bool => c = false) (firstn k m))
  end.
Proof.
  induction m as [|b m IH]; intros i; cbn [find_first_true_from].
  - left. split; [reflexivity|constructor].
  - destruct b.
    + right. exists 0%nat. split; [lia|]. split; [reflexivity|constructor].
    + destruct (IH (i + 1)) as [(E & F)|(k & E & F & G)].
      * left. split; [exact E|]. constructor; auto.
      * right. exists (S k). split; [lia|]. split; [exact F|]. cbn [firstn]. constructor; auto.
Qed.
End Arr.
