From Coq Require Import ZArith List Arith Bool Lia.
From Verif Require Import LoadN_Model LoadN_Spec.
Import ListNotations.
Open Scope nat_scope.

Set Default Proof Using "Type".
Section P.
Context {A : Type} (zero : A) (J : nat -> nat -> A).
Implicit Types (mem v no rest : list A).
Local Notation bind := LoadN_Model.bind.
Local Notation "'do' x <- e ; f" := (bind e (fun x => f)) (at level 200, x pattern, e at level 100, f at level 200).

Lemma skipn_skipn : forall a b (l : list A), skipn a (skipn b l) = skipn (b + a) l.
Proof. intros a b; induction b; intros [|x l]; simpl; auto. apply skipn_nil. Qed.
Lemma loadu_skip : forall mem p a k, p <= length mem -> loadu mem (p + a) k = loadu (skipn p mem) a k.
Proof.
  intros mem p a k Hp. unfold loadu. rewrite skipn_length, skipn_skipn.
  destruct (Nat.leb_spec (p + a + k) (length mem)); destruct (Nat.leb_spec (a + k) (length mem - p)); auto; lia.
Qed.
Lemma loadu_skip0 : forall mem p k, p <= length mem -> loadu mem p k = loadu (skipn p mem) 0 k.
Proof. intros. rewrite <- loadu_skip by auto. f_equal. lia. Qed.
Lemma loadu_skip2 : forall mem p a b k, p <= length mem -> loadu mem (p + a + b) k = loadu (skipn p mem) (a + b) k.
Proof. intros. rewrite <- loadu_skip by auto. f_equal. lia. Qed.
Lemma nth_skip : forall mem p i, nth_error (skipn p mem) i = nth_error mem (p + i).
Proof. intros mem p; revert mem; induction p; intros [|x mem] i; simpl; auto. destruct i; auto. Qed.
Lemma elem_skip : forall mem p a, elem mem (p + a) = elem (skipn p mem) a.
Proof. intros. unfold elem. rewrite nth_skip. auto. Qed.
Lemma elem_skip0 : forall mem p, elem mem p = elem (skipn p mem) 0.
Proof. intros. rewrite <- elem_skip. f_equal. lia. Qed.

Lemma loadu_ok : forall mem p k, p + k <= length mem -> loadu mem p k = Some (firstn k (skipn p mem)).
Proof. intros. unfold loadu. destruct (Nat.leb_spec (p + k) (length mem)); auto; lia. Qed.

(** [prefix]: at least n elements, given explicitly *)
Ltac take_prefix rest n :=
  lazymatch n with
  | O => idtac
  | S ?m => let x := fresh "x" in destruct rest as [|x rest]; [exfalso; simpl in *; lia | take_prefix rest m]
  end.

Definition spec_list mem p num N : list A := firstn (Nat.min num N) (skipn p mem) ++ repeat zero (N - num).

Lemma spec_list_ok : forall mem p num N, p + Nat.min num N <= length mem -> is_loadn zero N mem p num (spec_list mem p num N).
Proof.
  intros mem p num N H. unfold spec_list. assert (Hl : length (firstn (Nat.min num N) (skipn p mem)) = Nat.min num N) by (rewrite firstn_length, skipn_length; lia).
  split. { rewrite app_length, Hl, repeat_length. lia. }
  intros i Hi. destruct (Nat.ltb_spec i num).
  - rewrite nth_error_app1 by lia. rewrite <- nth_skip. generalize (skipn p mem) as r. assert (Hi2 : i < Nat.min num N) by lia. revert Hi2. generalize (Nat.min num N) as n. clear.
    intros n Hi r. revert n Hi r. induction i; intros [|n] Hi [|x r]; simpl; auto; try lia. apply IHi. lia.
  - rewrite nth_error_app2 by lia. rewrite nth_error_repeat; auto. lia.
Qed.

Ltac cases16 num tac := do 16 (destruct num as [|num]; [tac|]); exfalso; lia.
Ltac go rest Hr := lazymatch type of Hr with ?n <= length _ => take_prefix rest n; reflexivity end.

Lemma loadn_128_ok : forall L mem p num, lanes_128 L -> p + Nat.min num L <= length mem -> loadn_128 zero L mem p num = Some (spec_list mem p num L).
Proof.
  intros L mem p num HL H.
  destruct (Nat.le_gt_cases L num) as [Hn|Hn].
  { unfold spec_list. replace (L - num) with 0 by lia. rewrite Nat.min_r in * by lia. cbn [repeat]. rewrite app_nil_r, <- loadu_ok by auto.
    destruct HL as [-> | [-> | [-> | [-> | ->]]]]; unfold loadn_128, loadn1, loadn2, loadn4, loadn8, loadn16.
    - destruct (Nat.ltb_spec 0 num); auto; lia.
    - destruct (Nat.leb_spec 2 num); auto; lia.
    - destruct (Nat.leb_spec 4 num); auto; lia.
    - destruct (Nat.leb_spec 8 num); auto; lia.
    - destruct (Nat.leb_spec 16 num); auto; lia. }
  rewrite Nat.min_l in H by lia. unfold spec_list. rewrite Nat.min_l by lia.
  assert (Hp : p <= length mem) by lia. assert (Hr : num <= length (skipn p mem)) by (rewrite skipn_length; lia).
  destruct HL as [-> | [-> | [-> | [-> | ->]]]]; unfold loadn_128, loadn1, loadn2, loadn4, loadn8, loadn16, trailing4;
    repeat (rewrite ?(loadu_skip2 mem p), ?(loadu_skip mem p), ?(elem_skip mem p) by auto); rewrite ?(loadu_skip0 mem p) by auto; revert Hr; generalize (skipn p mem) as rest; clear - Hn; intros rest Hr;
    cases16 num ltac:(try (exfalso; lia); go rest Hr).
Qed.

Lemma app_firstn_skip : forall (l : list A) a b, firstn a l ++ firstn b (skipn a l) = firstn (a + b) l.
Proof. intros l a b. revert l. induction a; intros [|x l]; simpl; auto. - apply firstn_nil. - rewrite IHa. auto. Qed.

Lemma loadn_ok : forall k L mem p num, lanes_128 L -> p + Nat.min num (L * 2 ^ k) <= length mem ->
  loadn zero k L mem p num = Some (spec_list mem p num (L * 2 ^ k)).
Proof.
  induction k; intros L mem p num HL H.
  { simpl loadn. rewrite Nat.pow_0_r, Nat.mul_1_r in *. apply loadn_128_ok; auto. }
  cbn [loadn]. set (N := L * 2 ^ S k) in *. set (h := L * 2 ^ k) in *. assert (HN : N = h + h) by (unfold N, h; cbn [Nat.pow]; lia). clearbody N. 
  destruct (Nat.leb_spec N num).
  { rewrite loadu_ok by lia. unfold spec_list. replace (N - num) with 0 by lia. rewrite Nat.min_r, app_nil_r by lia. auto. }
  destruct (Nat.leb_spec num h).
  - rewrite IHk by (auto; fold h; lia). fold h. cbn [bind]. f_equal. unfold zext, spec_list, zeros. rewrite app_length, firstn_length, skipn_length, repeat_length.
    rewrite !Nat.min_l by lia. rewrite <- app_assoc, <- repeat_app. do 2 f_equal. lia.
  - rewrite loadu_ok by lia. rewrite IHk by (auto; fold h; lia). fold h. cbn [bind]. f_equal. unfold combine_halves, spec_list. rewrite <- skipn_skipn, app_assoc, app_firstn_skip.
    f_equal; [f_equal | f_equal]; lia.
Qed.

(** ** LoadNOr on generic targets when all lanes of [no] are equal *)
Definition spec_list_or no mem p num N : list A := firstn (Nat.min num N) (skipn p mem) ++ skipn num no.
Lemma spec_list_or_ok : forall no mem p num N, length no = N -> p + Nat.min num N <= length mem -> is_loadnor no N mem p num (spec_list_or no mem p num N).
Proof.
  intros no mem p num N Hno H. unfold spec_list_or. assert (Hl : length (firstn (Nat.min num N) (skipn p mem)) = Nat.min num N) by (rewrite firstn_length, skipn_length; lia).
  split. { rewrite app_length, Hl, skipn_length. lia. }
  intros i Hi. destruct (Nat.ltb_spec i num).
  - rewrite nth_error_app1 by lia. rewrite <- nth_skip. generalize (skipn p mem) as r. assert (Hi2 : i < Nat.min num N) by lia. revert Hi2. generalize (Nat.min num N) as n. clear.
    intros n Hi r. revert n Hi r. induction i; intros [|n] Hi [|x r]; simpl; auto; try lia. apply IHi. lia.
  - rewrite nth_error_app2 by lia. rewrite nth_skip, Hl. f_equal. lia.
Qed.

Lemma skipn_repeat : forall n k (c : A), skipn k (repeat c n) = repeat c (n - k).
Proof. induction n; intros [|k] c; simpl; auto. Qed.
Lemma firstn_repeat : forall n k (c : A), firstn k (repeat c n) = repeat c (Nat.min k n).
Proof. induction n; intros [|k] c; simpl; auto. f_equal. auto. Qed.

Lemma loadnor_128_uniform : forall c L mem p num, lanes_128 L -> p + Nat.min num L <= length mem ->
  loadnor_128 J L (repeat c L) mem p num = Some (spec_list_or (repeat c L) mem p num L).
Proof.
  intros c L mem p num HL H.
  destruct (Nat.le_gt_cases L num) as [Hn|Hn].
  { unfold spec_list_or. rewrite skipn_repeat. replace (L - num) with 0 by lia. rewrite Nat.min_r in * by lia. cbn [repeat]. rewrite app_nil_r, <- loadu_ok by auto.
    destruct HL as [-> | [-> | [-> | [-> | ->]]]]; unfold loadnor_128, loadnor1, loadnor2, loadnor4, loadnor8, loadnor16.
    - destruct (Nat.ltb_spec 0 num); auto; lia.
    - destruct (Nat.leb_spec 2 num); auto; lia.
    - destruct (Nat.leb_spec 4 num); auto; lia.
    - destruct (Nat.leb_spec 8 num); auto; lia.
    - destruct (Nat.leb_spec 16 num); auto; lia. }
  rewrite Nat.min_l in H by lia. unfold spec_list_or. rewrite Nat.min_l by lia.
  assert (Hp : p <= length mem) by lia. assert (Hr : num <= length (skipn p mem)) by (rewrite skipn_length; lia).
  destruct HL as [-> | [-> | [-> | [-> | ->]]]]; unfold loadnor_128, loadnor1, loadnor2, loadnor4, loadnor8, loadnor16, trailing4_or;
    repeat (rewrite ?(loadu_skip2 mem p), ?(loadu_skip mem p), ?(elem_skip mem p) by auto); rewrite ?(loadu_skip0 mem p), ?(elem_skip0 mem p) by auto; revert Hr; generalize (skipn p mem) as rest; clear - Hn; intros rest Hr;
    cases16 num ltac:(try (exfalso; lia); go rest Hr).
Qed.
(** one and four lanes: correct for every [no] *)
Lemma loadnor_1_4 : forall L no mem p num, L = 1 \/ L = 4 -> length no = L -> p + Nat.min num L <= length mem ->
  loadnor_128 J L no mem p num = Some (spec_list_or no mem p num L).
Proof.
  intros L no mem p num HL Hno H.
  destruct (Nat.le_gt_cases L num) as [Hn|Hn].
  { unfold spec_list_or. rewrite (skipn_all2 no) by lia. rewrite Nat.min_r in * by lia. rewrite app_nil_r, <- loadu_ok by auto.
    destruct HL as [-> | ->]; unfold loadnor_128, loadnor1, loadnor4.
    - destruct (Nat.ltb_spec 0 num); auto; lia.
    - destruct (Nat.leb_spec 4 num); auto; lia. }
  rewrite Nat.min_l in H by lia. unfold spec_list_or. rewrite Nat.min_l by lia.
  assert (Hp : p <= length mem) by lia. assert (Hr : num <= length (skipn p mem)) by (rewrite skipn_length; lia).
  destruct HL as [-> | ->].
  - destruct num; [|lia]. destruct no as [|x [|y no]]; simpl in Hno; try lia. reflexivity.
  - destruct no as [|x0 [|x1 [|x2 [|x3 [|]]]]]; simpl in Hno; try lia. unfold loadnor_128, loadnor4.
    repeat (rewrite ?(loadu_skip2 mem p), ?(loadu_skip mem p), ?(elem_skip mem p) by auto); rewrite ?(loadu_skip0 mem p), ?(elem_skip0 mem p) by auto; revert Hr; generalize (skipn p mem) as rest; clear - Hn; intros rest Hr.
    cases16 num ltac:(try (exfalso; lia); go rest Hr).
Qed.

Lemma half_double : forall h, (h + h) / 2 = h.
Proof. intros. replace (h + h) with (h * 2) by lia. apply Nat.div_mul. lia. Qed.

Lemma loadnor_uniform : forall c k L mem p num, lanes_128 L -> p + Nat.min num (L * 2 ^ k) <= length mem ->
  loadnor J k L (repeat c (L * 2 ^ k)) mem p num = Some (spec_list_or (repeat c (L * 2 ^ k)) mem p num (L * 2 ^ k)).
Proof.
  intros c. induction k; intros L mem p num HL H.
  { simpl loadnor. rewrite Nat.pow_0_r, Nat.mul_1_r in *. apply loadnor_128_uniform; auto. }
  cbn [loadnor]. set (N := L * 2 ^ S k) in *. set (h := L * 2 ^ k) in *. assert (HN : N = h + h) by (unfold N, h; cbn [Nat.pow]; lia). clearbody N.
  assert (Hlow : lower N (repeat c N) = repeat c h) by (unfold lower; rewrite HN, half_double, firstn_repeat; f_equal; lia).
  destruct (Nat.leb_spec N num).
  { rewrite loadu_ok by lia. unfold spec_list_or. rewrite skipn_repeat. replace (N - num) with 0 by lia. rewrite Nat.min_r, app_nil_r by lia. auto. }
  rewrite Hlow. destruct (Nat.leb_spec num h).
  - rewrite IHk by (auto; fold h; lia). fold h. cbn [bind]. f_equal. unfold concat_upper_lower, resize, spec_list_or.
    rewrite HN, half_double, firstn_firstn, !skipn_repeat. rewrite Nat.min_l by lia.
    rewrite firstn_app, firstn_all2 by (rewrite app_length, firstn_length, skipn_length, repeat_length; lia).
    replace (h - length _) with 0 by (rewrite app_length, firstn_length, skipn_length, repeat_length; lia).
    cbn [firstn]. rewrite app_nil_r, <- app_assoc, <- repeat_app. rewrite !Nat.min_l by lia. do 2 f_equal. lia.
  - rewrite loadu_ok by lia. rewrite IHk by (auto; fold h; lia). fold h. cbn [bind]. f_equal. unfold combine_halves, spec_list_or. rewrite <- skipn_skipn, app_assoc, app_firstn_skip, !skipn_repeat.
    f_equal; [f_equal | f_equal]; lia.
Qed.

(** ** StoreN on generic targets *)
Definition store_list v mem p n : list A := firstn p mem ++ firstn n v ++ skipn (p + n) mem.
Lemma storeu_ok : forall v mem p, p + length v <= length mem -> storeu mem p v = Some (firstn p mem ++ v ++ skipn (p + length v) mem).
Proof. intros. unfold storeu. destruct (Nat.leb_spec (p + length v) (length mem)); auto; lia. Qed.
Lemma storeu_first : forall v mem p n, n <= length v -> p + n <= length mem -> storeu mem p (firstn n v) = Some (store_list v mem p n).
Proof. intros. assert (length (firstn n v) = n) by (rewrite firstn_length; lia). rewrite storeu_ok by lia. unfold store_list. congruence. Qed.
Lemma store_list_length : forall v mem p n, n <= length v -> p + n <= length mem -> length (store_list v mem p n) = length mem.
Proof. intros. unfold store_list. rewrite !app_length, !firstn_length, skipn_length. lia. Qed.
Lemma store_list_ok : forall v mem p num, p + Nat.min num (length v) <= length mem -> is_storen (length v) v mem p num (store_list v mem p (Nat.min num (length v))).
Proof.
  intros v mem p num H. split. { apply store_list_length; lia. }
  set (n := Nat.min num (length v)) in *. assert (Hn : n <= length v) by (unfold n; lia). clearbody n.
  intros j. unfold store_list. assert (Hl : length (firstn p mem) = p) by (rewrite firstn_length; lia). assert (Hl2 : length (firstn n v) = n) by (rewrite firstn_length; lia).
  destruct (Nat.leb_spec p j); cbn [andb].
  - rewrite nth_error_app2 by lia. rewrite Hl. destruct (Nat.ltb_spec j (p + n)).
    + rewrite nth_error_app1 by lia. assert (Hi : j - p < n) by lia. revert Hi. generalize (j - p) as i. clear. revert v. induction n; intros [|x v] [|i] Hi; simpl; auto; try lia. apply IHn. lia.
    + rewrite nth_error_app2 by lia. rewrite nth_skip. f_equal. lia.
  - rewrite nth_error_app1 by lia. assert (Hi : j < p) by lia. revert Hi. clear. revert j mem. induction p; intros [|j] [|x mem] Hi; simpl; auto; try lia. apply IHp. lia.
Qed.
(** two consecutive stores *)
Lemma store_twice : forall a b mem p n, p + length a + n <= length mem -> n <= length b ->
  store_list b (store_list a mem p (length a)) (p + length a) n = store_list (a ++ b) mem p (length a + n).
Proof.
  intros a b mem p n H Hn. unfold store_list. rewrite firstn_all.
  assert (Hl : length (firstn p mem) = p) by (rewrite firstn_length; lia).
  assert (Hf : firstn (p + length a) (firstn p mem ++ a ++ skipn (p + length a) mem) = firstn p mem ++ a).
  { rewrite app_assoc, firstn_app. rewrite (firstn_all2 (firstn p mem ++ a)) by (rewrite app_length; lia).
    replace (p + length a - length (firstn p mem ++ a)) with 0 by (rewrite app_length; lia). cbn [firstn]. apply app_nil_r. }
  assert (Hs : skipn (p + length a + n) (firstn p mem ++ a ++ skipn (p + length a) mem) = skipn (p + (length a + n)) mem).
  { rewrite app_assoc, skipn_app. rewrite (skipn_all2 (firstn p mem ++ a)) by (rewrite app_length; lia). cbn [app].
    replace (p + length a + n - length (firstn p mem ++ a)) with n by (rewrite app_length; lia). rewrite skipn_skipn. f_equal. lia. }
  rewrite Hf, Hs. rewrite firstn_app, (firstn_all2 a) by lia. replace (length a + n - length a) with n by lia. rewrite <- !app_assoc. auto.
Qed.

Lemma storeu_all : forall v mem p, p + length v <= length mem -> storeu mem p v = Some (store_list v mem p (length v)).
Proof. intros. rewrite storeu_ok by auto. unfold store_list. rewrite firstn_all. auto. Qed.
Lemma store_list_0 : forall v mem p, store_list v mem p 0 = mem.
Proof. intros. unfold store_list. cbn [firstn app]. rewrite Nat.add_0_r. apply firstn_skipn. Qed.
Lemma store_list_ext : forall v w mem p n, firstn n v = firstn n w -> store_list v mem p n = store_list w mem p n.
Proof. intros. unfold store_list. rewrite H. auto. Qed.
(** first all of [a], then [n] lanes of [b] *)
Lemma store_then : forall a b v mem p n (f : list A -> option (list A)), v = a ++ b -> p + length a + n <= length mem -> n <= length b ->
  (f (store_list a mem p (length a)) = Some (store_list b (store_list a mem p (length a)) (p + length a) n)) ->
  (do mem <- storeu mem p a; f mem) = Some (store_list v mem p (length a + n)).
Proof. intros a b v mem p n f -> H Hn Hf. rewrite storeu_all by lia. cbn [bind]. rewrite Hf, store_twice by auto. auto. Qed.
Ltac listn v Hv n := lazymatch n with O => destruct v; [|simpl in Hv; lia] | S ?m => let x := fresh "x" in destruct v as [|x v]; [simpl in Hv; lia|]; listn v Hv m end.

Lemma storen1_ok : forall v mem p num, length v = 1 -> p + Nat.min num 1 <= length mem -> storen1 v mem p num = Some (store_list v mem p (Nat.min num 1)).
Proof.
  intros v mem p num Hv H. unfold storen1. destruct (Nat.ltb_spec 0 num).
  - rewrite Nat.min_r in * by lia. rewrite storeu_all by lia. rewrite Hv. auto.
  - replace num with 0 by lia. cbn [Nat.min]. rewrite store_list_0. auto.
Qed.
Lemma storen2_ok : forall v mem p num, length v = 2 -> p + Nat.min num 2 <= length mem -> storen2 v mem p num = Some (store_list v mem p (Nat.min num 2)).
Proof.
  intros v mem p num Hv H. unfold storen2. destruct (Nat.ltb_spec 1 num).
  - rewrite Nat.min_r in * by lia. rewrite storeu_all by lia. rewrite Hv. auto.
  - destruct (Nat.eqb_spec num 1) as [->|].
    + cbn [Nat.min] in *. listn v Hv 2. change (lower 2 [x; x0]) with (firstn 1 [x; x0]). apply storeu_first; simpl; lia.
    + replace num with 0 by lia. cbn [Nat.min]. rewrite store_list_0. auto.
Qed.
Lemma storen4_ok : forall v mem p num, length v = 4 -> p + Nat.min num 4 <= length mem -> storen4 J v mem p num = Some (store_list v mem p (Nat.min num 4)).
Proof.
  intros v mem p num Hv H. unfold storen4. destruct (Nat.ltb_spec 1 num).
  - destruct (Nat.leb_spec 4 num). { rewrite Nat.min_r in * by lia. rewrite storeu_all by lia. rewrite Hv. auto. }
    listn v Hv 4. change (resize J 0 2 [x; x0; x1; x2]) with [x; x0]. change (upper 4 [x; x0; x1; x2]) with [x1; x2].
    destruct (Nat.eqb_spec num 3) as [->|].
    + change (Nat.min 3 4) with (length [x; x0] + 1) in *. apply (store_then [x; x0] [x1; x2]); auto; [simpl length in *; lia | simpl; lia |].
      change (resize J 1 1 [x1; x2]) with (firstn 1 [x1; x2]). apply storeu_first; [simpl; lia|]. rewrite store_list_length by (simpl length in *; lia). simpl length in *. lia.
    + assert (num = 2) as -> by lia. change (Nat.min 2 4) with 2 in *. rewrite storeu_all by (simpl length; lia). cbn [bind]. auto.
  - destruct (Nat.eqb_spec num 1) as [->|].
    + cbn [Nat.min] in *. listn v Hv 4. change (resize J 2 1 [x; x0; x1; x2]) with (firstn 1 [x; x0; x1; x2]). apply storeu_first; simpl; lia.
    + replace num with 0 by lia. cbn [Nat.min]. rewrite store_list_0. auto.
Qed.
Lemma storen8_ok : forall v mem p num, length v = 8 -> p + Nat.min num 8 <= length mem -> storen8 J v mem p num = Some (store_list v mem p (Nat.min num 8)).
Proof.
  intros v mem p num Hv H. unfold storen8. destruct (Nat.leb_spec num 1).
  { destruct (Nat.eqb_spec num 1) as [->|].
    + cbn [Nat.min] in *. listn v Hv 8. change (resize J 3 1 [x; x0; x1; x2; x3; x4; x5; x6]) with (firstn 1 [x; x0; x1; x2; x3; x4; x5; x6]). apply storeu_first; simpl; lia.
    + replace num with 0 by lia. cbn [Nat.min]. rewrite store_list_0. auto. }
  destruct (Nat.leb_spec 8 num). { rewrite Nat.min_r in * by lia. rewrite storeu_all by lia. rewrite Hv. auto. }
  rewrite Nat.min_l in * by lia.
  assert (Hlo : length (lower 8 v) = 4) by (unfold lower; rewrite firstn_length, Hv; auto). assert (Hhi : length (upper 8 v) = 4) by (unfold upper; rewrite skipn_length, Hv; auto).
  destruct (Nat.leb_spec 4 num).
  - replace (store_list v mem p num) with (store_list v mem p (length (lower 8 v) + (num - 4))) by (f_equal; lia). apply (store_then (lower 8 v) (upper 8 v)); [symmetry; apply firstn_skipn | lia | lia |].
    rewrite Hlo. match goal with |- _ = Some (store_list ?a ?b ?c _) => replace (store_list a b c (num - 4)) with (store_list a b c (Nat.min (num - 4) 4)) by (f_equal; lia) end. apply storen4_ok; auto. rewrite store_list_length; lia.
  - rewrite storen4_ok by (auto; lia). rewrite Nat.min_l by lia. f_equal. apply store_list_ext. unfold lower. rewrite firstn_firstn. change (8 / 2) with 4. f_equal. lia.
Qed.
Lemma storen16_ok : forall v mem p num, length v = 16 -> p + Nat.min num 16 <= length mem -> storen16 J v mem p num = Some (store_list v mem p (Nat.min num 16)).
Proof.
  intros v mem p num Hv H. unfold storen16. destruct (Nat.leb_spec num 1).
  { destruct (Nat.eqb_spec num 1) as [->|].
    + replace (resize J 4 1 v) with (firstn 1 v); [apply storeu_first; cbn [Nat.min] in *; lia|]. destruct v; [simpl in Hv; lia|]. reflexivity.
    + replace num with 0 by lia. cbn [Nat.min]. rewrite store_list_0. auto. }
  destruct (Nat.leb_spec 16 num). { rewrite Nat.min_r in * by lia. rewrite storeu_all by lia. rewrite Hv. auto. }
  rewrite Nat.min_l in * by lia.
  assert (Hlo : length (lower 16 v) = 8) by (unfold lower; rewrite firstn_length, Hv; auto). assert (Hhi : length (upper 16 v) = 8) by (unfold upper; rewrite skipn_length, Hv; auto).
  destruct (Nat.leb_spec 8 num).
  - replace (store_list v mem p num) with (store_list v mem p (length (lower 16 v) + (num - 8))) by (f_equal; lia). apply (store_then (lower 16 v) (upper 16 v)); [symmetry; apply firstn_skipn | lia | lia |].
    rewrite Hlo. match goal with |- _ = Some (store_list ?a ?b ?c _) => replace (store_list a b c (num - 8)) with (store_list a b c (Nat.min (num - 8) 8)) by (f_equal; lia) end. apply storen8_ok; auto. rewrite store_list_length; lia.
  - rewrite storen8_ok by (auto; lia). rewrite Nat.min_l by lia. f_equal. apply store_list_ext. unfold lower. rewrite firstn_firstn. change (16 / 2) with 8. f_equal. lia.
Qed.
Lemma storen_ok : forall k L v mem p num, lanes_128 L -> length v = L * 2 ^ k -> p + Nat.min num (L * 2 ^ k) <= length mem ->
  storen J k L v mem p num = Some (store_list v mem p (Nat.min num (L * 2 ^ k))).
Proof.
  induction k; intros L v mem p num HL Hv H.
  { rewrite Nat.pow_0_r, Nat.mul_1_r in *. cbn [storen]. destruct HL as [-> | [-> | [-> | [-> | ->]]]]; unfold storen_128;
    [apply storen1_ok | apply storen2_ok | apply storen4_ok | apply storen8_ok | apply storen16_ok]; auto. }
  cbn [storen]. set (N := L * 2 ^ S k) in *. set (h := L * 2 ^ k) in *. assert (HN : N = h + h) by (unfold N, h; cbn [Nat.pow]; lia). clearbody N.
  assert (Hlo : length (lower N v) = h) by (unfold lower; rewrite HN, half_double, firstn_length; lia).
  assert (Hhi : length (upper N v) = h) by (unfold upper; rewrite HN, half_double, skipn_length; lia).
  destruct (Nat.leb_spec N num). { rewrite Nat.min_r in * by lia. rewrite storeu_all by lia. rewrite Hv. auto. }
  rewrite Nat.min_l in * by lia. destruct (Nat.leb_spec num h).
  - rewrite IHk by (auto; fold h; lia). fold h. rewrite Nat.min_l by lia. f_equal. apply store_list_ext. unfold lower. rewrite HN, half_double, firstn_firstn. f_equal. lia.
  - replace (store_list v mem p num) with (store_list v mem p (length (lower N v) + (num - h))) by (f_equal; lia). apply (store_then (lower N v) (upper N v)); [symmetry; apply firstn_skipn | lia | lia |].
    rewrite Hlo. match goal with |- _ = Some (store_list ?a ?b ?c _) => replace (store_list a b c (num - h)) with (store_list a b c (Nat.min (num - h) h)) by (f_equal; lia) end. apply IHk; auto. fold h. rewrite store_list_length; lia.
Qed.
End P.
