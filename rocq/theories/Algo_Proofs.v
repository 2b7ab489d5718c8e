(** Proofs about hwy/contrib/algo. *)
From Coq Require Import ZArith List Lia Bool.
From Verif Require Import Word Word_Proofs Vec_Model Vec_Proofs Algo_Model.
Import ListNotations.
Local Open Scope Z_scope.

(** loop rules *)
Lemma vfor_rule {S R} (I : Z -> S -> Prop) (Q : R -> Prop) N count body : 1 <= N <= count -> count < 2 ^ 64 ->
  (forall idx s, 0 <= idx -> idx + N <= count -> (N | idx) -> I idx s ->
     exists o, body idx s = Some o /\ match o with inl s' => I (idx + N) s' | inr r => Q r end) ->
  forall fuel idx s, 0 <= idx <= count -> (N | idx) -> count - idx < Z.of_nat fuel -> I idx s ->
  exists o, @vfor S R fuel N count idx body s = Some o /\
    match o with inl (idx', s') => count - N < idx' <= count /\ (N | idx') /\ 0 <= idx' /\ I idx' s' | inr r => Q r end.
Proof.
  intros HN HC HB. induction fuel as [|f IH]; intros idx s Hi Hd Hf HI; [lia|].
  cbn [vfor]. rewrite (wrap_small 64 (count - N)) by (unfold in_u; lia).
  destruct (Z.leb_spec idx (count - N)) as [Hle|Hgt].
  - destruct (HB idx s ltac:(lia) ltac:(lia) Hd HI) as (o & E & P). rewrite E. destruct o as [s'|r].
    + rewrite (wrap_small 64 (idx + N)) by (unfold in_u; lia). apply IH; [lia| |lia|exact P]. apply Z.divide_add_r; [exact Hd|apply Z.divide_refl].
    + exists (inr r). split; [reflexivity|exact P].
  - exists (inl (idx, s)). split; [reflexivity|]. repeat split; try lia; assumption.
Qed.
Lemma vloop_rule {S R} (I : Z -> S -> Prop) (Q : R -> Prop) N count body s : 1 <= N -> 0 <= count < 2 ^ 64 ->
  (forall idx s, 0 <= idx -> idx + N <= count -> (N | idx) -> I idx s ->
     exists o, body idx s = Some o /\ match o with inl s' => I (idx + N) s' | inr r => Q r end) ->
  I 0 s ->
  exists o, @vloop S R N count body s = Some o /\
    match o with inl (idx', s') => count - N < idx' <= count /\ (N | idx') /\ 0 <= idx' /\ I idx' s' | inr r => Q r end.
Proof.
  intros HN HC HB HI. unfold vloop. destruct (Z.leb_spec N count).
  - apply vfor_rule with (I := I) (Q := Q); try lia; auto. apply Z.divide_0_r.
  - exists (inl (0, s)). split; [reflexivity|]. repeat split; try lia; auto. apply Z.divide_0_r.
Qed.
Lemma sfor_rule {S R} (I : Z -> S -> Prop) (Q : R -> Prop) n body : n < 2 ^ 64 ->
  (forall i s, 0 <= i -> i < n -> I i s -> exists o, body i s = Some o /\ match o with inl s' => I (i + 1) s' | inr r => Q r end) ->
  forall fuel i s, 0 <= i <= n -> n - i < Z.of_nat fuel -> I i s ->
  exists o, @sfor S R fuel i n body s = Some o /\ match o with inl s' => I n s' | inr r => Q r end.
Proof.
  intros Hn HB. induction fuel as [|f IH]; intros i s Hi Hf HI; [lia|]. cbn [sfor]. destruct (Z.ltb_spec i n) as [Hlt|Hge].
  - destruct (HB i s ltac:(lia) Hlt HI) as (o & E & P). rewrite E. destruct o as [s'|r].
    + rewrite (wrap_small 64 (i + 1)) by (unfold in_u; lia). apply IH; [lia|lia|exact P].
    + exists (inr r). split; [reflexivity|exact P].
  - replace n with i by lia. exists (inl s). split; [reflexivity|exact HI].
Qed.

Section P.
Context {A : Type}.
Variable zero : A.
Variable N : Z.
Variable fault : bool.
Hypothesis HN : 1 <= N < 2 ^ 64.

(** the array after the first [i] of the new elements [x] were written *)
Definition upto (x to : list A) (i : Z) : list A := firstn (Z.to_nat i) x ++ skipn (Z.to_nat i) to.

Lemma upto_len x to i : 0 <= i <= zlen x -> i <= zlen to -> zlen (upto x to i) = zlen to.
Proof. intros. unfold upto. rewrite zlen_app, zlen_firstn, zlen_skipn by lia. lia. Qed.
Lemma upto_full x to : upto x to (zlen x) = x ++ skipn (length x) to.
Proof. unfold upto, zlen. rewrite Nat2Z.id, firstn_all. reflexivity. Qed.
Lemma upto_step x to i n : 0 <= i -> 0 <= n -> i + n <= zlen x -> i + n <= zlen to ->
  firstn (Z.to_nat i) x ++ firstn (Z.to_nat n) (skipn (Z.to_nat i) x) ++ skipn (Z.to_nat n) (skipn (Z.to_nat i) to) = upto x to (i + n).
Proof.
  intros. unfold upto. rewrite app_assoc, <- firstn_add, skipn_add, <- Z2Nat.inj_add by lia. reflexivity.
Qed.
Lemma upto_store x to i n v : 0 <= i -> 0 <= n -> i + n <= zlen x -> i + n <= zlen to ->
  v = firstn (Z.to_nat n) (skipn (Z.to_nat i) x) -> storeu (upto x to i) i v = Some (upto x to (i + n)).
Proof.
  intros H1 H2 H3 H4 ->. unfold upto at 1.
  assert (L : zlen (firstn (Z.to_nat i) x) = i) by (apply zlen_firstn; lia).
  assert (LV : zlen (firstn (Z.to_nat n) (skipn (Z.to_nat i) x)) = n) by (apply zlen_firstn; rewrite zlen_skipn; lia).
  rewrite <- L at 3. rewrite storeu_app by (rewrite LV, zlen_skipn; lia).
  replace (length (firstn (Z.to_nat n) (skipn (Z.to_nat i) x))) with (Z.to_nat n) by (unfold zlen in LV; lia).
  rewrite upto_step by lia. reflexivity.
Qed.
Lemma upto_store_n x to i k v : 0 <= i -> 0 <= k <= N -> i + k <= zlen x -> i + k <= zlen to -> zlen to <= 2 ^ 64 -> zlen v = N ->
  firstn (Z.to_nat k) v = firstn (Z.to_nat k) (skipn (Z.to_nat i) x) -> store_n v N (upto x to i) i k = Some (upto x to (i + k)).
Proof.
  intros H1 H2 H3 H4 H5 H6 E. unfold upto at 1.
  assert (L : zlen (firstn (Z.to_nat i) x) = i) by (apply zlen_firstn; lia).
  rewrite <- L at 3. rewrite store_n_ok; try lia; [|rewrite zlen_skipn; lia|rewrite zlen_app, L, zlen_skipn; lia].
  rewrite E. rewrite upto_step by lia. reflexivity.
Qed.
Lemma upto_wr x to i y : 0 <= i < zlen x -> i < zlen to -> nth_error x (Z.to_nat i) = Some y ->
  wr (upto x to i) i y = Some (upto x to (i + 1)).
Proof.
  intros H1 H2 E. destruct (nth_error_split x _ E) as (x1 & x2 & -> & HL).
  unfold upto. replace (Z.to_nat (i + 1)) with (S (Z.to_nat i)) by lia. rewrite <- HL.
  assert (F1 : firstn (length x1) (x1 ++ y :: x2) = x1) by (rewrite firstn_app, Nat.sub_diag, firstn_all; cbn [firstn]; apply app_nil_r).
  assert (F2 : firstn (S (length x1)) (x1 ++ y :: x2) = x1 ++ [y]).
  { rewrite firstn_app, firstn_all2 by lia. replace (S (length x1) - length x1)%nat with 1%nat by lia. reflexivity. }
  rewrite F1, F2. destruct (skipn (length x1) to) as [|z t] eqn:Et.
  - assert (length (skipn (length x1) to) = 0%nat) by (rewrite Et; reflexivity). rewrite skipn_length in *. unfold zlen in *. lia.
  - replace i with (zlen x1) by (unfold zlen; lia). rewrite wr_app. f_equal. rewrite <- app_assoc. cbn [app]. do 2 f_equal.
    replace (S (length x1)) with (length x1 + 1)%nat by lia. rewrite <- skipn_add, Et. reflexivity.
Qed.
Lemma upto_load x to i n : 0 <= i <= zlen x -> 0 <= n -> i + n <= zlen to -> loadu (upto x to i) i n = Some (firstn (Z.to_nat n) (skipn (Z.to_nat i) to)).
Proof.
  intros H1 H2 H3. unfold upto. assert (L : zlen (firstn (Z.to_nat i) x) = i) by (apply zlen_firstn; lia).
  rewrite <- L at 3. rewrite loadu_app by (rewrite zlen_skipn; lia). reflexivity.
Qed.
Lemma upto_load_n x to i k : 0 <= i <= zlen x -> 0 <= k <= N -> i + k <= zlen to -> zlen to <= 2 ^ 64 ->
  load_n zero N (upto x to i) i k = Some (firstn (Z.to_nat k) (skipn (Z.to_nat i) to) ++ repeat zero (Z.to_nat (N - k))).
Proof.
  intros H1 H2 H3 H4. rewrite load_n_ok; try lia; [|rewrite upto_len by lia; lia|rewrite upto_len by lia; lia].
  unfold upto. assert (L : length (firstn (Z.to_nat i) x) = Z.to_nat i) by (rewrite firstn_length; unfold zlen in H1; lia).
  rewrite skipn_app, L, Nat.sub_diag. rewrite skipn_all2 by lia. reflexivity.
Qed.

Lemma firstn_set n (x : A) c i : 0 <= i -> 0 <= n -> i + n <= c ->
  repeat x (Z.to_nat n) = firstn (Z.to_nat n) (skipn (Z.to_nat i) (repeat x (Z.to_nat c))).
Proof.
  intros. replace (Z.to_nat c) with (Z.to_nat i + (Z.to_nat n + Z.to_nat (c - i - n)))%nat by lia.
  rewrite !repeat_app. rewrite skipn_app, skipn_all2, repeat_length, Nat.sub_diag by (rewrite repeat_length; lia). cbn [app skipn].
  rewrite firstn_app, repeat_length, Nat.sub_diag, firstn_all2 by (rewrite repeat_length; lia). cbn [firstn]. now rewrite app_nil_r.
Qed.
Lemma nth_error_repeat' (x : A) n i : (i < n)%nat -> nth_error (repeat x n) i = Some x.
Proof. revert i; induction n as [|n IH]; intros i H; [lia|]. destruct i; cbn; [reflexivity|apply IH; lia]. Qed.

(** Fill *)
Lemma fill_ok (value : A) (count : Z) (to : list A) : 0 <= count <= zlen to -> zlen to < 2 ^ 64 ->
  fill N fault value count to = Some (repeat value (Z.to_nat count) ++ skipn (Z.to_nat count) to).
Proof.
  intros HC HL. set (x := repeat value (Z.to_nat count)).
  assert (LX : zlen x = count) by (unfold zlen, x; rewrite repeat_length; lia).
  unfold fill.
  destruct (vloop_rule (R := unit) (fun i t => t = upto x to i) (fun _ => False) N count
     (fun idx t => match storeu t idx (set N value) with Some t' => Some (inl t') | None => None end) to) as (o & E & P); try lia.
  { intros idx s H1 H2 _ ->. rewrite (upto_store x to idx N); try lia; [eexists; split; [reflexivity|reflexivity]|].
    unfold set, x. apply firstn_set; lia. }
  { reflexivity. }
  rewrite E. destruct o as [(idx, t)|[]]; [|contradiction]. destruct P as (P1 & _ & P2 & ->).
  assert (EF : upto x to count = x ++ skipn (Z.to_nat count) to).
  { rewrite <- LX at 1. rewrite upto_full. f_equal. f_equal. unfold zlen in LX. lia. }
  destruct (Z.eqb_spec idx count) as [->|NE]; [now rewrite EF|].
  rewrite (wrap_small 64 (count - idx)) by (unfold in_u; lia). unfold safe_fill_n. destruct fault.
  - destruct (sfor_rule (R := unit) (fun i t => t = upto x to (idx + i)) (fun _ => False) (count - idx)
       (fun i t => match wr t (wrap 64 (idx + i)) value with Some t' => Some (inl t') | None => None end)
       ltac:(lia)) with (fuel := S (Z.to_nat (count - idx))) (i := 0) (s := upto x to idx) as (o & E2 & P); try lia.
    { intros i s H1 H2 ->. rewrite (wrap_small 64 (idx + i)) by (unfold in_u; lia).
      rewrite upto_wr; try lia; [eexists; split; [reflexivity|cbn beta; now replace (idx + (i + 1)) with (idx + i + 1) by lia]|].
      unfold x. apply nth_error_repeat'. lia. }
    { now replace (idx + 0) with idx by lia. }
    rewrite E2. destruct o as [t|[]]; [|contradiction]. rewrite P. replace (idx + (count - idx)) with count by lia. now rewrite EF.
  - fold (store_n (set N value) N (upto x to idx) idx (count - idx)). rewrite upto_store_n; try lia.
    + replace (idx + (count - idx)) with count by lia. now rewrite EF.
    + unfold zlen, set. rewrite repeat_length. lia.
    + unfold x. rewrite <- firstn_set by lia. unfold set. replace (Z.to_nat N) with (Z.to_nat (count - idx) + Z.to_nat (N - (count - idx)))%nat by lia.
      rewrite repeat_app, firstn_app, repeat_length, Nat.sub_diag, firstn_all2 by (rewrite repeat_length; lia). cbn [firstn]. apply app_nil_r.
Qed.

Lemma firstn_within (x : list A) c i n : 0 <= i -> 0 <= n -> i + n <= c ->
  firstn (Z.to_nat n) (skipn (Z.to_nat i) (firstn (Z.to_nat c) x)) = firstn (Z.to_nat n) (skipn (Z.to_nat i) x).
Proof.
  intros. rewrite skipn_firstn_comm. rewrite firstn_firstn. f_equal. lia.
Qed.

(** Copy *)
Lemma copy_ok (from : list A) (count : Z) (to : list A) : 0 <= count <= zlen to -> count <= zlen from -> zlen to < 2 ^ 64 -> zlen from < 2 ^ 64 ->
  copy zero N fault from count to = Some (firstn (Z.to_nat count) from ++ skipn (Z.to_nat count) to).
Proof.
  intros HC HF HL HLF. set (x := firstn (Z.to_nat count) from).
  assert (LX : zlen x = count) by (unfold x; apply zlen_firstn; lia).
  unfold copy.
  destruct (vloop_rule (R := unit) (fun i t => t = upto x to i) (fun _ => False) N count
     (fun idx t => match loadu from idx N with
                        | Some v => match storeu t idx v with Some t' => Some (inl t') | None => None end
                        | None => None end) to) as (o & E & P); try lia.
  { intros idx s H1 H2 _ ->. rewrite loadu_ok by lia. rewrite (upto_store x to idx N); try lia; [eexists; split; [reflexivity|reflexivity]|].
    unfold x. now rewrite firstn_within by lia. }
  { reflexivity. }
  rewrite E. destruct o as [(idx, t)|[]]; [|contradiction]. destruct P as (P1 & _ & P2 & ->).
  assert (EF : upto x to count = x ++ skipn (Z.to_nat count) to).
  { rewrite <- LX at 1. rewrite upto_full. f_equal. f_equal. unfold zlen in LX. lia. }
  destruct (Z.eqb_spec idx count) as [->|NE]; [now rewrite EF|].
  rewrite (wrap_small 64 (count - idx)) by (unfold in_u; lia). unfold safe_copy_n. destruct fault.
  - match goal with |- context [sfor _ _ _ ?b _] => 
      destruct (sfor_rule (R := unit) (fun i t => t = upto x to (idx + i)) (fun _ => False) (count - idx) b ltac:(lia))
        with (fuel := S (Z.to_nat (count - idx))) (i := 0) (s := upto x to idx) as (o & E2 & P); try lia end.
    { intros i s H1 H2 ->. rewrite (wrap_small 64 (idx + i)) by (unfold in_u; lia).
      destruct (loadu_one from (idx + i) ltac:(lia)) as (y & Hy & _). unfold rd. destruct (Z.ltb_spec (idx + i) 0); [lia|]. rewrite Hy.
      rewrite upto_wr; try lia; [eexists; split; [reflexivity|cbn beta; now replace (idx + (i + 1)) with (idx + i + 1) by lia]|].
      unfold x. rewrite <- Hy. clear -H1 H2 P2. assert (Z.to_nat (idx + i) < Z.to_nat count)%nat by lia. clear - H.
      revert H. generalize (Z.to_nat (idx + i)) (Z.to_nat count). intros a. revert from. induction a as [|a IH]; intros l b H; destruct b; try lia; destruct l; cbn; auto. apply IH. lia. }
    { now replace (idx + 0) with idx by lia. }
    rewrite E2. destruct o as [t|[]]; [|contradiction]. rewrite P. replace (idx + (count - idx)) with count by lia. now rewrite EF.
  - fold (load_n zero N from idx (count - idx)). rewrite load_n_ok by lia.
    match goal with |- blended_store ?v _ _ _ = _ => fold (store_n v N (upto x to idx) idx (count - idx)) end.
    assert (LF : zlen (firstn (Z.to_nat (count - idx)) (skipn (Z.to_nat idx) from)) = count - idx)
      by (apply zlen_firstn; rewrite zlen_skipn; lia).
    rewrite upto_store_n; try lia.
    + replace (idx + (count - idx)) with count by lia. now rewrite EF.
    + rewrite zlen_app. rewrite LF. unfold zlen. rewrite repeat_length. lia.
    + unfold x. rewrite firstn_within by lia. rewrite firstn_app. unfold zlen in LF.
      replace (Z.to_nat (count - idx) - length (firstn (Z.to_nat (count - idx)) (skipn (Z.to_nat idx) from)))%nat with 0%nat by lia.
      cbn [firstn]. rewrite app_nil_r. rewrite firstn_firstn. f_equal. lia.
Qed.

Lemma firstn_app_exact (u w : list A) k : length u = k -> firstn k (u ++ w) = u.
Proof. intros <-. rewrite firstn_app, Nat.sub_diag, firstn_all. cbn [firstn]. apply app_nil_r. Qed.

(** Transform family: one generic statement about "load, apply, store" *)
Section T.
Variable inout : list A.
Variable count : Z.
Variable x : list A.     (* the expected new elements *)
Hypothesis HC : 0 <= count <= zlen inout.
Hypothesis HL : zlen inout < 2 ^ 64.
Hypothesis LX : zlen x = count.

Lemma upto_count : upto x inout count = x ++ skipn (Z.to_nat count) inout.
Proof. rewrite <- LX at 1. rewrite upto_full. f_equal. f_equal. unfold zlen in LX. lia. Qed.

Lemma generic_transform (bodyv tailv : Z -> list A -> option (list A)) :
  (forall idx, 0 <= idx -> idx + N <= count -> bodyv idx (upto x inout idx) = Some (firstn (Z.to_nat N) (skipn (Z.to_nat idx) x))) ->
  (forall idx, 0 <= idx -> count - N < idx < count -> exists v, tailv idx (upto x inout idx) = Some v /\ zlen v = N /\
      firstn (Z.to_nat (count - idx)) v = firstn (Z.to_nat (count - idx)) (skipn (Z.to_nat idx) x)) ->
  forall body, (forall idx t, body idx t = match bodyv idx t with Some v => match storeu t idx v with Some t' => Some (inl t') | None => None end | None => None end) ->
  forall tail, (forall idx t, tail idx t = match tailv idx t with Some v => store_n v N t idx (wrap 64 (count - idx)) | None => None end) ->
  match vloop (R := unit) N count body inout with
  | Some (inl (idx, t)) => if idx =? count then Some t else tail idx t
  | _ => None
  end = Some (x ++ skipn (Z.to_nat count) inout).
Proof.
  intros HB HT body EB tail ET.
  destruct (vloop_rule (R := unit) (fun i t => t = upto x inout i) (fun _ => False) N count body inout) as (o & E & P); try lia.
  { intros idx s H1 H2 _ ->. rewrite EB, HB by lia. rewrite (upto_store x inout idx N); try lia; [eexists; split; [reflexivity|reflexivity]|reflexivity]. }
  { reflexivity. }
  rewrite E. destruct o as [(idx, t)|[]]; [|contradiction]. destruct P as (P1 & _ & P2 & ->).
  destruct (Z.eqb_spec idx count) as [->|NE]; [now rewrite upto_count|].
  destruct (HT idx) as (v & Ev & Lv & Fv); try lia. rewrite ET, Ev. rewrite (wrap_small 64 (count - idx)) by (unfold in_u; lia).
  rewrite upto_store_n; try lia; [|exact Fv]. replace (idx + (count - idx)) with count by lia. now rewrite upto_count.
Qed.
End T.

Lemma map_slice {B} (f : B -> A) (l : list B) c i n : 0 <= i -> 0 <= n -> i + n <= c ->
  firstn (Z.to_nat n) (skipn (Z.to_nat i) (map f (firstn (Z.to_nat c) l))) = map f (firstn (Z.to_nat n) (skipn (Z.to_nat i) l)).
Proof.
  intros. rewrite skipn_map, firstn_map. f_equal. rewrite skipn_firstn_comm, firstn_firstn. f_equal. lia.
Qed.
Lemma slice_len {B} (l : list B) i n : 0 <= i -> 0 <= n -> i + n <= zlen l -> length (firstn (Z.to_nat n) (skipn (Z.to_nat i) l)) = Z.to_nat n.
Proof. intros. rewrite firstn_length, skipn_length. unfold zlen in *. lia. Qed.

Lemma transform_ok (f : A -> A) (func : list A -> list A) inout count : 0 <= count <= zlen inout -> zlen inout < 2 ^ 64 ->
  (forall v, zlen v = N -> func v = map f v) ->
  transform zero N func inout count = Some (map f (firstn (Z.to_nat count) inout) ++ skipn (Z.to_nat count) inout).
Proof.
  intros HC HL HF. unfold transform. set (x := map f (firstn (Z.to_nat count) inout)).
  assert (LX : zlen x = count) by (unfold x, zlen; rewrite map_length, firstn_length; unfold zlen in *; lia).
  apply (generic_transform inout count x HC HL LX
     (fun idx t => match loadu t idx N with Some v => Some (func v) | None => None end)
     (fun idx t => match load_n zero N t idx (wrap 64 (count - idx)) with Some v => Some (func v) | None => None end)); cbn beta.
  - intros idx H1 H2. rewrite upto_load by lia. f_equal. rewrite HF by (unfold zlen; rewrite slice_len; lia). unfold x. now rewrite map_slice by lia.
  - intros idx H1 H2. rewrite (wrap_small 64 (count - idx)) by (unfold in_u; lia). rewrite upto_load_n by lia.
    eexists. split; [reflexivity|]. pose proof (slice_len inout idx (count - idx) ltac:(lia) ltac:(lia) ltac:(lia)) as SL.
    assert (LN : zlen (firstn (Z.to_nat (count - idx)) (skipn (Z.to_nat idx) inout) ++ repeat zero (Z.to_nat (N - (count - idx)))) = N)
      by (rewrite zlen_app; unfold zlen; rewrite SL, repeat_length; lia).
    rewrite HF by exact LN. split; [unfold zlen; rewrite map_length; exact LN|].
    rewrite map_app, firstn_app_exact by (rewrite map_length; exact SL). unfold x. now rewrite map_slice by lia.
  - intros idx t. destruct (loadu t idx N); reflexivity.
  - intros idx t. destruct (load_n zero N t idx (wrap 64 (count - idx))); reflexivity.
Qed.

Lemma map2_app {B C D} (f : B -> C -> D) a1 a2 b1 b2 : length a1 = length b1 ->
  map (fun p => f (fst p) (snd p)) (combine (a1 ++ a2) (b1 ++ b2)) =
  map (fun p => f (fst p) (snd p)) (combine a1 b1) ++ map (fun p => f (fst p) (snd p)) (combine a2 b2).
Proof.
  revert b1; induction a1 as [|u a1 IH]; intros [|w b1] H; cbn in *; try lia; [reflexivity|]. f_equal. apply IH. lia.
Qed.
Lemma combine_skipn {B C} (a : list B) (b : list C) n : skipn n (combine a b) = combine (skipn n a) (skipn n b).
Proof. revert a b; induction n as [|n IH]; intros [|u a] [|w b]; cbn; auto. now rewrite combine_nil. Qed.
Lemma combine_firstn' {B C} (a : list B) (b : list C) n : firstn n (combine a b) = combine (firstn n a) (firstn n b).
Proof. apply combine_firstn. Qed.

Lemma transform1_ok (f : A -> A -> A) (func : list A -> list A -> list A) inout count in1 :
  0 <= count <= zlen inout -> count <= zlen in1 -> zlen inout < 2 ^ 64 -> zlen in1 < 2 ^ 64 ->
  (forall v v1, zlen v = N -> zlen v1 = N -> func v v1 = map (fun p => f (fst p) (snd p)) (combine v v1)) ->
  transform1 zero N func inout count in1 =
  Some (map (fun p => f (fst p) (snd p)) (firstn (Z.to_nat count) (combine inout in1)) ++ skipn (Z.to_nat count) inout).
Proof.
  intros HC HC1 HL HL1 HF. unfold transform1. set (x := map (fun p => f (fst p) (snd p)) (firstn (Z.to_nat count) (combine inout in1))).
  assert (LX : zlen x = count) by (unfold x, zlen; rewrite map_length, firstn_length, combine_length; unfold zlen in *; lia).
  { apply (generic_transform inout count x HC HL LX
     (fun idx t => match loadu t idx N, loadu in1 idx N with Some v, Some v1 => Some (func v v1) | _, _ => None end)
     (fun idx t => match load_n zero N t idx (wrap 64 (count - idx)), load_n zero N in1 idx (wrap 64 (count - idx)) with Some v, Some v1 => Some (func v v1) | _, _ => None end)); cbn beta.
    - intros idx H1 H2. rewrite upto_load, loadu_ok by lia. f_equal. rewrite HF by (unfold zlen; rewrite slice_len; lia). unfold x.
      rewrite map_slice by lia. now rewrite combine_skipn, combine_firstn'.
    - intros idx H1 H2. rewrite (wrap_small 64 (count - idx)) by (unfold in_u; lia). rewrite upto_load_n, load_n_ok by lia.
      eexists. split; [reflexivity|]. 
      pose proof (slice_len inout idx (count - idx) ltac:(lia) ltac:(lia) ltac:(lia)) as SL.
      pose proof (slice_len in1 idx (count - idx) ltac:(lia) ltac:(lia) ltac:(lia)) as SL1.
      assert (LN : zlen (firstn (Z.to_nat (count - idx)) (skipn (Z.to_nat idx) inout) ++ repeat zero (Z.to_nat (N - (count - idx)))) = N)
        by (rewrite zlen_app; unfold zlen; rewrite SL, repeat_length; lia).
      assert (LN1 : zlen (firstn (Z.to_nat (count - idx)) (skipn (Z.to_nat idx) in1) ++ repeat zero (Z.to_nat (N - (count - idx)))) = N)
        by (rewrite zlen_app; unfold zlen; rewrite SL1, repeat_length; lia).
      rewrite HF by assumption. split; [unfold zlen in *; rewrite map_length, combine_length; lia|].
      rewrite map2_app by congruence. rewrite firstn_app_exact by (rewrite map_length, combine_length; lia). unfold x.
      rewrite map_slice by lia. now rewrite combine_skipn, combine_firstn'.
    - intros idx t. destruct (loadu t idx N); [|reflexivity]. destruct (loadu in1 idx N); reflexivity.
    - intros idx t. destruct (load_n zero N t idx (wrap 64 (count - idx))); [|reflexivity]. destruct (load_n zero N in1 idx (wrap 64 (count - idx))); reflexivity. }
Qed.

Lemma transform2_ok (f : A -> A -> A -> A) (func : list A -> list A -> list A -> list A) inout count in1 in2 :
  0 <= count <= zlen inout -> count <= zlen in1 -> count <= zlen in2 -> zlen inout < 2 ^ 64 -> zlen in1 < 2 ^ 64 -> zlen in2 < 2 ^ 64 ->
  (forall v v1 v2, zlen v = N -> zlen v1 = N -> zlen v2 = N -> func v v1 v2 = map (fun p => f (fst p) (fst (snd p)) (snd (snd p))) (combine v (combine v1 v2))) ->
  transform2 zero N func inout count in1 in2 =
  Some (map (fun p => f (fst p) (fst (snd p)) (snd (snd p))) (firstn (Z.to_nat count) (combine inout (combine in1 in2))) ++ skipn (Z.to_nat count) inout).
Proof.
  intros HC HC1 HC2 HL HL1 HL2 HF. unfold transform2. set (x := map (fun p => f (fst p) (fst (snd p)) (snd (snd p))) (firstn (Z.to_nat count) (combine inout (combine in1 in2)))).
  assert (LX : zlen x = count) by (unfold x, zlen; rewrite map_length, firstn_length, !combine_length; unfold zlen in *; lia).
  { apply (generic_transform inout count x HC HL LX
     (fun idx t => match loadu t idx N, loadu in1 idx N, loadu in2 idx N with Some v, Some v1, Some v2 => Some (func v v1 v2) | _, _, _ => None end)
     (fun idx t => match load_n zero N t idx (wrap 64 (count - idx)), load_n zero N in1 idx (wrap 64 (count - idx)), load_n zero N in2 idx (wrap 64 (count - idx)) with Some v, Some v1, Some v2 => Some (func v v1 v2) | _, _, _ => None end)); cbn beta.
    - intros idx H1 H2. rewrite upto_load, !loadu_ok by lia. f_equal. rewrite HF by (unfold zlen; rewrite slice_len; lia). unfold x.
      rewrite map_slice by lia. now rewrite !combine_skipn, !combine_firstn'.
    - intros idx H1 H2. rewrite (wrap_small 64 (count - idx)) by (unfold in_u; lia). rewrite upto_load_n, !load_n_ok by lia.
      eexists. split; [reflexivity|]. 
      pose proof (slice_len inout idx (count - idx) ltac:(lia) ltac:(lia) ltac:(lia)) as SL.
      pose proof (slice_len in1 idx (count - idx) ltac:(lia) ltac:(lia) ltac:(lia)) as SL1.
      pose proof (slice_len in2 idx (count - idx) ltac:(lia) ltac:(lia) ltac:(lia)) as SL2.
      assert (LN : forall l, length (firstn (Z.to_nat (count - idx)) (skipn (Z.to_nat idx) l)) = Z.to_nat (count - idx) ->
         zlen (firstn (Z.to_nat (count - idx)) (skipn (Z.to_nat idx) l) ++ repeat zero (Z.to_nat (N - (count - idx)))) = N)
        by (intros l E; rewrite zlen_app; unfold zlen; rewrite E, repeat_length; lia).
      pose proof (LN _ SL) as LNa. pose proof (LN _ SL1) as LNb. pose proof (LN _ SL2) as LNc.
      rewrite HF by assumption. split; [unfold zlen in *; rewrite map_length, !combine_length; lia|].
      rewrite firstn_map, !combine_firstn'. rewrite !firstn_app_exact by assumption. unfold x.
      rewrite map_slice by lia. now rewrite !combine_skipn, !combine_firstn'.
    - intros idx t. destruct (loadu t idx N); [|reflexivity]. destruct (loadu in1 idx N); [|reflexivity]. destruct (loadu in2 idx N); reflexivity.
    - intros idx t.   destruct (load_n zero N t idx (wrap 64 (count - idx))); [|reflexivity]. destruct (load_n zero N in1 idx (wrap 64 (count - idx))); [|reflexivity].
  destruct (load_n zero N in2 idx (wrap 64 (count - idx))); reflexivity. }
Qed.

Lemma ite_map (p : A -> bool) y v : if_then_else (map p v) (repeat y (length v)) v = map (fun z => if p z then y else z) v.
Proof. unfold if_then_else. induction v as [|z v IH]; [reflexivity|]. cbn [map length repeat combine fst snd]. f_equal. exact IH. Qed.
Lemma replace_if_ok (p : A -> bool) (func : list A -> list bool) new_t inout count : 0 <= count <= zlen inout -> zlen inout < 2 ^ 64 ->
  (forall v, zlen v = N -> func v = map p v) ->
  replace_if zero N new_t func inout count = Some (map (fun z => if p z then new_t else z) (firstn (Z.to_nat count) inout) ++ skipn (Z.to_nat count) inout).
Proof.
  intros HC HL HF. unfold replace_if. apply transform_ok; auto. intros v Hv. rewrite HF by exact Hv. unfold set.
  replace (Z.to_nat N) with (length v) by (unfold zlen in Hv; lia). apply ite_map.
Qed.

(** Generate *)
Lemma nth_error_ext {B} (a b : list B) : (forall i, nth_error a i = nth_error b i) -> a = b.
Proof.
  revert b; induction a as [|u a IH]; intros [|w b] H; auto; try (specialize (H 0%nat); discriminate).
  f_equal; [specialize (H 0%nat); now injection H|]. apply IH. intros i. exact (H (S i)).
Qed.
Lemma map_slice_seq {B} (f : nat -> B) c i n : 0 <= i -> 0 <= n -> i + n <= c ->
  firstn (Z.to_nat n) (skipn (Z.to_nat i) (map f (seq 0 (Z.to_nat c)))) = map f (seq (Z.to_nat i) (Z.to_nat n)).
Proof.
  intros. rewrite skipn_map, firstn_map. f_equal.
  replace (Z.to_nat c) with (Z.to_nat i + (Z.to_nat n + Z.to_nat (c - i - n)))%nat by lia.
  rewrite !seq_app. rewrite skipn_app, skipn_all2, seq_length, Nat.sub_diag by (rewrite seq_length; lia). cbn [app skipn].
  rewrite firstn_app, seq_length, Nat.sub_diag, firstn_all2 by (rewrite seq_length; lia). cbn [firstn]. now rewrite app_nil_r, Nat.add_0_l.
Qed.
Lemma generate_ok bits (f : Z -> A) (func : list Z -> list A) out count : 0 < bits -> 0 <= count <= zlen out -> zlen out < 2 ^ 64 ->
  (forall v, zlen v = N -> func v = map f v) ->
  generate N bits func out count = Some (map (fun i => f (wrap bits (Z.of_nat i))) (seq 0 (Z.to_nat count)) ++ skipn (Z.to_nat count) out).
Proof.
  intros Hb HC HL HF. unfold generate. set (x := map (fun i => f (wrap bits (Z.of_nat i))) (seq 0 (Z.to_nat count))).
  assert (LX : zlen x = count) by (unfold x, zlen; rewrite map_length, seq_length; lia).
  set (vidx := fun i => map (fun j => wrap bits (Z.of_nat j)) (seq (Z.to_nat i) (Z.to_nat N))).
  assert (LV : forall i, zlen (vidx i) = N) by (intros i; unfold vidx, zlen; rewrite map_length, seq_length; lia).
  assert (EX : forall i, 0 <= i -> map f (vidx i) = map (fun i => f (wrap bits (Z.of_nat i))) (seq (Z.to_nat i) (Z.to_nat N)))
    by (intros i Hi; unfold vidx; now rewrite map_map).
  assert (ES : forall i, 0 <= i -> map (fun y => wrap bits (y + wrap bits N)) (vidx i) = vidx (i + N)).
  { intros i Hi. unfold vidx. rewrite map_map. replace (Z.to_nat (i + N)) with (Z.to_nat N + Z.to_nat i)%nat by lia.
    generalize (Z.to_nat i). generalize (Z.to_nat N) at 1 3. intros n. induction n as [|n IHn]; intros k; [reflexivity|]. cbn [seq map]. f_equal.
    - unfold wrap. rewrite <- Zplus_mod. f_equal. lia.
    - rewrite IHn. f_equal. f_equal. lia. }
  match goal with |- context [vloop N count ?b (out, ?v0)] => 
    destruct (vloop_rule (R := unit) (fun i st => st = (upto x out i, vidx i)) (fun _ => False) N count b (out, v0)) as (o & E & P); try lia end.
  { intros idx s H1 H2 _ ->. cbn [fst snd]. rewrite HF by apply LV. rewrite (upto_store x out idx N); try lia;
      [eexists; split; [reflexivity|cbn beta iota; f_equal; now apply ES]|].
    rewrite EX by lia. unfold x. now rewrite map_slice_seq by lia. }
  { reflexivity. }
  rewrite E. destruct o as [(idx, st)|[]]; [|contradiction]. destruct P as (P1 & _ & P2 & ->).
  assert (UC := upto_count out count x LX).
  destruct (Z.eqb_spec idx count) as [->|NE]; [now rewrite UC|].
  rewrite (wrap_small 64 (count - idx)) by (unfold in_u; lia). rewrite HF by apply LV.
  rewrite upto_store_n; try lia.
  - replace (idx + (count - idx)) with count by lia. now rewrite UC.
  - unfold zlen. rewrite map_length. apply LV.
  - rewrite EX by lia. unfold x. rewrite map_slice_seq by lia. rewrite firstn_map. f_equal.
    replace (Z.to_nat N) with (Z.to_nat (count - idx) + Z.to_nat (N - (count - idx)))%nat by lia. rewrite seq_app, firstn_app, seq_length, Nat.sub_diag, firstn_all2 by (rewrite seq_length; lia).
    cbn [firstn]. apply app_nil_r.
Qed.

(** Foreach *)
Lemma foreach_ok (no inp : list A) count : zlen no = N -> 0 <= count <= zlen inp -> zlen inp < 2 ^ 64 ->
  exists tr, foreach N no inp count = Some tr /\ Forall (fun v => zlen v = N) tr /\
    concat tr = firstn (Z.to_nat count) inp ++ (if count mod N =? 0 then [] else skipn (Z.to_nat (count mod N)) no).
Proof.
  intros Hno HC HL. unfold foreach.
  match goal with |- context [vloop N count ?b ?s0] => 
    destruct (vloop_rule (R := unit) (fun i tr => Forall (fun v => zlen v = N) tr /\ concat tr = firstn (Z.to_nat i) inp) (fun _ => False) N count b s0) as (o & E & P); try lia end.
  { intros idx s H1 H2 _ (F & C). rewrite loadu_ok by lia. eexists. split; [reflexivity|]. cbn beta iota. split.
    - apply Forall_app. split; [exact F|]. constructor; [|constructor]. unfold zlen. rewrite slice_len; lia.
    - rewrite concat_app, C. cbn [concat]. rewrite app_nil_r, <- firstn_add, Z2Nat.inj_add by lia. reflexivity. }
  { split; [constructor|reflexivity]. }
  rewrite E. destruct o as [(idx, tr)|[]]; [|contradiction]. destruct P as (P1 & (q & ->) & P2 & F & C).
  assert (EM : count mod N = if q * N =? count then 0 else count - q * N).
  { destruct (Z.eqb_spec (q * N) count) as [<-|NE]; [apply Z.mod_mul; lia|]. symmetry. apply Z.mod_unique_pos with q; lia. }
  destruct (Z.eqb_spec (q * N) count) as [<-|NE].
  - rewrite EM. cbn [Z.eqb]. exists tr. split; [reflexivity|]. split; [exact F|]. now rewrite app_nil_r.
  - rewrite (wrap_small 64 (count - q * N)) by (unfold in_u; lia). rewrite load_n_or_ok by lia.
    eexists. split; [reflexivity|]. rewrite EM. destruct (Z.eqb_spec (count - q * N) 0); [lia|]. split.
    + apply Forall_app. split; [exact F|]. constructor; [|constructor]. rewrite zlen_app. unfold zlen at 1. rewrite slice_len by lia. rewrite zlen_skipn by lia. lia.
    + rewrite concat_app, C. cbn [concat]. rewrite app_nil_r, app_assoc, <- firstn_add, <- Z2Nat.inj_add by lia. do 3 f_equal. lia.
Qed.

(** CopyIf *)
Section CI.
Variable p : A -> bool.
Variables func func1 : list A -> list bool.
Hypothesis HF : forall v, zlen v = N -> func v = map p v.
Hypothesis HF1 : forall y, func1 [y] = [p y].

Definition kept (from : list A) (i : Z) : list A := filter p (firstn (Z.to_nat i) from).
Definition ci_state (from to : list A) (i : Z) : list A * Z :=
  (kept from i ++ skipn (length (kept from i)) to, zlen (kept from i)).

Lemma filter_app' (a b : list A) : filter p (a ++ b) = filter p a ++ filter p b.
Proof. apply filter_app. Qed.
Lemma kept_add from i n : 0 <= i -> 0 <= n -> kept from (i + n) = kept from i ++ filter p (firstn (Z.to_nat n) (skipn (Z.to_nat i) from)).
Proof. intros. unfold kept. rewrite Z2Nat.inj_add by lia. rewrite firstn_add. apply filter_app'. Qed.
Lemma kept_le from i : 0 <= i -> zlen (kept from i) <= i.
Proof. intros. unfold kept. etransitivity; [apply filter_len|]. unfold zlen. rewrite firstn_length. lia. Qed.

Lemma ci_store from to i w : zlen (kept from i) + zlen w <= zlen to -> 
  storeu (fst (ci_state from to i)) (snd (ci_state from to i)) w = 
  Some ((kept from i ++ w) ++ skipn (length (kept from i ++ w)) to).
Proof.
  intros H. cbn [ci_state fst snd]. pose proof (zlen_nonneg w). pose proof (zlen_nonneg (kept from i)).
  assert (LS : zlen (skipn (length (kept from i)) to) = zlen to - zlen (kept from i)) by (unfold zlen in *; rewrite skipn_length; lia).
  rewrite storeu_app by lia. rewrite skipn_add, app_length, <- app_assoc. reflexivity.
Qed.

Lemma copy_if_ok (from : list A) count (to : list A) : 0 <= count <= zlen from -> zlen from < 2 ^ 64 ->
  (if fault then count <= zlen to else zlen (filter p (firstn (Z.to_nat count) from)) <= zlen to) ->
  copy_if zero N fault func func1 from count to =
  let k := filter p (firstn (Z.to_nat count) from) in Some (k ++ skipn (length k) to, zlen k).
Proof.
  intros HC HL HT. unfold copy_if. cbn zeta. fold (kept from count) in *. fold (ci_state from to count).
  assert (HLE : forall i, 0 <= i <= count -> zlen (kept from i) <= zlen to).
  { intros i Hi. destruct fault; [pose proof (kept_le from i ltac:(lia)); lia|].
    replace count with (i + (count - i)) in HT by lia. rewrite kept_add, zlen_app in HT by lia.
    pose proof (zlen_nonneg (filter p (firstn (Z.to_nat (count - i)) (skipn (Z.to_nat i) from)))). lia. }
  assert (HK : forall i, 0 <= i <= count -> zlen (kept from i) <= count) by (intros i Hi; pose proof (kept_le from i ltac:(lia)); lia).
  match goal with |- context [vloop N count ?b ?s0] => 
    destruct (vloop_rule (R := unit) (fun i st => st = ci_state from to i) (fun _ => False) N count b s0) as (o & E & P); try lia end.
  { intros idx s H1 H2 _ ->. rewrite loadu_ok by lia. set (v := firstn (Z.to_nat N) (skipn (Z.to_nat idx) from)).
    assert (LV : zlen v = N) by (unfold zlen, v; rewrite slice_len; lia).
    rewrite HF by exact LV. unfold compress_blended_store. rewrite select_map.
    pose proof (HLE (idx + N) ltac:(lia)) as HX. rewrite kept_add in HX by lia. fold v in HX. rewrite zlen_app in HX.
    assert (FX : fault && negb ((0 <=? snd (ci_state from to idx)) && (snd (ci_state from to idx) + zlen v <=? zlen (fst (ci_state from to idx)))) = false).
    { destruct fault; [|reflexivity]. cbn [andb ci_state fst snd]. pose proof (kept_le from idx ltac:(lia)). pose proof (zlen_nonneg (kept from idx)).
      rewrite zlen_app. assert (LS : zlen (skipn (length (kept from idx)) to) = zlen to - zlen (kept from idx)) by (unfold zlen in *; rewrite skipn_length; lia).
      rewrite LS. destruct (Z.leb_spec 0 (zlen (kept from idx))); [|lia].
      destruct (Z.leb_spec (zlen (kept from idx) + zlen v) (zlen (kept from idx) + (zlen to - zlen (kept from idx)))); [reflexivity|lia]. }
    rewrite FX. rewrite ci_store by lia. eexists. split; [reflexivity|]. cbn beta iota. unfold ci_state at 2.
    rewrite kept_add by lia. fold v. f_equal. cbn [ci_state snd]. rewrite zlen_app. apply wrap_small. unfold in_u.
    pose proof (zlen_nonneg (kept from idx)). pose proof (zlen_nonneg (filter p v)).
    pose proof (HK (idx + N) ltac:(lia)) as HY. rewrite kept_add in HY by lia. fold v in HY. rewrite zlen_app in HY. lia. }
  { unfold ci_state, kept. reflexivity. }
  rewrite E. destruct o as [(idx, st)|[]]; [|contradiction]. destruct P as (P1 & (q & Eq) & P2 & ->).
  destruct (ci_state from to idx) as [t o] eqn:ES.
  destruct (Z.eqb_spec idx count) as [->|NE]; [now rewrite ES|].
  destruct fault.
  - rewrite <- ES. 
    match goal with |- context [sfor _ _ _ ?b ?s0] => 
      destruct (sfor_rule (R := unit) (fun i st => st = ci_state from to i) (fun _ => False) count b ltac:(lia))
        with (fuel := S (Z.to_nat (count - idx))) (i := idx) (s := s0) as (o2 & E2 & P); try lia end.
    { intros i s H1 H2 ->. destruct (loadu_one from i ltac:(lia)) as (y & Hy & Ly). rewrite Ly, HF1. cbn [existsb]. rewrite orb_false_r.
      pose proof (HLE (i + 1) ltac:(lia)) as HX. pose proof (HK (i + 1) ltac:(lia)) as HY.
      assert (EK : kept from (i + 1) = kept from i ++ (if p y then [y] else [])).
      { rewrite kept_add by lia. f_equal. rewrite loadu_ok in Ly by lia. apply (f_equal (fun o => match o with Some z => z | None => [] end)) in Ly. cbv beta iota in Ly. rewrite Ly. cbn [filter]. destruct (p y); reflexivity. }
      rewrite EK, zlen_app in *. destruct (p y).
      - rewrite ci_store by (unfold zlen in *; cbn [length] in *; lia). eexists. split; [reflexivity|]. cbn beta iota. unfold ci_state at 2. rewrite EK. f_equal.
        rewrite zlen_app. cbn [ci_state snd]. change (zlen [y]) with 1 in *. apply wrap_small. unfold in_u. pose proof (zlen_nonneg (kept from i)). lia.
      - eexists. split; [reflexivity|]. cbn beta iota. unfold ci_state. rewrite EK, app_nil_r. reflexivity. }
    { reflexivity. }
    rewrite E2. destruct o2 as [st|[]]; [|contradiction]. now rewrite P.
  - cbn zeta.
    set (inv := wrap 64 (idx - wrap 64 (count - N))).
    assert (EI : inv = idx - (count - N)).
    { unfold inv, wrap. rewrite Zminus_mod_idemp_r. apply Z.mod_small. lia. }
    rewrite EI. set (k := idx - (count - N)).
    assert (Hk : 0 < k < N) by (unfold k; lia).
    rewrite first_n_eq by lia. rewrite mask_not_app, !mask_not_repeat. cbn [negb].
    assert (EML : masked_load zero (repeat false (Z.to_nat k) ++ repeat true (Z.to_nat (N - k))) from (wrap 64 (count - N)) =
            Some (repeat zero (Z.to_nat k) ++ firstn (Z.to_nat (count - idx)) (skipn (Z.to_nat idx) from))).
    { unfold masked_load. rewrite map_app.
      assert (FR : forall (b : bool) n, map (fun _ : bool => zero) (repeat b n) = repeat zero n).
      { intros b n. induction n as [|n IHn]; [reflexivity|]. cbn [repeat map]. now rewrite IHn. }
      rewrite !FR. assert (LR : length (repeat zero (Z.to_nat k)) = Z.to_nat k) by apply repeat_length.
      replace (repeat false (Z.to_nat k)) with (repeat false (length (repeat zero (Z.to_nat k)))) by (now rewrite LR). rewrite mlo_false.
      assert (EO : masked_load_or (repeat zero (Z.to_nat (N - k))) (repeat true (Z.to_nat (N - k))) from (wrap 64 (count - N) + zlen (repeat zero (Z.to_nat k)))
               = masked_load_or (repeat zero (Z.to_nat (N - k))) (repeat true (Z.to_nat (N - k))) from idx).
      { unfold zlen. rewrite LR, Z2Nat.id by lia. destruct (Z_le_gt_dec N count) as [Hle|Hgt].
        - rewrite (wrap_small 64 (count - N)) by (unfold in_u; lia). f_equal. unfold k. lia.
        - replace (wrap 64 (count - N)) with (count - N + 2 ^ 64).
          + replace (count - N + 2 ^ 64 + k) with (idx + 2 ^ 64) by (unfold k; lia). apply mlo_period.
          + unfold wrap. apply Z.mod_unique_pos with (-1); lia. }
      rewrite EO.
      assert (LR2 : length (repeat zero (Z.to_nat (N - k))) = Z.to_nat (N - k)) by apply repeat_length.
      replace (repeat true (Z.to_nat (N - k))) with (repeat true (length (repeat zero (Z.to_nat (N - k)))) ++ []) by (now rewrite LR2, app_nil_r).
      rewrite <- (app_nil_r (repeat zero (Z.to_nat (N - k)))) at 1. rewrite mlo_true; [|lia|unfold zlen; rewrite LR2; unfold k; unfold zlen in *; lia|lia].
      cbn [masked_load_or]. rewrite app_nil_r, LR2. unfold k. do 4 f_equal. lia. }
    rewrite EML. set (w := firstn (Z.to_nat (count - idx)) (skipn (Z.to_nat idx) from)).
    assert (LW : zlen w = count - idx) by (unfold zlen, w; rewrite slice_len; lia).
    rewrite HF by (rewrite zlen_app, LW; unfold zlen; rewrite repeat_length; unfold k; lia).
    assert (ESel : select (repeat zero (Z.to_nat k) ++ w) (mask_and (repeat false (Z.to_nat k) ++ repeat true (Z.to_nat (N - k))) (map p (repeat zero (Z.to_nat k) ++ w))) = filter p w).
    { replace (Z.to_nat (N - k)) with (length w) by (unfold zlen in LW; unfold k; lia). generalize (Z.to_nat k). clear. intros n. unfold mask_and.
      induction n as [|n IHn]; cbn [repeat app map combine fst snd andb select]; [|exact IHn].
      induction w as [|y w IHw]; [reflexivity|]. cbn [length repeat map combine fst snd andb select filter]. now rewrite IHw. }
    unfold compress_blended_store. cbn [andb]. rewrite ESel.
    pose proof (kept_add from idx (count - idx) ltac:(lia) ltac:(lia)) as KA. replace (idx + (count - idx)) with count in KA by lia. fold w in KA.
    assert (Et : t = fst (ci_state from to idx)) by (now rewrite ES). assert (Eo : o = snd (ci_state from to idx)) by (now rewrite ES).
    rewrite KA, zlen_app in HT. rewrite Et, Eo. rewrite ci_store by lia. unfold ci_state at 2. rewrite KA. do 2 f_equal.
    cbn [ci_state snd]. rewrite zlen_app. apply wrap_small. unfold in_u.
    pose proof (zlen_nonneg (kept from idx)). pose proof (zlen_nonneg (filter p w)). pose proof (HK count ltac:(lia)) as HY. rewrite KA, zlen_app in HY. lia.
Qed.
End CI.

(** Find *)
Section F.
Variable p : A -> bool.
Variables func func1 : list A -> list bool.
Hypothesis HF : forall v, zlen v = N -> func v = map p v.
Hypothesis HF1 : forall y, func1 [y] = [p y].

Definition first_match (inp : list A) (count r : Z) : Prop :=
  0 <= r <= count /\ (forall j x, 0 <= j < r -> nth_error inp (Z.to_nat j) = Some x -> p x = false) /\
  (r < count -> exists x, nth_error inp (Z.to_nat r) = Some x /\ p x = true).

Lemma nth_error_firstn' {B} (l : list B) n i : (i < n)%nat -> nth_error (firstn n l) i = nth_error l i.
Proof. revert l i; induction n as [|n IH]; intros l i H; [lia|]. destruct l; [reflexivity|]. destruct i; [reflexivity|]. cbn. apply IH. lia. Qed.
Lemma nth_error_skipn' {B} (l : list B) n i : nth_error (skipn n l) i = nth_error l (n + i).
Proof. revert l; induction n as [|n IH]; intros l; [reflexivity|]. destruct l; cbn; [now destruct i|apply IH]. Qed.
Lemma nth_slice (l : list A) i n j : 0 <= i -> 0 <= j < n -> nth_error (firstn (Z.to_nat n) (skipn (Z.to_nat i) l)) (Z.to_nat j) = nth_error l (Z.to_nat (i + j)).
Proof. intros. rewrite nth_error_firstn' by lia. rewrite nth_error_skipn'. f_equal. lia. Qed.

Definition nomatch (inp : list A) (i : Z) : Prop := forall j x, 0 <= j < i -> nth_error inp (Z.to_nat j) = Some x -> p x = false.

Lemma fft_block (inp : list A) i n m : 0 <= i -> 0 <= n -> i + n <= zlen inp -> nomatch inp i ->
  m = map p (firstn (Z.to_nat n) (skipn (Z.to_nat i) inp)) ->
  (find_first_true m = -1 /\ nomatch inp (i + n)) \/
  (0 <= find_first_true m < n /\ nomatch inp (i + find_first_true m) /\ exists x, nth_error inp (Z.to_nat (i + find_first_true m)) = Some x /\ p x = true).
Proof.
  intros H1 H2 H3 HM ->. set (w := firstn (Z.to_nat n) (skipn (Z.to_nat i) inp)).
  assert (LW : length w = Z.to_nat n) by (unfold w; rewrite slice_len; lia).
  unfold find_first_true. pose proof (fft_spec (map p w) 0) as S. cbn zeta in S. set (r := find_first_true_from (map p w) 0) in *.
  assert (NF : forall k, (k <= length w)%nat -> Forall (fun c => c = false) (firstn k (map p w)) -> nomatch inp (i + Z.of_nat k)).
  { intros k Hk F j y Hj E. destruct (Z_lt_ge_dec j i); [apply (HM j); auto; lia|].
    rewrite Forall_forall in F. apply F. apply nth_error_In with (Z.to_nat (j - i)). rewrite nth_error_firstn' by lia.
    rewrite nth_error_map. unfold w. rewrite nth_slice by lia. replace (i + (j - i)) with j by lia. rewrite E. reflexivity. }
  destruct S as [(E & F)|(k & E & T & F)].
  - left. split; [exact E|]. replace n with (Z.of_nat (length w)) by lia. apply NF; [lia|].
    rewrite <- (map_length p w), firstn_all. exact F.
  - right. rewrite nth_error_map in T. destruct (nth_error w k) as [y|] eqn:Ey; [|discriminate]. injection T as T.
    assert (k < length w)%nat by (apply nth_error_Some; congruence).
    split; [lia|]. rewrite E. cbn [Z.add]. split; [apply NF; [lia|exact F]|].
    exists y. split; [|exact T]. rewrite <- Ey. unfold w. rewrite <- (Nat2Z.id k) at 2. rewrite nth_slice by lia. reflexivity.
Qed.

Lemma find_if_ok (inp : list A) count : 0 <= count <= zlen inp -> zlen inp < 2 ^ 64 ->
  exists r, find_if zero N fault func func1 inp count = Some r /\ first_match inp count r.
Proof.
  intros HC HL. unfold find_if.
  match goal with |- context [vloop N count ?b ?s0] => 
    destruct (vloop_rule (fun i (_ : unit) => nomatch inp i) (fun r => first_match inp count r) N count b s0) as (o & E & P); try lia end.
  { intros idx s H1 H2 _ HM. rewrite loadu_ok by lia. rewrite HF by (unfold zlen; rewrite slice_len; lia).
    set (m := map p (firstn (Z.to_nat N) (skipn (Z.to_nat idx) inp))).
    destruct (fft_block inp idx N m ltac:(lia) ltac:(lia) ltac:(lia) HM eq_refl) as [(E & M)|(B & M & X)].
    - rewrite E. eexists. split; [reflexivity|]. exact M.
    - cbn zeta. destruct (Z.leb_spec 0 (find_first_true m)); [|lia]. eexists. split; [reflexivity|]. cbn beta iota.
      rewrite (wrap_small 64 (idx + find_first_true m)) by (unfold in_u; lia). split; [lia|]. split; [exact M|]. intros _. exact X. }
  { intros j y Hj. lia. }
  rewrite E. destruct o as [(idx, s)|r]; [|exists r; auto]. destruct P as (P1 & _ & P2 & HM).
  destruct (Z.eqb_spec idx count) as [->|NE]; cbn [negb].
  { exists count. split; [reflexivity|]. split; [lia|]. split; [exact HM|]. lia. }
  destruct fault.
  - match goal with |- context [sfor _ _ _ ?b ?s0] => 
      destruct (sfor_rule (fun i (_ : unit) => nomatch inp i) (fun r => first_match inp count r) count b ltac:(lia))
        with (fuel := S (Z.to_nat (count - idx))) (i := idx) (s := s0) as (o2 & E2 & P); try lia end.
    { intros i s' H1 H2 M. destruct (loadu_one inp i ltac:(lia)) as (y & Hy & Ly). rewrite Ly, HF1. cbn [forallb]. rewrite andb_true_r. destruct (p y) eqn:Py.
      - eexists. split; [reflexivity|]. cbn beta iota. split; [lia|]. split; [exact M|]. intros _. exists y. auto.
      - eexists. split; [reflexivity|]. cbn beta iota. intros j z Hj Ez. destruct (Z.eq_dec j i) as [->|]; [congruence|]. apply (M j z); auto. lia. }
    { exact HM. }
    rewrite E2. destruct o2 as [[]|r].
    + exists count. split; [reflexivity|]. split; [lia|]. split; [exact P|lia].
    + exists r. split; [reflexivity|exact P].
  - cbn zeta. rewrite (wrap_small 64 (count - idx)) by (unfold in_u; lia). fold (load_n zero N inp idx (count - idx)). rewrite load_n_ok by lia.
    set (w := firstn (Z.to_nat (count - idx)) (skipn (Z.to_nat idx) inp)).
    assert (LW : length w = Z.to_nat (count - idx)) by (unfold w; rewrite slice_len; lia).
    rewrite HF by (rewrite zlen_app; unfold zlen; rewrite LW, repeat_length; lia).
    rewrite first_n_eq by lia.
    assert (EF : find_first_true (mask_and (map p (w ++ repeat zero (Z.to_nat (N - (count - idx))))) (repeat true (Z.to_nat (count - idx)) ++ repeat false (Z.to_nat (N - (count - idx))))) = find_first_true (map p w)).
    { rewrite <- LW. generalize (Z.to_nat (N - (count - idx))). clear. intros n. unfold find_first_true. generalize 0. unfold mask_and.
      induction w as [|y w IHw]; intros i.
      - cbn [app length repeat map find_first_true_from]. revert i. induction n as [|n IHn]; intros i; [reflexivity|]. cbn [repeat map combine fst snd]. rewrite andb_false_r. cbn [find_first_true_from]. apply IHn.
      - cbn [app length repeat map combine fst snd find_first_true_from]. rewrite andb_true_r. destruct (p y); [reflexivity|apply IHw]. }
    rewrite EF.
    destruct (fft_block inp idx (count - idx) (map p w) ltac:(lia) ltac:(lia) ltac:(lia) HM eq_refl) as [(E2 & M)|(B & M & X)].
    + rewrite E2. cbn [Z.leb Z.compare]. exists count. split; [reflexivity|]. split; [lia|]. split; [|lia]. replace (idx + (count - idx)) with count in M by lia. exact M.
    + destruct (Z.leb_spec 0 (find_first_true (map p w))); [|lia]. eexists. split; [reflexivity|].
      rewrite (wrap_small 64 (idx + find_first_true (map p w))) by (unfold in_u; lia). split; [lia|]. split; [exact M|]. intros _. exact X.
Qed.
End F.
End P.
