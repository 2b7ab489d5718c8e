(** Proofs about MatVec. *)
From Coq Require Import ZArith List Lia Bool Arith Sorting.Permutation.
From Verif Require Import Word Word_Proofs Vec_Model Vec_Proofs Dot_Model Dot_Proofs Dot_Main.
Import ListNotations.
Local Open Scope Z_scope.

Section R.
Context {A A' B : Type} (mul : A -> A' -> B) (add : B -> B -> B) (zA : A) (zA' : A') (zB : B).
Context (add_comm : forall x y, add x y = add y x) (add_assoc : forall x y z, add x (add y z) = add (add x y) z) (add_0 : forall x, add zB x = x) (mul_0 : mul zA zA' = zB).
Notation ACC := (ACC mul add zB).
Notation Inv := (Inv mul add zB).
Notation pre := (pre mul add zB).
Context (N inner row : Z) (mat : list A) (vec : list A') (HN : 0 < N) (Hin : 0 <= inner) (HW : inner + 4 * N < 2 ^ 64) (Hrow : 0 <= row)
  (Xa : row + inner <= zlen mat) (Xb : inner <= zlen vec) (Wa : zlen mat <= 2 ^ 64) (Wb : zlen vec <= 2 ^ 64).

Lemma one_vec_r M acc i s : ACC M N acc -> 0 <= i -> Inv row mat vec M i s -> i + N <= inner ->
  exists a b, loadu mat (row + i) N = Some a /\ loadu vec i N = Some b /\ Inv row mat vec M (i + N) (acc a b s).
Proof.
  intros HA Hi HI Hc. eexists. eexists. split; [apply loadu_ok; lia|]. split; [apply loadu_ok; lia|].
  apply (acc_step mul add zB add_assoc add_0 row mat vec Hrow M N acc i s HA); auto; lia.
Qed.
Lemma init_inv_r M : 0 <= M -> let z := vzero zB M in Inv row mat vec M 0 (z, z, z, z).
Proof. intros HM z. destruct (zero_sums add zB add_0 M HM) as (L & E). split; [exact L|exact E]. Qed.
Lemma single_loop_r M acc i s : ACC M N acc -> 0 <= i <= inner -> Inv row mat vec M i s ->
  exists i' s', run_loop N inner i (fun i s => do a <- loadu mat (row + i) N; do b <- loadu vec i N; Some (acc a b s)) s = Some (i', s') /\
    Inv row mat vec M i' s' /\ i <= i' <= inner /\ inner < i' + N.
Proof.
  intros HA Hi HI. apply (run_loop_ok (fun i s => Inv row mat vec M i s)); auto; [lia|].
  intros j t Hj HJ Hc. destruct (one_vec_r M acc j t HA Hj HJ Hc) as (a & b & -> & -> & J'). cbn [bind]. eexists. split; [reflexivity|exact J'].
Qed.
Lemma finish_r M acc i s : ACC M N acc -> 0 <= i <= inner -> inner < i + N -> Inv row mat vec M i s ->
  exists s', (if wrap 64 (inner - i) =? 0 then Some s else do a <- load_n zA N mat (row + i) (wrap 64 (inner - i)); do v <- load_n zA' N vec i (wrap 64 (inner - i)); Some (acc a v s)) = Some s' /\
    Inv row mat vec M inner s'.
Proof.
  intros HA Hi Hlt HI. rewrite wrap_small by (unfold in_u; lia). destruct (Z.eqb_spec (inner - i) 0) as [C|C].
  { exists s. split; [reflexivity|]. now replace inner with i by lia. }
  destruct (load_n_step mul add zA zA' zB add_comm add_assoc add_0 mul_0 row mat vec Hrow M N acc i (inner - i) s HA) as (a & b & -> & -> & I & _); try lia; auto.
  cbn [bind]. eexists. split; [reflexivity|]. now replace inner with (i + (inner - i)) at 1 by lia.
Qed.
Lemma reduce_r M s : Inv row mat vec M inner s -> dot_reduce add zB s = pre row mat vec inner.
Proof. intros (L & E). now rewrite (reduce_ok add zB add_comm add_assoc add_0 M s L). Qed.
Lemma reduce_r' M s : Inv row mat vec M inner s -> (let '(s0, s1, s2, s3) := s in Some (reduce_sum add zB (vadd add (vadd add s0 s1) (vadd add s2 s3)))) = Some (pre row mat vec inner).
Proof. intros I. rewrite <- (reduce_r M s I). destruct s as (((s0 & s1) & s2) & s3). reflexivity. Qed.

Lemma mv_row4_ok : mv_row4 mul add zA zA' zB N inner mat row vec = Some (pre row mat vec inner).
Proof.
  unfold mv_row4.
  match goal with |- context [run_loop (4 * N) inner 0 ?bb ?ss] =>
    destruct (run_loop_ok (fun i s => Inv row mat vec N i s) (4 * N) inner bb 0 ss) as (i & s & E & P & Hi & Hlt) end; [lia|lia|lia| |apply init_inv_r; lia|].
  - intros i s Hi HI Hc. cbv zeta.
    replace (row + i + 0 * N) with (row + i) by lia. replace (i + 0 * N) with i by lia.
    replace (row + i + 1 * N) with (row + (i + N)) by lia. replace (i + 1 * N) with (i + N) by lia.
    replace (row + i + 2 * N) with (row + (i + N + N)) by lia. replace (i + 2 * N) with (i + N + N) by lia.
    replace (row + i + 3 * N) with (row + (i + N + N + N)) by lia. replace (i + 3 * N) with (i + N + N + N) by lia.
    destruct (one_vec_r N _ i s (acc0_ok mul add zB add_comm add_assoc add_0 N) Hi HI ltac:(lia)) as (a0 & b0 & -> & -> & I0). cbn [bind].
    destruct (one_vec_r N _ (i + N) _ (acc1_ok mul add zB add_comm add_assoc add_0 N) ltac:(lia) I0 ltac:(lia)) as (a1 & b1 & -> & -> & I1). cbn [bind].
    destruct (one_vec_r N _ (i + N + N) _ (acc2_ok mul add zB add_comm add_assoc add_0 N) ltac:(lia) I1 ltac:(lia)) as (a2 & b2 & -> & -> & I2). cbn [bind].
    destruct (one_vec_r N _ (i + N + N + N) _ (acc3_ok mul add zB add_comm add_assoc add_0 N) ltac:(lia) I2 ltac:(lia)) as (a3 & b3 & -> & -> & I3). cbn [bind].
    eexists. split; [reflexivity|]. now replace (i + 4 * N) with (i + N + N + N + N) by lia.
  - rewrite E. cbn [bind]. destruct (single_loop_r N _ i s (acc0_ok mul add zB add_comm add_assoc add_0 N) ltac:(lia) P) as (i' & s' & -> & P' & Hi' & Hlt'). cbn [bind]. cbv zeta.
    destruct (finish_r N _ i' s' (acc1_ok mul add zB add_comm add_assoc add_0 N) ltac:(lia) Hlt' P') as (s2 & -> & P2). cbn [bind]. now apply (reduce_r' N).
Qed.
Lemma mv_row4_mixed_ok : mv_row4_mixed mul add zA zA' zB N inner mat row vec = Some (pre row mat vec inner).
Proof.
  unfold mv_row4_mixed.
  match goal with |- context [run_loop (4 * N) inner 0 ?bb ?ss] =>
    destruct (run_loop_ok (fun i s => Inv row mat vec N i s) (4 * N) inner bb 0 ss) as (i & s & E & P & Hi & Hlt) end; [lia|lia|lia| |apply init_inv_r; lia|].
  - intros i s Hi HI Hc. cbv zeta.
    replace (row + i + 0 * N) with (row + i) by lia. replace (i + 0 * N) with i by lia. replace (i + 1 * N) with (i + N) by lia.
    replace (row + i + 2 * N) with (row + i + N + N) by lia. replace (i + 2 * N) with (i + N + N) by lia. replace (i + 3 * N) with (i + N + N + N) by lia.
    rewrite (loadu_ok mat (row + i) (2 * N)), (loadu_ok mat (row + i + N + N) (2 * N)) by lia. cbn [bind].
    destruct (upper_window mat (row + i) N ltac:(lia) ltac:(lia)) as (W1 & W2). destruct (upper_window mat (row + i + N + N) N ltac:(lia) ltac:(lia)) as (W3 & W4).
    destruct (one_vec_r N _ i s (acc0_ok mul add zB add_comm add_assoc add_0 N) Hi HI ltac:(lia)) as (a0 & b0 & L0 & -> & I0). cbn [bind].
    destruct (one_vec_r N _ (i + N) _ (acc1_ok mul add zB add_comm add_assoc add_0 N) ltac:(lia) I0 ltac:(lia)) as (a1 & b1 & L1 & -> & I1). cbn [bind].
    destruct (one_vec_r N _ (i + N + N) _ (acc2_ok mul add zB add_comm add_assoc add_0 N) ltac:(lia) I1 ltac:(lia)) as (a2 & b2 & L2 & -> & I2). cbn [bind].
    destruct (one_vec_r N _ (i + N + N + N) _ (acc3_ok mul add zB add_comm add_assoc add_0 N) ltac:(lia) I2 ltac:(lia)) as (a3 & b3 & L3 & -> & I3). cbn [bind].
    rewrite W1, W2, W3, W4. replace (row + (i + N)) with (row + i + N) in L1 by lia. replace (row + (i + N + N)) with (row + i + N + N) in L2 by lia.
    replace (row + (i + N + N + N)) with (row + i + N + N + N) in L3 by lia.
    rewrite loadu_ok in L0, L1, L2, L3 by lia. injection L0 as ->. injection L1 as ->. injection L2 as ->. injection L3 as ->.
    eexists. split; [reflexivity|]. now replace (i + 4 * N) with (i + N + N + N + N) by lia.
  - cbv zeta. rewrite E. cbn [bind]. destruct (single_loop_r N _ i s (acc0_ok mul add zB add_comm add_assoc add_0 N) ltac:(lia) P) as (i' & s' & -> & P' & Hi' & Hlt'). cbn [bind]. cbv zeta.
    destruct (finish_r N _ i' s' (acc1_ok mul add zB add_comm add_assoc add_0 N) ltac:(lia) Hlt' P') as (s2 & -> & P2). cbn [bind]. now apply (reduce_r' N).
Qed.
Lemma mv_row4_widen_ok M rw : 0 <= M -> RW mul add zB M N rw -> mv_row4_widen add zA zA' zB rw M N inner mat row vec = Some (pre row mat vec inner).
Proof.
  intros HM HR. unfold mv_row4_widen.
  pose proof (rw01_ok mul add zB add_comm add_assoc M N rw HR) as R01. pose proof (rw23_ok mul add zB add_assoc M N rw HR) as R23.
  match goal with |- context [run_loop (2 * N) inner 0 ?bb ?ss] =>
    destruct (run_loop_ok (fun i s => Inv row mat vec M i s) (2 * N) inner bb 0 ss) as (i & s & E & P & Hi & Hlt) end; [lia|lia|lia| |apply init_inv_r; lia|].
  - intros i s Hi HI Hc. cbv zeta.
    replace (row + i + 0 * N) with (row + i) by lia. replace (i + 0 * N) with i by lia.
    replace (row + i + 1 * N) with (row + (i + N)) by lia. replace (i + 1 * N) with (i + N) by lia.
    destruct (one_vec_r M _ i s R01 Hi HI ltac:(lia)) as (a0 & b0 & -> & -> & I0).
    destruct (one_vec_r M _ (i + N) _ R23 ltac:(lia) I0 ltac:(lia)) as (a1 & b1 & -> & -> & I1). cbn [bind].
    eexists. split; [reflexivity|]. now replace (i + 2 * N) with (i + N + N) by lia.
  - rewrite E. cbn [bind]. destruct (single_loop_r M _ i s R01 ltac:(lia) P) as (i' & s' & -> & P' & Hi' & Hlt'). cbn [bind]. cbv zeta.
    destruct (finish_r M _ i' s' R23 ltac:(lia) Hlt' P') as (s2 & -> & P2). cbn [bind]. now rewrite (reduce_r M s2 P2).
Qed.
(** the one-accumulator loops: embed into the four sums *)
Lemma mv_row1_ok : mv_row1 mul add zA zA' zB N inner mat row vec = Some (pre row mat vec inner).
Proof.
  unfold mv_row1. set (IV := fun i s => zlen s = N /\ reduce_sum add zB s = pre row mat vec i).
  assert (STEP : forall a b s, zlen a = N -> zlen b = N -> zlen s = N -> zlen (mul_add mul add a b s) = N /\ reduce_sum add zB (mul_add mul add a b s) = add (reduce_sum add zB s) (mulsum mul add zB a b)).
  { intros a b s H1 H2 H3. unfold zlen in *. destruct (mul_add_total mul add zB add_comm add_assoc add_0 a b s ltac:(lia) ltac:(lia)) as (L & T). rewrite L. auto. }
  match goal with |- context [run_loop N inner 0 ?bb ?ss] =>
    destruct (run_loop_ok IV N inner bb 0 ss) as (i & s & E & (PL & PE) & Hi & Hlt) end; [lia|lia|lia| | |].
  - intros i s Hi (HL & HE) Hc. rewrite (loadu_ok mat (row + i) N), (loadu_ok vec i N) by lia. cbn [bind]. eexists. split; [reflexivity|].
    destruct (STEP (firstn (Z.to_nat N) (skipn (Z.to_nat (row + i)) mat)) (firstn (Z.to_nat N) (skipn (Z.to_nat i) vec)) s) as (L & T); [apply zlen_window; lia|apply zlen_window; lia|exact HL|].
    split; [exact L|]. rewrite T, HE. symmetry. apply (pre_add mul add zB add_assoc add_0); lia.
  - split; [unfold vzero, zlen; rewrite repeat_length; lia|]. unfold vzero. now rewrite total_zero.
  - rewrite E. cbn [bind]. cbv zeta. rewrite wrap_small by (unfold in_u; lia). destruct (Z.eqb_spec (inner - i) 0) as [C|C].
    + cbn [bind]. rewrite PE. now replace inner with i by lia.
    + destruct (load_n_step mul add zA zA' zB add_comm add_assoc add_0 mul_0 row mat vec Hrow N N (acc0 mul add) i (inner - i) (s, vzero zB N, vzero zB N, vzero zB N)) as (a & b & -> & -> & _ & La & Lb & EQ); try lia; auto.
      * now apply acc0_ok.
      * split; [cbn [LEN]; unfold vzero, zlen in *; rewrite repeat_length; lia|]. cbn [SUM]. unfold vzero. rewrite !total_zero by auto. rewrite PE, add_0. rewrite !(add_comm _ zB), !add_0. reflexivity.
      * cbn [bind]. destruct (STEP a b s La Lb PL) as (_ & T). rewrite T, EQ, PE. f_equal. replace inner with (i + (inner - i)) at 3 by lia. symmetry. apply (pre_add mul add zB add_assoc add_0); lia.
Qed.
Lemma mv_row1_widen_ok M rw : 0 <= M -> RW mul add zB M N rw -> mv_row1_widen add zA zA' zB rw M N inner mat row vec = Some (pre row mat vec inner).
Proof.
  intros HM HR. unfold mv_row1_widen. set (IV := fun i (s : list B * list B) => zlen (fst s) = M /\ zlen (snd s) = M /\ add (reduce_sum add zB (fst s)) (reduce_sum add zB (snd s)) = pre row mat vec i).
  match goal with |- context [run_loop N inner 0 ?bb ?ss] =>
    destruct (run_loop_ok IV N inner bb 0 ss) as (i & (s0 & s1) & E & (PL & PL1 & PE) & Hi & Hlt) end; [lia|lia|lia| | |].
  - intros i (s0 & s1) Hi (HL & HL1 & HE) Hc. rewrite (loadu_ok mat (row + i) N), (loadu_ok vec i N) by lia. cbn [bind fst snd] in *. eexists. split; [reflexivity|].
    specialize (HR (firstn (Z.to_nat N) (skipn (Z.to_nat (row + i)) mat)) (firstn (Z.to_nat N) (skipn (Z.to_nat i) vec)) s0 s1 ltac:(apply zlen_window; lia) ltac:(apply zlen_window; lia) HL HL1).
    destruct (rw _ _ s0 s1) as (t0 & t1). destruct HR as (T0 & T1 & T). split; [exact T0|]. split; [exact T1|]. cbn [fst snd]. rewrite T, HE. symmetry. apply (pre_add mul add zB add_assoc add_0); lia.
  - unfold IV. cbn [fst snd]. unfold vzero, zlen. rewrite repeat_length, total_zero by auto. rewrite add_0. split; [lia|]. split; [lia|reflexivity].
  - rewrite E. cbn [bind fst snd] in *. cbv zeta.
    assert (FIN : forall t0 t1, zlen t0 = M -> zlen t1 = M -> reduce_sum add zB (vadd add t0 t1) = add (reduce_sum add zB t0) (reduce_sum add zB t1)).
    { intros t0 t1 L0 L1. unfold zlen in *. destruct (vadd_total add zB add_comm add_assoc add_0 t0 t1 ltac:(lia)) as (_ & T). exact T. }
    rewrite wrap_small by (unfold in_u; lia). destruct (Z.eqb_spec (inner - i) 0) as [C|C].
    + cbn [bind]. rewrite FIN by auto. rewrite PE. now replace inner with i by lia.
    + destruct (load_n_step mul add zA zA' zB add_comm add_assoc add_0 mul_0 row mat vec Hrow M N (rw01 rw) i (inner - i) (s0, s1, vzero zB M, vzero zB M)) as (a & b & -> & -> & _ & La & Lb & EQ); try lia; auto.
      * now apply rw01_ok.
      * split; [cbn [LEN]; unfold vzero, zlen in *; rewrite repeat_length; lia|]. cbn [SUM]. unfold vzero. rewrite !total_zero by auto. rewrite PE, add_0. rewrite !(add_comm _ zB), !add_0. reflexivity.
      * cbn [bind]. specialize (HR a b s0 s1 La Lb PL PL1). destruct (rw a b s0 s1) as (t0 & t1). destruct HR as (T0 & T1 & T). cbn [bind].
        rewrite FIN by auto. rewrite T, EQ, PE. f_equal. replace inner with (i + (inner - i)) at 3 by lia. symmetry. apply (pre_add mul add zB add_assoc add_0); lia.
Qed.
End R.

(** ** the whole product *)
Lemma ne_skipn {T} n : forall (l : list T) i, nth_error (skipn n l) i = nth_error l (n + i).
Proof. induction n; intros [|x l] i; cbn [skipn Nat.add nth_error]; auto. now destruct i. Qed.
Lemma ne_firstn {T} n : forall (l : list T) i, (i < n)%nat -> nth_error (firstn n l) i = nth_error l i.
Proof. induction n; intros [|x l] [|i] H; cbn [firstn nth_error]; auto; try lia. apply IHn. lia. Qed.
Section M.
Context {B : Type} (add_scalar : B -> B -> B) (row_in row_out : Z -> option B) (val : Z -> B).
Context (N M misalign chunk outer : Z) (addv : option (list B)).
Definition fin (r : Z) (x : B) : B := match addv with None => x | Some l => match rd l r with Some y => add_scalar x y | None => x end end.
Context (HM : 0 < M) (Hdiv : (M | chunk)) (Hchunk : 0 < chunk) (HNc : N <= chunk) (Hal : misalign mod M = 0) (Hout : 0 <= outer) (Hadd : forall l, addv = Some l -> outer <= zlen l)
  (HIn : forall r, 0 <= r < outer -> row_in r = Some (val r)) (HOut : forall r, 0 <= r < outer -> row_out r = Some (val r)).

Lemma finish_ok r : 0 <= r < outer -> mv_finish add_scalar addv r (val r) = Some (fin r (val r)).
Proof.
  intros Hr. unfold mv_finish, fin. destruct addv as [l|]; [|reflexivity]. specialize (Hadd l eq_refl). unfold rd. destruct (Z.ltb_spec r 0); [lia|].
  destruct (nth_error l (Z.to_nat r)) eqn:E; [reflexivity|]. apply nth_error_None in E. unfold zlen in *. lia.
Qed.
Lemma mapM_some {X Y} (f : X -> option Y) (g : X -> Y) l : (forall x, In x l -> f x = Some (g x)) -> mapM f l = Some (map g l).
Proof. induction l as [|x l IH]; intros H; [reflexivity|]. cbn [mapM map]. rewrite (H x) by now left. cbn [bind]. rewrite IH by (intros; apply H; now right). reflexivity. Qed.
Definition upd (out : list B) (b n : Z) (k : Z) (old : B) : B := if (b <=? k) && (k <? b + n) then fin k (val k) else old.
(** [agree out out']: same length, and out' differs from out only at [lo, hi), where it has the result *)
Definition wrote (lo hi : Z) (out out' : list B) : Prop := length out' = length out /\
  forall k, 0 <= k < zlen out -> rd out' k = if (lo <=? k) && (k <? hi) then Some (fin k (val k)) else rd out k.
Lemma rd_storeu (l v l' : list B) off : storeu l off v = Some l' -> 0 <= off -> length l' = length l /\ forall k, 0 <= k < zlen l -> rd l' k = if (off <=? k) && (k <? off + zlen v) then rd v (k - off) else rd l k.
Proof.
  unfold storeu. destruct (Z.leb_spec 0 off); [|discriminate]. destruct (Z.leb_spec (off + zlen v) (zlen l)) as [C|C]; [|discriminate]. cbn [andb]. intros [= <-] _.
  unfold zlen in *. split; [rewrite !app_length, firstn_length, skipn_length; lia|]. intros k Hk. unfold rd. destruct (Z.ltb_spec k 0); [lia|].
  destruct (Z.leb_spec off k) as [C1|C1]; cbn [andb].
  - destruct (Z.ltb_spec k (off + Z.of_nat (length v))) as [C2|C2].
    + destruct (Z.ltb_spec (k - off) 0); [lia|]. rewrite nth_error_app2 by (rewrite firstn_length; lia). rewrite firstn_length.
      rewrite nth_error_app1 by lia. f_equal. lia.
    + rewrite nth_error_app2 by (rewrite firstn_length; lia). rewrite firstn_length. rewrite nth_error_app2 by lia.
      rewrite ne_skipn. f_equal. lia.
  - rewrite nth_error_app1 by (rewrite firstn_length; lia). apply ne_firstn. lia.
Qed.
Lemma wrote_trans lo mid hi a b c : lo <= mid <= hi -> wrote lo mid a b -> wrote mid hi b c -> wrote lo hi a c.
Proof.
  intros H (L1 & R1) (L2 & R2). split; [congruence|]. intros k Hk. rewrite R2 by (unfold zlen in *; lia). rewrite R1 by lia.
  destruct (Z.leb_spec lo k), (Z.leb_spec mid k), (Z.ltb_spec k mid), (Z.ltb_spec k hi); cbn [andb]; try reflexivity; lia.
Qed.
Lemma wrote_refl b out : wrote b b out out.
Proof. split; [reflexivity|]. intros k Hk. destruct (Z.leb_spec b k), (Z.ltb_spec k b); cbn [andb]; try reflexivity; lia. Qed.

Lemma stream_loop_ok begin buf : 0 <= begin -> (M | begin) -> zlen buf = chunk -> (forall k, 0 <= k < chunk -> rd buf k = Some (fin (begin + k) (val (begin + k)))) ->
  forall fuel i out, 0 <= i <= chunk -> (M | i) -> chunk - i < Z.of_nat fuel -> begin + chunk <= zlen out ->
  exists out', stream_loop fuel M misalign chunk begin i buf out = Some out' /\ wrote (begin + i) (begin + chunk) out out'.
Proof.
  intros Hb Db Lb HB. induction fuel as [|f IH]; intros i out Hi Di Hf Ho; [lia|]. cbn [stream_loop]. destruct (Z.eqb_spec i chunk) as [->|NE].
  { exists out. split; [reflexivity|apply wrote_refl]. }
  assert (HiM : i + M <= chunk).
  { destruct Di as (p & ->). destruct Hdiv as (q & Eq). assert (p < q) by nia. nia. }
  rewrite (loadu_ok buf i M) by lia. cbn [bind]. unfold stream.
  assert (EM : (misalign + (begin + i)) mod M = 0).
  { apply Z.mod_divide; [lia|]. apply Z.divide_add_r; [apply Z.mod_divide; lia|]. now apply Z.divide_add_r. }
  rewrite EM. cbn [Z.eqb]. set (v := firstn (Z.to_nat M) (skipn (Z.to_nat i) buf)). assert (Lv : zlen v = M) by (apply zlen_window; lia).
  destruct (storeu out (begin + i) v) as [out1|] eqn:ES.
  2: { unfold storeu in ES. rewrite Lv in ES. destruct (Z.leb_spec 0 (begin + i)); [|lia]. destruct (Z.leb_spec (begin + i + M) (zlen out)); [discriminate|lia]. }
  cbn [bind]. destruct (rd_storeu _ _ _ _ ES ltac:(lia)) as (L1 & R1).
  destruct (IH (i + M) out1) as (out' & E & W); [lia|apply Z.divide_add_r; [exact Di|apply Z.divide_refl]|lia|unfold zlen in *; lia|].
  exists out'. split; [exact E|]. apply (wrote_trans (begin + i) (begin + (i + M)) (begin + chunk) out out1 out'); [lia| |exact W].
  split; [exact L1|]. intros k Hk. rewrite R1 by lia. rewrite Lv. replace (begin + i + M) with (begin + (i + M)) by lia.
  destruct ((begin + i <=? k) && (k <? begin + (i + M))) eqn:EC; [|reflexivity]. apply andb_true_iff in EC as (C1 & C2). apply Z.leb_le in C1. apply Z.ltb_lt in C2.
  replace k with (begin + (k - begin)) at 2 3 by lia. rewrite <- HB by lia. unfold rd. destruct (Z.ltb_spec (k - (begin + i)) 0); [lia|]. destruct (Z.ltb_spec (k - begin) 0); [lia|].
  unfold v. rewrite ne_firstn, ne_skipn by lia. f_equal. lia.
Qed.
Lemma mv_task_ok c out : 0 <= c < outer / chunk -> outer <= zlen out ->
  exists out', mv_task add_scalar row_in M misalign chunk addv out c = Some out' /\ wrote (c * chunk) (c * chunk + chunk) out out'.
Proof.
  intros Hc Ho. assert (HB : c * chunk + chunk <= outer).
  { pose proof (Z.mul_div_le outer chunk ltac:(lia)). nia. }
  unfold mv_task. cbv zeta.
  erewrite (mapM_some _ (fun idx => fin (c * chunk + Z.of_nat idx) (val (c * chunk + Z.of_nat idx)))).
  2: { intros x Hx. apply in_seq in Hx. rewrite HIn by lia. cbn [bind]. apply finish_ok. lia. }
  cbn [bind]. destruct (stream_loop_ok (c * chunk) (map (fun idx => fin (c * chunk + Z.of_nat idx) (val (c * chunk + Z.of_nat idx))) (seq 0 (Z.to_nat chunk)))) with (fuel := S (Z.to_nat chunk)) (i := 0) (out := out) as (out' & E & W).
  - nia.
  - now apply Z.divide_mul_r.
  - unfold zlen. rewrite map_length, seq_length. lia.
  - intros k Hk. unfold rd. destruct (Z.ltb_spec k 0); [lia|]. rewrite nth_error_map.
    assert (ES : nth_error (seq 0 (Z.to_nat chunk)) (Z.to_nat k) = Some (Z.to_nat k)).
    { rewrite (nth_error_nth' _ 0%nat) by (rewrite seq_length; lia). rewrite seq_nth by lia. reflexivity. }
    rewrite ES. cbn [option_map]. now rewrite Z2Nat.id by lia.
  - lia.
  - apply Z.divide_0_r.
  - lia.
  - lia.
  - exists out'. split; [exact E|]. now rewrite Z.add_0_r in W.
Qed.
Lemma tasks_ok order : forall out, NoDup order -> (forall c, In c order -> 0 <= c < outer / chunk) -> outer <= zlen out ->
  exists out', foldM (fun out c => mv_task add_scalar row_in M misalign chunk addv out c) order out = Some out' /\ length out' = length out /\
    forall k, 0 <= k < zlen out -> rd out' k = if existsb (fun c => (c * chunk <=? k) && (k <? c * chunk + chunk)) order then Some (fin k (val k)) else rd out k.
Proof.
  induction order as [|c order IH]; intros out ND HC Ho; cbn [foldM existsb]; [exists out; auto|].
  destruct (mv_task_ok c out (HC c (or_introl eq_refl)) Ho) as (o1 & -> & L1 & R1). cbn [bind]. inversion ND; subst.
  destruct (IH o1) as (o2 & E2 & L2 & R2); [assumption|intros; apply HC; now right|unfold zlen in *; lia|].
  exists o2. split; [exact E2|]. split; [congruence|]. intros k Hk. rewrite R2 by (unfold zlen in *; lia). rewrite R1 by lia.
  destruct ((c * chunk <=? k) && (k <? c * chunk + chunk)); cbn [orb]; [|reflexivity]. now destruct (existsb _ order).
Qed.
Lemma rest_ok base n : forall s out, 0 <= base -> base + Z.of_nat s + Z.of_nat n <= outer -> outer <= zlen out ->
  exists out', foldM (fun out k => let r := base + Z.of_nat k in do x <- row_out r; do x <- mv_finish add_scalar addv r x; wr out r x) (seq s n) out = Some out' /\
    wrote (base + Z.of_nat s) (base + Z.of_nat s + Z.of_nat n) out out'.
Proof.
  induction n as [|n IH]; intros s out Hb Hs Ho; cbn [seq foldM].
  { exists out. split; [reflexivity|]. replace (base + Z.of_nat s + Z.of_nat 0) with (base + Z.of_nat s) by lia. apply wrote_refl. }
  cbv zeta. rewrite HOut by lia. cbn [bind]. rewrite finish_ok by lia. cbn [bind]. set (r := base + Z.of_nat s). unfold wr.
  destruct (Z.leb_spec 0 r); [|lia]. destruct (Z.ltb_spec r (zlen out)); [|lia]. cbn [andb bind].
  set (o1 := firstn (Z.to_nat r) out ++ fin r (val r) :: skipn (S (Z.to_nat r)) out).
  assert (L1 : length o1 = length out) by (unfold o1, zlen in *; rewrite app_length, firstn_length; cbn [length]; rewrite skipn_length; lia).
  assert (W1 : wrote r (r + 1) out o1).
  { split; [exact L1|]. intros k Hk. unfold rd. destruct (Z.ltb_spec k 0); [lia|]. unfold o1, zlen in *. destruct (Z.leb_spec r k) as [C|C]; cbn [andb].
    - rewrite nth_error_app2 by (rewrite firstn_length; lia). rewrite firstn_length. destruct (Z.ltb_spec k (r + 1)).
      + replace (Z.to_nat k - Nat.min (Z.to_nat r) (length out))%nat with 0%nat by lia. cbn [nth_error]. now replace k with r by lia.
      + replace (Z.to_nat k - Nat.min (Z.to_nat r) (length out))%nat with (S (Z.to_nat k - S (Z.to_nat r)))%nat by lia. cbn [nth_error].
        rewrite ne_skipn. f_equal. lia.
    - rewrite nth_error_app1 by (rewrite firstn_length; lia). apply ne_firstn. lia. }
  destruct (IH (S s) o1) as (o2 & E2 & W2); [lia|lia|unfold zlen in *; lia|]. exists o2. split; [exact E2|].
  replace (base + Z.of_nat (S s)) with (r + 1) in W2 by (unfold r; lia). apply (wrote_trans r (r + 1) _ out o1 o2); [lia|exact W1|].
  replace (r + Z.of_nat (S n)) with (r + 1 + Z.of_nat n) by lia. exact W2.
Qed.
Theorem mat_vec_ok order out : Permutation order (map Z.of_nat (seq 0 (Z.to_nat (outer / chunk)))) -> outer <= zlen out ->
  exists out', mat_vec add_scalar row_in row_out N M misalign chunk outer addv order out = Some out' /\ wrote 0 outer out out'.
Proof.
  intros HP Ho. unfold mat_vec. cbv zeta. destruct (Z.ltb_spec chunk N); [lia|].
  assert (HC : forall c, In c order <-> 0 <= c < outer / chunk).
  { intros c. split.
    - intros Hc. apply (Permutation_in _ HP) in Hc. apply in_map_iff in Hc as (n & <- & Hn). apply in_seq in Hn. lia.
    - intros Hc. apply (Permutation_in _ (Permutation_sym HP)). apply in_map_iff. exists (Z.to_nat c). split; [lia|]. apply in_seq. lia. }
  assert (ND : NoDup order).
  { apply (Permutation_NoDup (Permutation_sym HP)). apply FinFun.Injective_map_NoDup; [intros x y; lia|apply seq_NoDup]. }
  destruct (tasks_ok order out ND (fun c Hc => proj1 (HC c) Hc) Ho) as (o1 & -> & L1 & R1). cbn [bind].
  pose proof (Z.mul_div_le outer chunk ltac:(lia)) as MD. pose proof (Z.div_pos outer chunk ltac:(lia) ltac:(lia)) as DP.
  destruct (rest_ok (outer / chunk * chunk) (Z.to_nat (outer - outer / chunk * chunk)) 0 o1) as (o2 & E2 & (L2 & R2)); [nia|nia|unfold zlen in *; lia|].
  exists o2. split; [exact E2|]. split; [congruence|]. intros k Hk. rewrite R2 by (unfold zlen in *; lia). rewrite R1 by lia.
  replace (outer / chunk * chunk + Z.of_nat 0) with (outer / chunk * chunk) by lia. replace (outer / chunk * chunk + Z.of_nat (Z.to_nat (outer - outer / chunk * chunk))) with outer by nia.
  destruct (Z.leb_spec 0 k); [|lia]. destruct (Z.ltb_spec k outer) as [C|C]; cbn [andb].
  - destruct (Z.leb_spec (outer / chunk * chunk) k) as [C1|C1]; cbn [andb]; [reflexivity|].
    assert (X : existsb (fun c => (c * chunk <=? k) && (k <? c * chunk + chunk)) order = true).
    { apply existsb_exists. exists (k / chunk). pose proof (Z.div_mod k chunk ltac:(lia)). pose proof (Z.mod_pos_bound k chunk ltac:(lia)). split.
      - apply HC. split; [apply Z.div_pos; lia|]. apply Z.div_lt_upper_bound; lia.
      - apply andb_true_iff. split; [apply Z.leb_le|apply Z.ltb_lt]; nia. }
    now rewrite X.
  - rewrite andb_false_r. assert (X : existsb (fun c => (c * chunk <=? k) && (k <? c * chunk + chunk)) order = false).
    { apply not_true_is_false. intros X. apply existsb_exists in X as (c & Hc & X). apply HC in Hc. apply andb_true_iff in X as (X1 & X2). apply Z.leb_le in X1. apply Z.ltb_lt in X2. nia. }
    now rewrite X.
Qed.
End M.
