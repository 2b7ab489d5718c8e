(** The Dot::Compute overloads and the MatVec rows compute the sum of products. *)
From Coq Require Import ZArith List Lia Bool Arith.
From Verif Require Import Word Word_Proofs Vec_Model Vec_Proofs Dot_Model Dot_Proofs.
Import ListNotations.
Local Open Scope Z_scope.

Section D.
Context {A A' B : Type} (mul : A -> A' -> B) (add : B -> B -> B) (zA : A) (zA' : A') (zB : B).
Context (add_comm : forall x y, add x y = add y x) (add_assoc : forall x y z, add x (add y z) = add (add x y) z) (add_0 : forall x, add zB x = x) (mul_0 : mul zA zA' = zB).
Notation mulsum := (mulsum mul add zB).
Notation ACC := (ACC mul add zB).
Notation Inv := (Inv mul add zB).
Notation pre := (pre mul add zB).

(** what has to be accessible *)
Definition extent (pd : bool) (N num : Z) : Z := if pd then (num + N - 1) / N * N else num.
Lemma extent_ge pd N num : 0 < N -> 0 <= num -> num <= extent pd N num.
Proof.
  intros HN Hn. unfold extent. destruct pd; [|lia]. pose proof (Z.div_mod (num + N - 1) N ltac:(lia)). pose proof (Z.mod_pos_bound (num + N - 1) N ltac:(lia)). lia.
Qed.
Lemma extent_pad N num i : 0 < N -> i <= num -> i mod N = 0 -> num < i + N -> i <> num -> i + N <= extent true N num.
Proof.
  intros HN Hi Hm Hlt Hne. unfold extent. assert (E : i = N * (i / N)) by (pose proof (Z.div_mod i N ltac:(lia)); lia). set (q := i / N) in *.
  assert (q + 1 <= (num + N - 1) / N) by (apply Z.div_le_lower_bound; nia). nia.
Qed.

Section Fix.
Context (M N num : Z) (pa : list A) (pb : list A') (HN : 0 < N) (Hnum : 0 <= num) (HW : num + 4 * N < 2 ^ 64).
Notation INV := (fun i s => i mod N = 0 /\ Inv 0 pa pb M i s).

Lemma pre_full : pre 0 pa pb num = mulsum (firstn (Z.to_nat num) pa) (firstn (Z.to_nat num) pb). Proof. reflexivity. Qed.
Lemma mod_add i : i mod N = 0 -> (i + N) mod N = 0.
Proof. intros H. rewrite <- (Z.mul_1_l N) at 1. now rewrite Z.mod_add by lia. Qed.

Lemma dot_tail_ok mu pd acc i s : ACC M N acc -> (mu = true -> num mod N = 0) -> (mu = false -> pd = false -> N <= num) ->
  extent pd N num <= zlen pa -> extent pd N num <= zlen pb -> 0 <= i <= num -> num < i + N -> INV i s ->
  exists s', dot_tail zA zA' mu pd N num i pa pb acc s = Some s' /\ Inv 0 pa pb M num s'.
Proof.
  intros HA HM HP Xa Xb Hi Hlt (Hm & HI).
  pose proof (extent_ge pd N num HN Hnum) as XG. unfold dot_tail. destruct mu.
  { specialize (HM eq_refl). exists s. split; [reflexivity|]. replace num with i; [exact HI|].
    pose proof (Z.div_mod num N ltac:(lia)) as D1. pose proof (Z.div_mod i N ltac:(lia)) as D2. rewrite HM in D1. rewrite Hm in D2. set (q := num / N) in *. set (p := i / N) in *. assert (q < p + 1) by nia. assert (p <= q) by nia. assert (p = q) by lia. nia. }
  rewrite wrap_small by (unfold in_u; lia). destruct (Z.eqb_spec (num - i) 0) as [C|C].
  { exists s. split; [reflexivity|]. now replace num with i by lia. }
  destruct pd.
  - pose proof (extent_pad N num i HN ltac:(lia) Hm Hlt ltac:(lia)) as XP.
    rewrite (loadu_ok pa i N), (loadu_ok pb i N) by lia. cbn [bind]. eexists. split; [reflexivity|].
    set (k := num - i). replace num with (i + k) by (unfold k; lia).
    rewrite !keep_first_eq by (try apply zlen_window; unfold k in *; lia).
    eapply (tail_step mul add zB add_assoc add_0 0 pa pb ltac:(lia) M N acc i k); auto; try (unfold k; lia).
    + rewrite zlen_app. rewrite (zlen_firstn _ k) by (rewrite zlen_window by lia; unfold k; lia). unfold zlen. rewrite repeat_length. unfold k. lia.
    + rewrite zlen_app. rewrite (zlen_firstn _ k) by (rewrite zlen_window by lia; unfold k; lia). unfold zlen. rewrite repeat_length. unfold k. lia.
    + rewrite !firstn_firstn. replace (Nat.min (Z.to_nat k) (Z.to_nat N)) with (Z.to_nat k) by (unfold k; lia).
      rewrite (mulsum_app mul add zB add_assoc add_0) by (unfold zlen in *; rewrite !firstn_length, !skipn_length; unfold k; lia).
      destruct (mulsum_zero mul add zA zA' zB add_0 mul_0 [] [] (Z.to_nat (N - k))) as (_ & ->). now rewrite (add_comm _ zB), add_0.
  - specialize (HP eq_refl eq_refl). unfold extent in Xa, Xb.
    destruct (Z.ltb_spec i N) as [C1|C1]; [exfalso; assert (i = 0) by (rewrite <- Hm; symmetry; apply Z.mod_small; lia); lia|].
    rewrite wrap_small by (unfold in_u; lia). set (j := i + (num - i - N)). rewrite (loadu_ok pa j N), (loadu_ok pb j N) by (unfold j; lia). cbn [bind].
    eexists. split; [reflexivity|]. set (k := num - i). replace num with (i + k) at 1 by (unfold k; lia).
    rewrite !zero_first_eq by (try apply zlen_window; unfold j, k in *; lia).
    assert (W : forall T (l : list T), num <= zlen l -> skipn (Z.to_nat (N - k)) (firstn (Z.to_nat N) (skipn (Z.to_nat j) l)) = firstn (Z.to_nat k) (skipn (Z.to_nat i) l)).
    { intros T l Hl. rewrite skipn_firstn_comm, skipn_add. f_equal; [unfold k; lia|f_equal; unfold j, k; lia]. }
    rewrite !W by lia.
    eapply (tail_step mul add zB add_assoc add_0 0 pa pb ltac:(lia) M N acc i k); auto; try (unfold k; lia).
    + rewrite zlen_app, zlen_window by (unfold k; lia). unfold zlen. rewrite repeat_length. unfold k. lia.
    + rewrite zlen_app, zlen_window by (unfold k; lia). unfold zlen. rewrite repeat_length. unfold k. lia.
    + rewrite (mulsum_app mul add zB add_assoc add_0) by (rewrite !repeat_length; lia).
      destruct (mulsum_zero mul add zA zA' zB add_0 mul_0 [] [] (Z.to_nat (N - k))) as (_ & ->). now rewrite add_0.
Qed.

Lemma rd_nth {T} (l : list T) i : 0 <= i < zlen l -> exists x, rd l i = Some x /\ firstn 1 (skipn (Z.to_nat i) l) = [x].
Proof.
  intros H. unfold rd. destruct (Z.ltb_spec i 0); [lia|]. unfold zlen in H. destruct (nth_error l (Z.to_nat i)) as [x|] eqn:E; [|apply nth_error_None in E; lia].
  exists x. split; [reflexivity|]. apply nth_error_split in E as (l1 & l2 & -> & L). rewrite skipn_app, <- L, Nat.sub_diag, skipn_all. reflexivity.
Qed.
Lemma pre_one i : 0 <= i -> i < zlen pa -> i < zlen pb -> exists x y, rd pa i = Some x /\ rd pb i = Some y /\ pre 0 pa pb (i + 1) = add (pre 0 pa pb i) (mul x y).
Proof.
  intros Hi Ha Hb. destruct (rd_nth pa i ltac:(lia)) as (x & Ex & Fx). destruct (rd_nth pb i ltac:(lia)) as (y & Ey & Fy).
  exists x, y. split; [exact Ex|]. split; [exact Ey|]. rewrite (pre_add mul add zB add_assoc add_0 0 pa pb ltac:(lia) i 1) by lia.
  change (Z.to_nat 1) with 1%nat. change (0 + i) with i. rewrite Fx, Fy. unfold Dot_Proofs.mulsum, reduce_sum. cbn. now rewrite (add_comm (mul x y) zB), add_0.
Qed.
Lemma dot_scalar_ok : num <= zlen pa -> num <= zlen pb -> num + 2 < 2 ^ 64 -> dot_scalar mul add zB num pa pb = Some (pre 0 pa pb num).
Proof.
  intros Ha Hb Hw. unfold dot_scalar.
  match goal with |- context [run_loop 2 num 0 ?bb ?ss] =>
    destruct (run_loop_ok (fun i s => add (fst s) (snd s) = pre 0 pa pb i) 2 num bb 0 ss) as (i & (s0 & s1) & E & P & Hi & Hlt) end; [lia|lia|lia| | |].
  - intros i (s0 & s1) Hi HP Hc. cbn [fst snd] in HP. destruct (pre_one i Hi ltac:(lia) ltac:(lia)) as (x & y & Ex & Ey & E1). destruct (pre_one (i + 1) ltac:(lia) ltac:(lia) ltac:(lia)) as (x' & y' & Ex' & Ey' & E2).
    rewrite Ex, Ey, Ex', Ey'. cbn [bind]. eexists. split; [reflexivity|]. cbn [fst snd]. replace (i + 2) with (i + 1 + 1) by lia. rewrite E2, E1, <- HP.
    rewrite (add_right add add_comm add_assoc s0 (add s1 (mul x' y')) (mul x y)). rewrite (add_assoc s0 s1). now rewrite (add_right add add_comm add_assoc (add s0 s1)).
  - cbn [fst snd]. rewrite add_0. reflexivity.
  - rewrite E. cbn [bind]. cbn [fst snd] in P. destruct (Z.ltb_spec i num) as [C|C].
    + destruct (pre_one i ltac:(lia) ltac:(lia) ltac:(lia)) as (x & y & Ex & Ey & E1). rewrite Ex, Ey. cbn [bind]. replace num with (i + 1) by lia. rewrite E1, <- P. now rewrite add_assoc.
    + cbn [bind]. rewrite P. now replace num with i by lia.
Qed.
Lemma needs_scalar_spec al mu pd : (al = true -> N <= num) -> needs_scalar al mu pd N num = true -> pd = false /\ num < N.
Proof. intros _ H. unfold needs_scalar in H. destruct al, mu, pd; cbn in H; try discriminate. now apply Z.ltb_lt in H. Qed.
Lemma needs_scalar_false al mu pd : (al = true -> N <= num) -> needs_scalar al mu pd N num = false -> mu = false -> pd = false -> N <= num.
Proof. intros HA H -> ->. unfold needs_scalar in H. destruct al; [auto|]. cbn in H. apply Z.ltb_ge in H. exact H. Qed.
End Fix.

Section Top.
Context (N num : Z) (pa : list A) (pb : list A') (al mu pd : bool) (HN : 0 < N) (Hnum : 0 <= num) (HW : num + 4 * N < 2 ^ 64).
Context (Hal : al = true -> N <= num) (Hmu : mu = true -> num mod N = 0) (Xa : extent pd N num <= zlen pa) (Xb : extent pd N num <= zlen pb).

Lemma one_vec M acc i s : ACC M N acc -> 0 <= i -> Inv 0 pa pb M i s -> i + N <= num ->
  exists a b, loadu pa i N = Some a /\ loadu pb i N = Some b /\ Inv 0 pa pb M (i + N) (acc a b s).
Proof.
  intros HA Hi HI Hc. pose proof (extent_ge pd N num HN Hnum).
  eexists. eexists. split; [apply loadu_ok; lia|]. split; [apply loadu_ok; lia|].
  apply (acc_step mul add zB add_assoc add_0 0 pa pb ltac:(lia) M N acc i s HA); auto; lia.
Qed.
Lemma scalar_case : needs_scalar al mu pd N num = true -> dot_scalar mul add zB num pa pb = Some (pre 0 pa pb num).
Proof.
  intros E. destruct (needs_scalar_spec N num al mu pd Hal E) as (-> & L). unfold extent in *. apply dot_scalar_ok; lia.
Qed.
Lemma finish M acc i s : ACC M N acc -> needs_scalar al mu pd N num = false -> 0 <= i <= num -> num < i + N -> i mod N = 0 -> Inv 0 pa pb M i s ->
  (do s <- dot_tail zA zA' mu pd N num i pa pb acc s; Some (dot_reduce add zB s)) = Some (pre 0 pa pb num).
Proof.
  intros HA EN Hi Hlt Hm HI. destruct (dot_tail_ok M N num pa pb HN Hnum HW mu pd acc i s HA Hmu (needs_scalar_false N num al mu pd Hal EN) Xa Xb Hi Hlt (conj Hm HI)) as (s' & -> & L & E). cbn [bind].
  rewrite (reduce_ok add zB add_comm add_assoc add_0 M s' L). now rewrite E.
Qed.
Lemma init_inv M : 0 <= M -> let z := vzero zB M in 0 mod N = 0 /\ Inv 0 pa pb M 0 (z, z, z, z).
Proof. intros HM z. split; [apply Z.mod_0_l; lia|]. destruct (zero_sums add zB add_0 M HM) as (L & E). split; [exact L|]. exact E. Qed.
Lemma single_loop M acc i s : ACC M N acc -> 0 <= i <= num -> i mod N = 0 -> Inv 0 pa pb M i s ->
  exists i' s', run_loop N num i (fun i s => do a <- loadu pa i N; do b <- loadu pb i N; Some (acc a b s)) s = Some (i', s') /\
    (i' mod N = 0 /\ Inv 0 pa pb M i' s') /\ i <= i' <= num /\ num < i' + N.
Proof.
  intros HA Hi Hm HI. apply (run_loop_ok (fun i s => i mod N = 0 /\ Inv 0 pa pb M i s)); auto; [lia|].
  intros j t Hj (Hjm & HJ) Hc. destruct (one_vec M acc j t HA Hj HJ Hc) as (a & b & -> & -> & J'). cbn [bind]. eexists. split; [reflexivity|]. split; [now apply mod_add|exact J'].
Qed.

Theorem dot_compute_ok : dot_compute mul add zA zA' zB al mu pd N num pa pb = Some (pre 0 pa pb num).
Proof.
  unfold dot_compute. destruct (needs_scalar al mu pd N num) eqn:EN; [now apply scalar_case|].
  match goal with |- context [run_loop (4 * N) num 0 ?bb ?ss] =>
    destruct (run_loop_ok (fun i s => i mod N = 0 /\ Inv 0 pa pb N i s) (4 * N) num bb 0 ss) as (i & s & E & (Pm & P) & Hi & Hlt) end; [lia|lia|lia| |apply init_inv; lia|].
  - intros i s Hi (Hm & HI) Hc. cbv zeta.
    destruct (one_vec N _ i s (acc0_ok mul add zB add_comm add_assoc add_0 N) Hi HI ltac:(lia)) as (a0 & b0 & -> & -> & I0). cbn [bind].
    destruct (one_vec N _ (i + N) _ (acc1_ok mul add zB add_comm add_assoc add_0 N) ltac:(lia) I0 ltac:(lia)) as (a1 & b1 & -> & -> & I1). cbn [bind].
    destruct (one_vec N _ (i + N + N) _ (acc2_ok mul add zB add_comm add_assoc add_0 N) ltac:(lia) I1 ltac:(lia)) as (a2 & b2 & -> & -> & I2). cbn [bind].
    destruct (one_vec N _ (i + N + N + N) _ (acc3_ok mul add zB add_comm add_assoc add_0 N) ltac:(lia) I2 ltac:(lia)) as (a3 & b3 & -> & -> & I3). cbn [bind].
    eexists. split; [reflexivity|]. replace (i + 4 * N) with (i + N + N + N + N) by lia. split; [repeat apply mod_add; auto|exact I3].
  - rewrite E. cbn [bind]. destruct (single_loop N _ i s (acc0_ok mul add zB add_comm add_assoc add_0 N) ltac:(lia) Pm P) as (i' & s' & -> & (Pm' & P') & Hi' & Hlt'). cbn [bind].
    apply (finish N); auto; [apply acc1_ok; auto|lia].
Qed.
Theorem dot_compute_mixed_ok st : dot_compute_mixed mul add zA zA' zB st al mu pd N num pa pb = Some (pre 0 pa pb num).
Proof.
  unfold dot_compute_mixed. destruct (needs_scalar al mu pd N num) eqn:EN; [now apply scalar_case|].
  pose proof (extent_ge pd N num HN Hnum) as XG.
  match goal with |- context [run_loop (4 * N) num 0 ?bb ?ss] =>
    destruct (run_loop_ok (fun i s => i mod N = 0 /\ Inv 0 pa pb N i s) (4 * N) num bb 0 ss) as (i & s & E & (Pm & P) & Hi & Hlt) end; [lia|lia|lia| |apply init_inv; lia|].
  - intros i s Hi (Hm & HI) Hc. cbv zeta.
    rewrite (loadu_ok pb i (2 * N)), (loadu_ok pb (i + N + N) (2 * N)) by lia.
    destruct (upper_window pb i N Hi ltac:(lia)) as (W1 & W2). destruct (upper_window pb (i + N + N) N ltac:(lia) ltac:(lia)) as (W3 & W4).
    destruct (one_vec N _ i s (acc0_ok mul add zB add_comm add_assoc add_0 N) Hi HI ltac:(lia)) as (a0 & b0 & -> & L0 & I0). cbn [bind].
    destruct (one_vec N _ (i + N) _ (acc1_ok mul add zB add_comm add_assoc add_0 N) ltac:(lia) I0 ltac:(lia)) as (a1 & b1 & -> & L1 & I1). cbn [bind].
    destruct (one_vec N _ (i + N + N) _ (acc2_ok mul add zB add_comm add_assoc add_0 N) ltac:(lia) I1 ltac:(lia)) as (a2 & b2 & -> & L2 & I2). cbn [bind].
    destruct (one_vec N _ (i + N + N + N) _ (acc3_ok mul add zB add_comm add_assoc add_0 N) ltac:(lia) I2 ltac:(lia)) as (a3 & b3 & -> & L3 & I3). cbn [bind].
    rewrite W1, W2, W3, W4. rewrite loadu_ok in L0, L1, L2, L3 by lia. injection L0 as ->. injection L1 as ->. injection L2 as ->. injection L3 as ->.
    eexists. split; [reflexivity|]. replace (i + 4 * N) with (i + N + N + N + N) by lia. split; [repeat apply mod_add; auto|exact I3].
  - assert (EX : exists i0 s0, (if st then Some (0, (vzero zB N, vzero zB N, vzero zB N, vzero zB N)) else Some (i, s)) = Some (i0, s0) /\ i0 mod N = 0 /\ Inv 0 pa pb N i0 s0 /\ 0 <= i0 <= num).
    { destruct st; [destruct (init_inv N ltac:(lia)) as (I1 & I2); eexists; eexists; split; [reflexivity|]; auto with zarith|exists i, s; auto]. }
    destruct EX as (i0 & s0 & E0 & Pm0 & P0 & Hi0). cbv zeta. rewrite E. rewrite E0. cbn [bind].
    destruct (single_loop N _ i0 s0 (acc0_ok mul add zB add_comm add_assoc add_0 N) ltac:(lia) Pm0 P0) as (i' & s' & -> & (Pm' & P') & Hi' & Hlt'). cbn [bind].
    apply (finish N); auto; [apply acc1_ok; auto|lia].
Qed.
Theorem dot_compute_widen_ok M rw : 0 <= M -> RW mul add zB M N rw -> dot_compute_widen mul add zA zA' zB rw al mu pd M N num pa pb = Some (pre 0 pa pb num).
Proof.
  intros HM HR. unfold dot_compute_widen. destruct (needs_scalar al mu pd N num) eqn:EN; [now apply scalar_case|].
  pose proof (rw01_ok mul add zB add_comm add_assoc M N rw HR) as R01. pose proof (rw23_ok mul add zB add_assoc M N rw HR) as R23.
  match goal with |- context [run_loop (2 * N) num 0 ?bb ?ss] =>
    destruct (run_loop_ok (fun i s => i mod N = 0 /\ Inv 0 pa pb M i s) (2 * N) num bb 0 ss) as (i & s & E & (Pm & P) & Hi & Hlt) end; [lia|lia|lia| |apply init_inv; lia|].
  - intros i s Hi (Hm & HI) Hc. cbv zeta.
    destruct (one_vec M _ i s R01 Hi HI ltac:(lia)) as (a0 & b0 & -> & -> & I0). cbn [bind].
    destruct (one_vec M _ (i + N) _ R23 ltac:(lia) I0 ltac:(lia)) as (a1 & b1 & -> & -> & I1). cbn [bind].
    eexists. split; [reflexivity|]. replace (i + 2 * N) with (i + N + N) by lia. split; [repeat apply mod_add; auto|exact I1].
  - rewrite E. cbn [bind]. rewrite wrap_small by (unfold in_u; lia). destruct (Z.leb_spec (i + N) num) as [C|C].
    + destruct (one_vec M _ i s R01 ltac:(lia) P C) as (a0 & b0 & -> & -> & I0). cbn [bind]. apply (finish M); auto; [lia|lia|now apply mod_add].
    + cbn [bind]. apply (finish M); auto; lia.
Qed.
End Top.
End D.
