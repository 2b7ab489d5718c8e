(** Proofs about CostDistribution. *)
From Coq Require Import ZArith QArith Qfield List Lia Lqa Bool Arith Sorting.Permutation Sorting.Sorted.
From Verif Require Import Stats_Model Stats_Proofs Cost_Model.
Import ListNotations.
Local Open Scope Q_scope.

Lemma qle_iff a b : Qle_bool a b = true <-> a <= b. Proof. apply Qle_bool_iff. Qed.
Lemma qle_false a b : Qle_bool a b = false -> b <= a.
Proof. intros E. apply Qlt_le_weak, Qnot_le_lt. intros C. apply Qle_bool_iff in C. congruence. Qed.
Lemma qlt_true a b : qlt a b = true -> a < b.
Proof. unfold qlt. intros E. apply negb_true_iff in E. apply Qnot_le_lt. intros C. apply Qle_bool_iff in C. congruence. Qed.
Lemma qlt_false a b : qlt a b = false -> b <= a.
Proof. unfold qlt. intros E. apply negb_false_iff in E. now apply Qle_bool_iff. Qed.
Lemma qlt_intro a b : a < b -> qlt a b = true.
Proof. intros H. unfold qlt. apply negb_true_iff. destruct (Qle_bool b a) eqn:E; [|reflexivity]. apply Qle_bool_iff in E. lra. Qed.
Lemma qlt_intro_f a b : b <= a -> qlt a b = false.
Proof. intros H. unfold qlt. apply negb_false_iff. now apply Qle_bool_iff. Qed.

(** ** sorting *)
Lemma qinsert_perm a l : Permutation (a :: l) (qinsert a l).
Proof. induction l as [|b l IH]; [reflexivity|]. cbn [qinsert]. destruct (Qle_bool a b); [reflexivity|]. rewrite perm_swap. now constructor. Qed.
Lemma qsort_perm l : Permutation l (qsort l).
Proof. induction l as [|a l IH]; [reflexivity|]. cbn [qsort fold_right]. fold (qsort l). eapply Permutation_trans; [apply perm_skip, IH|]. apply qinsert_perm. Qed.
Lemma qinsert_sorted a l : StronglySorted Qle l -> StronglySorted Qle (qinsert a l).
Proof.
  induction l as [|b l IH]; intros H; [repeat constructor|]. cbn [qinsert]. inversion H as [|? ? H1 H2]; subst. destruct (Qle_bool a b) eqn:E.
  - apply qle_iff in E. constructor; [exact H|]. constructor; [exact E|]. rewrite Forall_forall in *. intros x Hx. specialize (H2 x Hx). lra.
  - apply qle_false in E. constructor; [now apply IH|]. rewrite Forall_forall in *. intros x Hx.
    apply Permutation_in with (l' := a :: l) in Hx; [|symmetry; apply qinsert_perm]. destruct Hx as [<-|Hx]; [lra|auto].
Qed.
Lemma qsort_sorted l : StronglySorted Qle (qsort l).
Proof. induction l; [constructor|]. now apply qinsert_sorted. Qed.
Lemma qsort_length l : length (qsort l) = length l.
Proof. symmetry. apply Permutation_length, qsort_perm. Qed.
Lemma sorted_nth l : StronglySorted Qle l -> forall i j a b, (i <= j)%nat -> nth_error l i = Some a -> nth_error l j = Some b -> a <= b.
Proof.
  induction 1 as [|x l H IH F]; intros i j a b Hij E1 E2; [destruct i; discriminate|].
  destruct i as [|i], j as [|j]; cbn [nth_error] in *; try lia.
  - assert (a = b) by congruence. subst. apply Qle_refl.
  - injection E1 as ->. rewrite Forall_forall in F. apply F. now apply nth_error_In in E2.
  - apply (IH i j); auto. lia.
Qed.
Lemma nth_some {A} (l : list A) i : (i < length l)%nat -> exists a, nth_error l i = Some a.
Proof. intros H. destruct (nth_error l i) eqn:E; [eauto|]. apply nth_error_None in E. lia. Qed.
Lemma half_bounds n : (2 <= n)%nat -> (n / 2 < n /\ 1 <= n / 2)%nat.
Proof. intros H. split; [apply Nat.div_lt; lia|]. change 1%nat with (2 / 2)%nat at 1. apply Nat.div_le_mono; lia. Qed.

(** ** Median *)
Lemma c_median_ok a n : (2 <= n <= length a)%nat -> exists s m x y, c_median a n = Some (s, m) /\
  s = qsort (firstn n a) ++ skipn n a /\ length s = length a /\ firstn n s = qsort (firstn n a) /\
  nth_error s (n / 2) = Some x /\ nth_error s ((n - 1) / 2) = Some y /\ y <= x /\ m == (x + y) * (1 # 2) /\ ((n - 1) / 2 + 1 >= n / 2)%nat.
Proof.
  intros Hn. unfold c_median. destruct (Nat.leb_spec 2 n); [|lia]. destruct (Nat.leb_spec n (length a)); [|lia]. cbn [assert].
  set (s := qsort (firstn n a) ++ skipn n a).
  assert (Lq : length (qsort (firstn n a)) = n) by (rewrite qsort_length, firstn_length; lia).
  assert (Ls : length s = length a) by (unfold s; rewrite app_length, Lq, skipn_length; lia).
  destruct (half_bounds n ltac:(lia)) as (B1 & B2).
  destruct (nth_some s (n / 2) ltac:(lia)) as (x & Ex).
  assert (Hlo : ((n - 1) / 2 = if Nat.odd n then n / 2 else n / 2 - 1)%nat).
  { pose proof (Nat.div2_odd n) as D. rewrite Nat.div2_div in D. destruct (Nat.odd n); cbn [Nat.b2n] in D; symmetry.
    - apply (Nat.div_unique _ 2 _ 0); lia.
    - apply (Nat.div_unique _ 2 _ 1); lia. }
  destruct (nth_some s ((n - 1) / 2) ltac:(rewrite Hlo; destruct (Nat.odd n); lia)) as (y & Ey).
  assert (FN : firstn n s = qsort (firstn n a)) by (unfold s; rewrite firstn_app, Lq, Nat.sub_diag; cbn [firstn]; rewrite app_nil_r; apply firstn_all2; lia).
  assert (YX : y <= x).
  { unfold s in Ex, Ey. rewrite nth_error_app1 in Ex by lia. rewrite nth_error_app1 in Ey by (rewrite Hlo; destruct (Nat.odd n); lia).
    apply (sorted_nth _ (qsort_sorted (firstn n a)) ((n - 1) / 2) (n / 2)); auto. rewrite Hlo. destruct (Nat.odd n); lia. }
  destruct (Nat.odd n) eqn:EO.
  - rewrite Hlo in Ey. assert (x = y) by congruence. subst y.
    exists s, x, x, x. unfold get. rewrite Ex. cbn [bind]. split; [reflexivity|]. split; [reflexivity|]. split; [exact Ls|]. split; [exact FN|].
    split; [reflexivity|]. split; [rewrite Hlo; exact Ey|]. split; [exact YX|]. split; [lra|]. rewrite Hlo. lia.
  - rewrite Hlo in Ey.
    exists s, ((x + y) * (1 # 2)), x, y. unfold get. rewrite Ex. cbn [bind]. rewrite Ey. cbn [bind]. split; [reflexivity|].
    split; [reflexivity|]. split; [exact Ls|]. split; [exact FN|]. split; [reflexivity|]. split; [rewrite Hlo; exact Ey|]. split; [exact YX|]. split; [reflexivity|]. rewrite Hlo. lia.
Qed.

Lemma qabs_cases x : (qabs x = x /\ 0 <= x) \/ (qabs x = - x /\ x <= 0).
Proof. unfold qabs. destruct (Qle_bool 0 x) eqn:E; [left|right]; split; auto. now apply qle_iff. now apply qle_false. Qed.

Lemma c_mad_ok a n m h : (2 <= n <= length a)%nat -> (forall x, In x (firstn n a) -> h <= qabs (x - m)) -> exists mad, c_mad a n m = Some mad /\ h <= mad.
Proof.
  intros Hn H. unfold c_mad. destruct (Nat.leb_spec n (length a)); [|lia]. cbn [assert].
  set (d := map (fun x => qabs (x - m)) (firstn n a)). assert (Ld : length d = n) by (unfold d; rewrite map_length, firstn_length; lia).
  destruct (c_median_ok d n ltac:(lia)) as (s & md & x & y & E & Es & Ls & FN & Ex & Ey & YX & Em & _). rewrite E. cbn [bind]. exists md. split; [reflexivity|].
  assert (G : forall z i, (i < n)%nat -> nth_error s i = Some z -> h <= z).
  { intros z i Hi Ez. assert (I : In z (firstn n s)).
    { rewrite <- (firstn_skipn n s) in Ez. rewrite nth_error_app1 in Ez by (rewrite firstn_length; lia). now apply nth_error_In in Ez. }
    rewrite FN in I. apply Permutation_in with (l' := firstn n d) in I; [|symmetry; apply qsort_perm]. rewrite firstn_all2 in I by lia.
    unfold d in I. apply in_map_iff in I as (w & <- & Hw). now apply H. }
  destruct (half_bounds n ltac:(lia)) as (B1 & B2).
  assert (h <= x) by (apply (G x (n / 2)%nat); auto). assert (h <= y).
  { apply (G y ((n - 1) / 2)%nat); auto. apply Nat.div_lt_upper_bound; lia. }
  rewrite Em. lra.
Qed.

Lemma trim_right_ok a upper k : forall right, (k <= right < length a)%nat -> (exists x, nth_error a k = Some x /\ x <= upper) ->
  exists r, trim_right a upper right = Some r /\ (k <= r <= right)%nat.
Proof.
  induction right as [|right IH]; intros HB (x & Ex & Hx).
  - cbn [trim_right]. unfold get. assert (k = 0)%nat by lia. subst k. rewrite Ex. cbn [bind]. rewrite (qlt_intro_f upper x Hx). exists 0%nat. split; [reflexivity|lia].
  - cbn [trim_right]. unfold get. destruct (nth_some a (S right) ltac:(lia)) as (z & Ez). rewrite Ez. cbn [bind]. destruct (qlt upper z) eqn:E.
    + apply qlt_true in E. assert (k <> S right) by (intros ->; assert (z = x) by congruence; subst; lra).
      destruct (IH ltac:(lia) ltac:(eauto)) as (r & Er & Hr). exists r. split; [exact Er|lia].
    + exists (S right). split; [reflexivity|lia].
Qed.
Lemma trim_left_ok a lower k right : (k <= right < length a)%nat -> (exists x, nth_error a k = Some x /\ lower <= x) ->
  forall fuel left, (left <= k)%nat -> (k - left < fuel)%nat -> exists r, trim_left fuel a lower left right = Some r /\ (left <= r <= k)%nat.
Proof.
  intros HB (x & Ex & Hx). induction fuel as [|fuel IH]; intros left HL HF; [lia|]. cbn [trim_left]. destruct (Nat.ltb_spec left right) as [C|C].
  - unfold get. destruct (nth_some a left ltac:(lia)) as (z & Ez). rewrite Ez. cbn [bind]. destruct (qlt z lower) eqn:E.
    + apply qlt_true in E. assert (left <> k) by (intros ->; assert (z = x) by congruence; subst; lra).
      destruct (IH (S left) ltac:(lia) ltac:(lia)) as (r & Er & Hr). exists r. split; [exact Er|lia].
    + exists left. split; [reflexivity|lia].
  - exists left. split; [reflexivity|lia].
Qed.
Lemma move_ok a left num : (left + num <= length a)%nat -> exists a', move a left num = Some a' /\ length a' = length a /\ firstn num a' = firstn num (skipn left a).
Proof.
  intros H. unfold move. destruct (Nat.leb_spec (left + num) (length a)); [|lia]. cbn [assert]. eexists. split; [reflexivity|].
  assert (L : length (firstn num (skipn left a)) = num) by (rewrite firstn_length, skipn_length; lia).
  split; [rewrite app_length, L, skipn_length; lia|]. rewrite firstn_app, L, Nat.sub_diag. cbn [firstn]. rewrite app_nil_r. apply firstn_all2. lia.
Qed.
Lemma in_firstn_all {A} (x : A) n l : In x (firstn n l) -> In x l.
Proof. intros H. rewrite <- (firstn_skipn n l). apply in_or_app. now left. Qed.
Lemma in_firstn_le {A} (x : A) l : forall num n, (num <= n)%nat -> In x (firstn num l) -> In x (firstn n l).
Proof.
  induction l as [|y l IH]; intros num n H Hx; [destruct num; contradiction Hx|].
  destruct num as [|num]; [contradiction Hx|]. destruct n as [|n]; [lia|]. cbn [firstn] in *. destruct Hx as [Hx|Hx]; [now left|right].
  apply (IH num n); [lia|exact Hx].
Qed.
Lemma in_window {A} (x : A) left num l : forall n, (left + num <= n)%nat -> In x (firstn num (skipn left l)) -> In x (firstn n l).
Proof.
  revert l. induction left as [|left IH]; intros l n H Hx; [apply (in_firstn_le x l num n); [lia|exact Hx]|].
  destruct l as [|y l]; [destruct num; contradiction Hx|]. destruct n as [|n]; [lia|]. cbn [firstn skipn] in *. right. apply IH; [lia|exact Hx].
Qed.

Lemma remove_outliers_ok a n : (1 <= n <= kMaxValues)%nat -> length a = kMaxValues ->
  exists a' n', remove_outliers a n = Some (a', n') /\ (1 <= n' <= n)%nat /\ length a' = kMaxValues /\
    (forall x, In x (firstn n' a') -> In x (firstn n a)).
Proof.
  intros Hn La. unfold remove_outliers. destruct (Nat.ltb_spec n 3) as [C|C].
  { exists a, n. split; [reflexivity|]. split; [lia|]. split; [exact La|auto]. }
  destruct (Nat.leb_spec n kMaxValues); [|lia]. cbn [assert].
  destruct (c_median_ok a n ltac:(lia)) as (s & m & x & y & E & Es & Ls & FN & Ex & Ey & YX & Em & Hlo). rewrite E. cbn [bind].
  assert (SUB : forall z, In z (firstn n s) -> In z (firstn n a)) by (intros z Hz; rewrite FN in Hz; eapply Permutation_in; [symmetry; apply qsort_perm|exact Hz]).
  destruct (half_bounds n ltac:(lia)) as (B1 & B2).
  assert (Hlo2 : ((n - 1) / 2 <= n / 2)%nat) by (apply Nat.div_le_mono; lia).
  (* every deviation is at least that of the middle *)
  assert (DEV : forall z, In z (firstn n s) -> x - m <= qabs (z - m)).
  { intros z Hz. assert (I : exists i, (i < n)%nat /\ nth_error s i = Some z).
    { apply In_nth_error in Hz as (i & Ei). assert (i < length (firstn n s))%nat by (apply nth_error_Some; congruence). rewrite firstn_length in *.
      exists i. split; [lia|]. rewrite <- (firstn_skipn n s). rewrite nth_error_app1 by (rewrite firstn_length; lia). exact Ei. }
    destruct I as (i & Hi & Ei).
    assert (SN : forall j k u v, (j <= k < n)%nat -> nth_error s j = Some u -> nth_error s k = Some v -> u <= v).
    { intros j k u v Hjk Ej Ek. rewrite Es in Ej, Ek. rewrite nth_error_app1 in Ej, Ek by (rewrite qsort_length, firstn_length; lia).
      apply (sorted_nth _ (qsort_sorted (firstn n a)) j k); auto. lia. }
    destruct (Nat.le_gt_cases (n / 2) i) as [G|G].
    - assert (x <= z) by (apply (SN (n / 2)%nat i); auto; lia). destruct (qabs_cases (z - m)) as [(-> & _)|(-> & ?)]; lra.
    - assert (z <= y) by (apply (SN i ((n - 1) / 2)%nat); auto; split; [lia|]; apply Nat.div_lt_upper_bound; lia).
      destruct (qabs_cases (z - m)) as [(-> & ?)|(-> & ?)]; lra. }
  destruct (c_mad_ok s n m (x - m) ltac:(lia) DEV) as (mad & EM & HM). rewrite EM. cbn [bind].
  assert (M0 : 0 <= x - m) by lra.
  destruct (Qeq_bool mad 0).
  - destruct (nth_some s (n - 1) ltac:(lia)) as (la & Ela). destruct (nth_some s 0 ltac:(lia)) as (fi & Efi). unfold get. rewrite Ela, Efi. cbn [bind].
    set (trim := Nat.max (n / 2) 2). set (left := Nat.max _ 1).
    assert (T : (trim <= n - 1)%nat) by (unfold trim; assert (n / 2 <= n - 1)%nat by lia; lia).
    assert (LT : (left <= trim)%nat).
    { unfold left. apply Nat.max_lub; [|unfold trim; lia]. destruct (qlt _ _).
      - apply Nat.div_le_upper_bound; lia.
      - apply Nat.div_le_upper_bound; lia. }
    destruct (Nat.leb_spec trim n); [|lia]. cbn [assert]. destruct (Nat.leb_spec 1 (n - trim)); [|lia]. cbn [assert].
    destruct (move_ok s left (n - trim) ltac:(lia)) as (a' & -> & La' & Fa'). cbn [bind]. exists a', (n - trim)%nat. split; [reflexivity|].
    split; [unfold trim; lia|]. split; [lia|]. intros z Hz. rewrite Fa' in Hz. apply SUB. apply (in_window z left (n - trim)); [lia|exact Hz].
  - destruct (trim_right_ok s (m + 5 * mad) (n / 2) (n - 1) ltac:(lia) ltac:(exists x; split; [exact Ex|lra])) as (r & -> & Hr). cbn [bind].
    destruct (Nat.leb_spec (n / 2) r); [|lia]. cbn [assert].
    destruct (trim_left_ok s (m - 5 * mad) (n / 2) r ltac:(lia) ltac:(exists x; split; [exact Ex|lra]) (S n) 0 ltac:(lia) ltac:(lia)) as (l & -> & Hl). cbn [bind].
    destruct (Nat.leb_spec l (n / 2)); [|lia]. cbn [assert].
    destruct (move_ok s l (r - l + 1) ltac:(lia)) as (a' & -> & La' & Fa'). cbn [bind]. exists a', (r - l + 1)%nat. split; [reflexivity|].
    split; [lia|]. split; [lia|]. intros z Hz. rewrite Fa' in Hz. apply SUB. apply (in_window z l (r - l + 1)); [lia|exact Hz].
Qed.

(** ** the online phase *)
Section S.
Context (sqrt : Q -> Q) (HS : forall x, 0 <= sqrt x) (lo hi : Q) (H0 : 0 <= lo).
Definition hull (x : Q) : Prop := lo <= x /\ x <= hi.

Definition ONL (c : cost) (started : Prop) : Prop :=
  exists m1 m2 mean sd lower upper r6 r7 r8 r9 ra rb rc rd,
    c_values c = [m1; m2; mean; sd; lower; upper; r6; r7; r8; r9; ra; rb; rc; rd] /\
    0 <= c_online c /\ (started -> 0 < c_online c /\ hull m1) /\ (c_online c == 0 -> m1 == 0) /\ (0 < c_online c -> 1 <= c_online c /\ hull m1) /\
    hull mean /\ 0 <= sd /\ lower <= mean /\ mean <= upper.

Lemma convex u v k : 1 <= k -> hull u -> hull v -> hull (u + (v - u) / k).
Proof.
  intros Hk (A1 & A2) (B1 & B2). assert (EQ : u + (v - u) / k == u * (1 - 1 / k) + v * (1 / k)) by (field; lra).
  assert (T : 0 <= 1 / k /\ 1 / k <= 1) by (split; [apply Qle_shift_div_l; lra|apply Qle_shift_div_r; lra]).
  unfold hull. rewrite EQ. destruct T. split; nra.
Qed.
Lemma clamp_hull l u m x : l <= m -> m <= u -> hull m -> hull x -> hull (qmin (qmax l x) u).
Proof.
  intros L U (M1 & M2) (X1 & X2). unfold hull. destruct (qmax_cases l x) as [(-> & ?)|(-> & ?)].
  - destruct (qmin_cases l u) as [(-> & ?)|(-> & ?)]; lra.
  - destruct (qmin_cases x u) as [(-> & ?)|(-> & ?)]; lra.
Qed.

Lemma online_notify_ok x c P : ONL c P -> hull x -> exists c', online_notify sqrt x c = Some c' /\ ONL c' True /\ c_num c' = c_num c.
Proof.
  intros (m1 & m2 & mean & sd & lower & upper & r6 & r7 & r8 & r9 & ra & rb & rc & rd & EV & O0 & _ & O2 & O3 & HM & SD & L & U) HX.
  destruct c as [num n vals]. cbn [c_values c_online c_num] in *. subst vals.
  pose proof (clamp_hull lower upper mean x L U HM HX) as HC.
  unfold online_notify. cbn [c_values c_online c_num get nth_error bind set length Nat.ltb Nat.leb firstn skipn app].
  eexists. split; [reflexivity|]. split; [|reflexivity].
  set (xc := qmin (qmax lower x) upper) in *.
  assert (M1 : hull (m1 + (xc - m1) / (n + 1))).
  { destruct (Qeq_dec n 0) as [E|NE].
    - assert (EQ : m1 + (xc - m1) / (n + 1) == xc) by (rewrite E, (O2 E); field; lra). unfold hull. rewrite EQ. exact HC.
    - apply convex; [lra| |exact HC]. apply O3. destruct (Qlt_le_dec 0 n); [assumption|]. exfalso. apply NE. lra. }
  set (m1' := m1 + (xc - m1) / (n + 1)) in *.
  set (sd' := sqrt ((m2 + (xc - m1) * n * ((xc - m1) / (n + 1))) / qmax 1 n) * (1 # 5) + sd * (1 - (1 # 5))).
  assert (SD' : 0 <= sd').
  { unfold sd'. match goal with |- context [sqrt ?v] => specialize (HS v) end. lra. }
  exists m1', (m2 + (xc - m1) * n * ((xc - m1) / (n + 1))), (m1' * (1 # 5) + mean * (1 - (1 # 5))), sd', 
    (m1' * (1 # 5) + mean * (1 - (1 # 5)) - (7 # 2) * sd'), (m1' * (1 # 5) + mean * (1 - (1 # 5)) + (7 # 2) * sd'), r6, r7, r8, r9, ra, rb, rc, rd.
  split; [reflexivity|]. cbn [c_online]. split; [lra|]. split; [intros _; split; [lra|exact M1]|]. split; [intros E; lra|]. split; [intros _; split; [lra|exact M1]|].
  split; [destruct M1, HM; unfold hull; lra|]. split; [exact SD'|]. split; lra.
Qed.
Lemma online_all_ok xs : forall c (P : Prop), ONL c P -> (xs <> [] \/ P) -> Forall hull xs -> exists c', online_all sqrt xs c = Some c' /\ ONL c' True /\ c_num c' = c_num c.
Proof.
  induction xs as [|x xs IH]; intros c P HO HP HF; cbn [online_all].
  - exists c. split; [reflexivity|]. split; [|reflexivity]. destruct HP as [C|HP]; [congruence|].
    destruct HO as (a1 & a2 & a3 & a4 & a5 & a6 & r6 & r7 & r8 & r9 & ra & rb & rc & rd & E & F1 & F2 & F). exists a1, a2, a3, a4, a5, a6, r6, r7, r8, r9, ra, rb, rc, rd.
    split; [exact E|]. split; [exact F1|]. split; [auto|exact F].
  - inversion HF; subst. destruct (online_notify_ok x c P HO ltac:(assumption)) as (c1 & -> & O1 & N1). cbn [bind].
    destruct (IH c1 True O1 ltac:(now right) ltac:(assumption)) as (c2 & E2 & O2 & N2). exists c2. split; [exact E2|]. split; [exact O2|congruence].
Qed.

Lemma fold_plus l : forall s, fold_left Qplus l s == s + fold_left Qplus l 0.
Proof. induction l as [|x l IH]; intros s; cbn [fold_left]; [lra|]. rewrite (IH (s + x)), (IH (0 + x)). lra. Qed.
Lemma sum_bounds l : Forall hull l -> q_of (Z.of_nat (length l)) * lo <= fold_left Qplus l 0 /\ fold_left Qplus l 0 <= q_of (Z.of_nat (length l)) * hi.
Proof.
  induction 1 as [|x l (H1 & H2) F IH]; [cbn [length fold_left]; change (q_of (Z.of_nat 0)) with 0; split; lra|]. cbn [fold_left length]. rewrite fold_plus.
  assert (E : q_of (Z.of_nat (S (length l))) == 1 + q_of (Z.of_nat (length l))) by (rewrite Nat2Z.inj_succ; unfold Z.succ; rewrite q_add; change (q_of 1) with 1; lra).
  rewrite E. set (k := q_of (Z.of_nat (length l))) in *. set (t := fold_left Qplus l 0) in *. clearbody k t. destruct IH. split; lra.
Qed.

Lemma warm_up_ok c : (1 <= c_num c <= kMaxValues)%nat -> length (c_values c) = kMaxValues -> c_online c = 0 ->
  Forall hull (firstn (c_num c) (c_values c)) -> exists c', warm_up sqrt c = Some c' /\ ONL c' True.
Proof.
  intros Hn La O0 HF. unfold warm_up. destruct (remove_outliers_ok (c_values c) (c_num c) Hn La) as (a & n & -> & Hn' & La' & SUB). cbn [bind].
  assert (HF' : Forall hull (firstn n a)) by (rewrite Forall_forall in *; auto).
  assert (Lf : length (firstn n a) = n) by (rewrite firstn_length; lia).
  unfold sample_mean, sample_variance, is_online. cbn [c_online c_num c_values]. rewrite O0. change (qlt 0 0) with false. cbn [negb andb].
  destruct (Nat.eqb_spec n 0); [lia|]. cbn [negb andb]. destruct (Nat.leb_spec n kMaxValues); [|lia]. cbn [assert]. destruct (Nat.leb_spec n (length a)); [|lia]. cbn [assert bind].
  set (mean := fold_left Qplus (firstn n a) 0 / q_of (Z.of_nat n)).
  assert (HM : hull mean).
  { destruct (sum_bounds _ HF') as (S1 & S2). rewrite Lf in S1, S2.
    assert (NP : 0 < q_of (Z.of_nat n)) by (unfold q_of; change 0 with (inject_Z 0); rewrite <- Zlt_Qlt; lia).
    unfold mean, hull. split; [apply Qle_shift_div_l; [exact NP|]|apply Qle_shift_div_r; [exact NP|]]; rewrite Qmult_comm; assumption. }
  assert (M0 : Qle_bool 0 mean = true) by (apply qle_iff; destruct HM; lra). rewrite M0. cbn [assert].
  set (var := if (n =? 1)%nat then Some 0 else _). assert (V : exists v, var = Some v) by (unfold var; destruct (n =? 1)%nat; eauto). destruct V as (v & ->). cbn [bind].
  set (sd := if Qeq_bool (sqrt v) 0 then mean / 2 else sqrt v).
  assert (SD : 0 <= sd).
  { unfold sd. destruct (Qeq_bool (sqrt v) 0); [|apply HS]. destruct HM. apply Qle_shift_div_l; lra. }
  assert (EA : exists v0 v1 v2 v3 v4 v5 r6 r7 r8 r9 ra rb rc rd, a = [v0; v1; v2; v3; v4; v5; r6; r7; r8; r9; ra; rb; rc; rd]).
  { unfold kMaxValues in La'. do 14 (destruct a as [|? a]; [discriminate La'|]). destruct a; [|discriminate La']. repeat eexists. }
  destruct EA as (v0 & v1 & v2 & v3 & v4 & v5 & r6 & r7 & r8 & r9 & ra & rb & rc & rd & EA). clearbody mean sd. set (copy := firstn n a) in *. clearbody copy. subst a.
  cbn [set bind length Nat.ltb Nat.leb firstn skipn app].
  match goal with |- context [online_all sqrt copy ?c] => set (c0 := c) end.
  assert (O : ONL c0 False).
  { exists 0, 0, mean, sd, (mean - 4 * sd), (mean + 4 * sd), r6, r7, r8, r9, ra, rb, rc, rd. unfold c0. cbn [c_values c_online]. split; [reflexivity|].
    split; [lra|]. split; [tauto|]. split; [intros; lra|]. split; [intros; lra|]. split; [exact HM|]. split; [exact SD|]. split; lra. }
  destruct (online_all_ok copy c0 False O) as (c1 & -> & O1 & _); [left; destruct copy; [cbn in Lf; lia|discriminate]|exact HF'|]. cbn [bind].
  assert (ON : is_online c1 = true).
  { unfold is_online. apply qlt_intro. destruct O1 as (a1 & a2 & a3 & a4 & a5 & a6 & s6 & s7 & s8 & s9 & sa & sb & sc & sd' & _ & _ & F & _). now apply F. }
  unfold is_online in ON. rewrite ON. cbn [assert]. exists c1. split; [reflexivity|exact O1].
Qed.

(** ** histories *)
Definition CI (seen : bool) (c : cost) : Prop :=
  (c_online c = 0 /\ length (c_values c) = kMaxValues /\ (c_num c < kMaxValues)%nat /\ (seen = true -> 1 <= c_num c)%nat /\
     Forall hull (firstn (c_num c) (c_values c))) \/ (ONL c True).
Lemma onl_online c : ONL c True -> is_online c = true.
Proof. intros (a1 & a2 & a3 & a4 & a5 & a6 & s6 & s7 & s8 & s9 & sa & sb & sc & sd' & _ & _ & F & _). unfold is_online. apply qlt_intro. now apply F. Qed.
Lemma notify_ok x c seen : CI seen c -> (0 <= x -> hull x) -> exists c', c_notify sqrt x c = Some c' /\ CI (seen || Qle_bool 0 x) c' /\ (x < 0 -> c' = c).
Proof.
  intros HC HX. unfold c_notify. destruct (qlt x 0) eqn:E.
  - apply qlt_true in E. exists c. split; [reflexivity|]. split; [|reflexivity].
    replace (Qle_bool 0 x) with false; [now rewrite orb_false_r|]. symmetry. destruct (Qle_bool 0 x) eqn:E1; [|reflexivity]. apply qle_iff in E1. lra.
  - apply qlt_false in E. specialize (HX E).
    assert (NX : x < 0 -> forall c' : cost, c' = c) by (intros; lra).
    destruct HC as [(O0 & La & Hn & Hs & HF)|HO].
    + unfold is_online. rewrite O0. change (qlt 0 0) with false. cbv iota.
      unfold set. destruct (Nat.ltb_spec (c_num c) (length (c_values c))); [|lia]. cbn [bind].
      set (a := firstn (c_num c) (c_values c) ++ x :: skipn (S (c_num c)) (c_values c)).
      assert (Lf : length (firstn (c_num c) (c_values c)) = c_num c) by (rewrite firstn_length; lia).
      assert (LA : length a = kMaxValues) by (unfold a; rewrite app_length, Lf; cbn [length]; rewrite skipn_length; lia).
      assert (FA : firstn (S (c_num c)) a = firstn (c_num c) (c_values c) ++ [x]).
      { unfold a. rewrite firstn_app, Lf. replace (S (c_num c) - c_num c)%nat with 1%nat by lia. rewrite (firstn_all2 (n := S (c_num c))) by lia. reflexivity. }
      assert (HA : Forall hull (firstn (S (c_num c)) a)) by (rewrite FA; apply Forall_app; split; [exact HF|]; now constructor).
      destruct (Nat.leb_spec (S (c_num c)) kMaxValues); [|lia]. cbn [assert]. destruct (Nat.eqb_spec (S (c_num c)) kMaxValues) as [EK|NK].
      * destruct (warm_up_ok {| c_num := S (c_num c); c_online := 0; c_values := a |}) as (c' & EW & O); cbn [c_num c_values c_online]; auto; [lia|].
        rewrite EW. exists c'. split; [reflexivity|]. split; [right; exact O|auto].
      * eexists. split; [reflexivity|]. split; [|auto]. left. cbn [c_num c_values c_online]. split; [reflexivity|]. split; [exact LA|]. split; [lia|]. split; [lia|exact HA].
    + rewrite (onl_online c HO). destruct (online_notify_ok x c True HO HX) as (c' & -> & O & _). exists c'. split; [reflexivity|]. split; [right; exact O|auto].
Qed.
Lemma estimate_ok c : CI true c -> exists m c', c_estimate sqrt c = Some (m, c') /\ hull m /\ CI true c'.
Proof.
  intros HC. unfold c_estimate.
  assert (W : exists c', (if is_online c then Some c else warm_up sqrt c) = Some c' /\ ONL c' True).
  { destruct HC as [(O0 & La & Hn & Hs & HF)|HO].
    - unfold is_online. rewrite O0. change (qlt 0 0) with false. cbv iota. apply warm_up_ok; auto. specialize (Hs eq_refl). lia.
    - rewrite (onl_online c HO). exists c. auto. }
  destruct W as (c' & -> & O). cbn [bind]. pose proof O as O'. destruct O' as (a1 & a2 & a3 & a4 & a5 & a6 & s6 & s7 & s8 & s9 & sa & sb & sc & sd' & EV & _ & _ & _ & _ & HM & _).
  unfold get. rewrite EV. cbn [nth_error bind]. exists a3, c'. split; [reflexivity|]. split; [exact HM|]. right. exact O.
Qed.
End S.
