From Coq Require Import ZArith List Lia Bool Permutation.
From Verif Require Import Word Word_Proofs Vec_Model Vec_Proofs Sort_Spec Partition_Proofs TwoValue_Proofs Arith_Model Network_Model Network_Proofs BaseCase_Model Network_Sort Network_Lift Alloc_Proofs.
Import ListNotations.
Local Open Scope Z_scope.

Section Mem.
Context {K : Type}.
Implicit Types (A B C : list K).
Lemma loadu_mid A B C i n : i = zlen A -> n = zlen B -> loadu (A ++ B ++ C) i n = Some B.
Proof.
  intros -> ->. rewrite loadu_app by (pose proof (zlen_nonneg B); pose proof (zlen_nonneg C); rewrite zlen_app; lia). f_equal. rewrite firstn_app. unfold zlen. rewrite Nat2Z.id, Nat.sub_diag, firstn_all. cbn [firstn]. now rewrite app_nil_r.
Qed.
Lemma storeu_mid A B C v i : i = zlen A -> zlen v = zlen B -> storeu (A ++ B ++ C) i v = Some (A ++ v ++ C).
Proof.
  intros -> H. rewrite storeu_app by (pose proof (zlen_nonneg C); rewrite zlen_app; lia). do 3 f_equal. rewrite skipn_app. replace (length v) with (length B) by (unfold zlen in H; lia). rewrite skipn_all, Nat.sub_diag. reflexivity.
Qed.
Lemma firstn_exact A B n : length A = n -> firstn n (A ++ B) = A.
Proof. intros <-. rewrite firstn_app, Nat.sub_diag, firstn_all. cbn [firstn]. apply app_nil_r. Qed.

Variable w : Z.
Hypothesis Hw : 0 < w.
Definition rows_ok (vs : list (list K)) : Prop := Forall (fun v => zlen v = w) vs.
Lemma rows_len vs : rows_ok vs -> zlen (concat vs) = Z.of_nat (length vs) * w.
Proof. induction 1 as [|v vs Hv F IH]; [reflexivity|]. cbn [concat length]. rewrite zlen_app. lia. Qed.
Notation rs a n := (map Z.of_nat (seq a n)).
Lemma load_rows_ok n : forall a A B C, zlen A = Z.of_nat a * w -> zlen B = Z.of_nat n * w ->
  exists vs, load_rows (rs a n) w w (A ++ B ++ C) = Some vs /\ concat vs = B /\ length vs = n /\ rows_ok vs.
Proof.
  induction n as [|n IH]; intros a A B C HA HB.
  - exists []. destruct B; [|lr]. split; [reflexivity|]. split; [reflexivity|]. split; [reflexivity|constructor].
  - destruct (split_at B w) as (B1 & B2 & -> & E1); [nia|]. cbn [seq map load_rows]. rewrite <- app_assoc. rewrite (loadu_mid A B1 (B2 ++ C)) by lia.
    destruct (IH (S a) (A ++ B1) B2 C) as (vs & E & H1 & H2 & H3); [rewrite zlen_app; lia|rewrite zlen_app in HB; lia|]. rewrite <- !app_assoc in E. rewrite E.
    exists (B1 :: vs). split; [reflexivity|]. split; [cbn; now rewrite H1|]. split; [cbn; lia|]. now constructor.
Qed.
Lemma store_rows_ok n : forall a A B C vs, zlen A = Z.of_nat a * w -> zlen B = Z.of_nat n * w -> length vs = n -> rows_ok vs ->
  store_rows (rs a n) w vs (A ++ B ++ C) = Some (A ++ concat vs ++ C).
Proof.
  induction n as [|n IH]; intros a A B C vs HA HB HL HF.
  - destruct vs; [|discriminate]. destruct B; [|lr]. reflexivity.
  - destruct vs as [|v vs]; [discriminate|]. inversion HF as [|? ? Hv HF']; subst. destruct (split_at B w) as (B1 & B2 & -> & E1); [nia|]. cbn [seq map store_rows]. rewrite <- app_assoc.
    rewrite (storeu_mid A B1 (B2 ++ C)) by lia. pose proof (IH (S a) (A ++ v) B2 C vs) as E. rewrite <- !app_assoc in E. cbn [concat]. rewrite <- !app_assoc. apply E; [rewrite zlen_app; lia|rewrite zlen_app in HB; lia|cbn in HL; lia|assumption].
Qed.

(** masked rows *)
Lemma gt_iota_first_n num start : gt_iota w num start = first_n w (Z.max 0 (Z.min w (num - start))).
Proof.
  unfold gt_iota, first_n. apply map_ext_in. intros i Hi. apply in_seq in Hi. destruct (Z.ltb_spec (start + Z.of_nat i) num), (Z.ltb_spec (Z.of_nat i) (Z.max 0 (Z.min w (num - start)))); try reflexivity; lia.
Qed.
Lemma masked_row_load (pad : K) keys num a X Y : num = zlen keys -> num < 2 ^ 64 -> 0 <= a -> keys ++ repeat pad Y = X -> a + w <= zlen X ->
  masked_load_or (set w pad) (gt_iota w num a) keys a = Some (firstn (Z.to_nat w) (skipn (Z.to_nat a) X)).
Proof.
  intros -> HN Ha <- HX. rewrite gt_iota_first_n. rewrite zlen_app, zlen_repeat in HX. destruct (Z.le_gt_cases (zlen keys) a) as [H|H].
  - replace (Z.max 0 (Z.min w (zlen keys - a))) with 0 by lia. rewrite first_n_eq by lia. cbn [Z.to_nat repeat app]. rewrite Z.sub_0_r.
    assert (E : set w pad = set w pad ++ []) by (now rewrite app_nil_r). rewrite E. replace (Z.to_nat w) with (length (set w pad)) at 1 by (unfold set; now rewrite repeat_length).
    rewrite <- (app_nil_r (repeat false _)). rewrite mlo_false. cbn [masked_load_or]. rewrite app_nil_r. f_equal.
    rewrite skipn_app, skipn_all2 by (unfold zlen in H; lia). cbn [app]. unfold set.
    replace Y with ((Z.to_nat a - length keys) + (Z.to_nat w + (Y - Z.to_nat w - (Z.to_nat a - length keys))))%nat by (unfold zlen in *; lia). rewrite !repeat_app.
    rewrite skipn_app, skipn_all2, repeat_length, Nat.sub_diag by (rewrite repeat_length; lia). cbn [app skipn]. rewrite firstn_exact by apply repeat_length. reflexivity.
  - set (k := Z.max 0 (Z.min w (zlen keys - a))). fold (load_n_or (set w pad) w keys a k). rewrite load_n_or_ok; try (unfold k; lia); [|unfold set; rewrite zlen_repeat; lia].
    f_equal. rewrite skipn_app. replace (Z.to_nat a - length keys)%nat with O by (unfold zlen in H; lia). cbn [skipn].
    destruct (Z.le_gt_cases w (zlen keys - a)) as [H2|H2].
    + replace k with w by (unfold k; lia). unfold set. rewrite (skipn_all2 (repeat pad (Z.to_nat w))) by (rewrite repeat_length; lia). rewrite app_nil_r, firstn_app.
      replace (Z.to_nat w - length (skipn (Z.to_nat a) keys))%nat with O by (rewrite skipn_length; unfold zlen in *; lia). cbn [firstn]. now rewrite app_nil_r.
    + replace k with (zlen keys - a) by (unfold k; lia). rewrite firstn_app. rewrite !firstn_all2 by (rewrite ?skipn_length; unfold zlen in *; lia). f_equal. unfold set.
      replace (Z.to_nat w) with (Z.to_nat (zlen keys - a) + Z.to_nat (w - (zlen keys - a)))%nat at 1 by lia. rewrite repeat_app, skipn_app, skipn_all2, repeat_length, Nat.sub_diag by (rewrite repeat_length; lia). cbn [app skipn].
      rewrite skipn_length. replace Y with ((Z.to_nat w - (length keys - Z.to_nat a)) + (Y - (Z.to_nat w - (length keys - Z.to_nat a))))%nat by (unfold zlen in *; lia). rewrite repeat_app, firstn_exact by apply repeat_length. f_equal. unfold zlen in *; lia.
Qed.
Lemma masked_rows_load (pad : K) keys num Y n : num = zlen keys -> num < 2 ^ 64 -> forall a A B C, keys ++ repeat pad Y = A ++ B ++ C -> zlen A = Z.of_nat a * w -> zlen B = Z.of_nat n * w ->
  exists vs, load_rows_masked pad (rs a n) (map (fun r => gt_iota w num (r * w)) (rs a n)) w w keys = Some vs /\ concat vs = B /\ length vs = n /\ rows_ok vs.
Proof.
  intros HK HN. induction n as [|n IH]; intros a A B C EX HA HB.
  - exists []. destruct B; [|lr]. split; [reflexivity|]. split; [reflexivity|]. split; [reflexivity|constructor].
  - destruct (split_at B w) as (B1 & B2 & -> & E1); [nia|]. cbn [seq map load_rows_masked].
    rewrite (masked_row_load pad keys num (Z.of_nat a * w) (A ++ (B1 ++ B2) ++ C) Y HK HN) by (first [nia|exact EX|rewrite !zlen_app; pose proof (zlen_nonneg C); pose proof (zlen_nonneg B2); lia]).
    assert (EB : firstn (Z.to_nat w) (skipn (Z.to_nat (Z.of_nat a * w)) (A ++ (B1 ++ B2) ++ C)) = B1).
    { rewrite <- HA. rewrite skipn_app. unfold zlen at 1 2. rewrite Nat2Z.id, skipn_all, Nat.sub_diag. cbn [skipn app]. rewrite <- app_assoc. apply firstn_exact. unfold zlen in E1. lia. }
    rewrite EB. destruct (IH (S a) (A ++ B1) B2 C) as (vs & E & H1 & H2 & H3); [rewrite EX, <- !app_assoc; reflexivity|rewrite zlen_app; lia|rewrite zlen_app in HB; lia|]. rewrite E.
    exists (B1 :: vs). split; [reflexivity|]. split; [cbn; now rewrite H1|]. split; [cbn; lia|]. now constructor.
Qed.
Lemma masked_row_store num A B C v : zlen v = w -> zlen B = w -> 0 <= num < 2 ^ 64 -> num <= zlen (A ++ B ++ C) ->
  blended_store v (gt_iota w num (zlen A)) (firstn (Z.to_nat num) (A ++ B ++ C)) (zlen A) = Some (firstn (Z.to_nat num) (A ++ v ++ C)).
Proof.
  intros Hv HB HN HL. rewrite gt_iota_first_n. destruct (Z.le_gt_cases num (zlen A)) as [H|H].
  - replace (Z.max 0 (Z.min w (num - zlen A))) with 0 by lia. rewrite first_n_eq by lia. cbn [Z.to_nat repeat app]. rewrite bs_false by (unfold zlen in Hv; lia).
    rewrite !firstn_app. replace (Z.to_nat num - length A)%nat with O by (unfold zlen in H; lia). reflexivity.
  - set (k := Z.max 0 (Z.min w (num - zlen A))). rewrite !(firstn_app (Z.to_nat num)). rewrite firstn_all2 by (unfold zlen in H; lia). replace (Z.to_nat num - length A)%nat with (Z.to_nat (num - zlen A)) by (unfold zlen; lia).
    set (q := num - zlen A) in *. fold (store_n v w (A ++ firstn (Z.to_nat q) (B ++ C)) (zlen A) k).
    assert (LQ : zlen (firstn (Z.to_nat q) (B ++ C)) = q) by (apply zlen_firstn; rewrite zlen_app in HL; lia).
    rewrite store_n_ok; [|unfold k; lia|exact Hv|rewrite LQ; unfold k; lia|rewrite zlen_app, LQ; lia]. do 2 f_equal.
    destruct (Z.le_gt_cases q w) as [H2|H2].
    + replace k with q by (unfold k; lia). rewrite skipn_all2 by (unfold zlen in LQ; lia). rewrite app_nil_r, firstn_app. replace (Z.to_nat q - length v)%nat with O by (unfold zlen in Hv; lia). cbn [firstn]. now rewrite app_nil_r.
    + replace k with w by (unfold k; lia). rewrite firstn_all2 by (unfold zlen in Hv; lia). rewrite !(firstn_app (Z.to_nat q)). rewrite !(firstn_all2 (n := Z.to_nat q)) by (unfold zlen in *; lia).
      rewrite skipn_app. rewrite skipn_all2 by (unfold zlen in *; lia). replace (Z.to_nat w - length B)%nat with O by (unfold zlen in *; lia). cbn [skipn app]. do 3 f_equal. unfold zlen in *; lia.
Qed.
Lemma masked_rows_store num n : 0 <= num < 2 ^ 64 -> forall a A B C vs, num <= zlen (A ++ B ++ C) -> zlen A = Z.of_nat a * w -> zlen B = Z.of_nat n * w -> length vs = n -> rows_ok vs ->
  store_rows_masked (rs a n) (map (fun r => gt_iota w num (r * w)) (rs a n)) w vs (firstn (Z.to_nat num) (A ++ B ++ C)) = Some (firstn (Z.to_nat num) (A ++ concat vs ++ C)).
Proof.
  intros HN. induction n as [|n IH]; intros a A B C vs HL HA HB HV HF.
  - destruct vs; [|discriminate]. destruct B; [|lr]. reflexivity.
  - destruct vs as [|v vs]; [discriminate|]. inversion HF as [|? ? Hv HF']; subst. destruct (split_at B w) as (B1 & B2 & -> & E1); [nia|]. cbn [seq map store_rows_masked]. rewrite <- app_assoc in *.
    rewrite <- HA at 1 2. rewrite (masked_row_store num A B1 (B2 ++ C) v) by (first [assumption|lia|exact HL]). pose proof (IH (S a) (A ++ v) B2 C vs) as E. rewrite <- !app_assoc in E. cbn [concat]. rewrite <- !app_assoc.
    apply E; [rewrite !zlen_app in *; lia|rewrite zlen_app; lia|rewrite zlen_app in HB; lia|cbn in HV; lia|assumption].
Qed.

(** CopyHalfToPaddedBuf and copying back *)
Lemma safe_copy_ok C : forall Y B A X, zlen A = zlen X -> zlen B = zlen Y -> safe_copy_n (length Y) (X ++ Y ++ C) (A ++ B) (zlen A) = Some (A ++ Y).
Proof.
  induction Y as [|y Y IH]; intros [|b B] A X H1 H2; try lr; [reflexivity|]. cbn [length safe_copy_n app]. rewrite rd_at by lia. rewrite wr_app.
  specialize (IH B (A ++ [y]) (X ++ [y])). rewrite <- !app_assoc in IH. cbn [app] in IH. rewrite zlen_app in IH. apply IH; lr.
Qed.
Lemma copy_back_ok N C num : 1 <= N -> forall fuel Y B A X i, zlen A = i -> zlen X = i -> zlen B = num - i -> zlen Y = num - i -> zlen Y < Z.of_nat fuel ->
  match copy_back N fuel (X ++ Y ++ C) (A ++ B) num i with Some (k, i') => safe_copy_n (Z.to_nat (num - i')) (X ++ Y ++ C) k i' | None => None end = Some (A ++ Y).
Proof.
  intros HN. induction fuel as [|f IH]; intros Y B A X i HA HX HB HY HF; [pose proof (zlen_nonneg Y); lia|]. cbn [copy_back]. destruct (Z.leb_spec (i + N) num) as [H|H].
  - destruct (split_at Y N) as (Y1 & Y2 & -> & E1); [lia|]. destruct (split_at B N) as (B1 & B2 & -> & E2); [lia|]. rewrite <- app_assoc. rewrite (loadu_mid X Y1 (Y2 ++ C)) by lia.
    rewrite (storeu_mid A B1 B2) by lia. specialize (IH Y2 B2 (A ++ Y1) (X ++ Y1) (i + N)). rewrite <- !app_assoc in IH. apply IH; lr.
  - replace (Z.to_nat (num - i)) with (length Y) by (unfold zlen in HY; lia). rewrite <- HA. apply safe_copy_ok; lia.
Qed.
Lemma copy_loop_ok R N Z0 : 1 <= N -> N <= kMin R w -> forall fuel X A C, zlen X = zlen A -> N <= zlen X -> zlen X < Z.of_nat fuel ->
  exists X1 X2 A1, X = X1 ++ X2 /\ zlen A1 = zlen X1 /\ zlen X1 <= kMin R w /\ copy_loop R w fuel N (X ++ Z0) (A ++ C) (zlen X) = Some (A1 ++ X2 ++ C).
Proof.
  intros HN HK. intros fuel. revert Z0. induction fuel as [|f IH]; intros Z0 X A C HA HX HF; [pose proof (zlen_nonneg X); lia|]. cbn [copy_loop].
  destruct (split_at X (zlen X - N)) as (X' & Y & EX & EY); [lia|]. destruct (split_at A (zlen X - N)) as (A' & D & EA & ED); [lia|]. assert (LY : zlen Y = N) by (pose proof (f_equal zlen EX) as Q; rewrite zlen_app in Q; lia). assert (LD : zlen D = N) by (pose proof (f_equal zlen EA) as Q; rewrite zlen_app in Q; lia).
  assert (EL : loadu (X ++ Z0) (zlen X - N) N = Some Y) by (rewrite EX at 1; rewrite <- app_assoc; apply loadu_mid; lia).
  assert (ES : storeu (A ++ C) (zlen X - N) Y = Some (A' ++ Y ++ C)) by (rewrite EA, <- app_assoc; apply storeu_mid; lia). rewrite EL, ES.
  destruct (Z.ltb_spec (kMin R w) (zlen X - N)) as [H|H].
  - destruct (IH (Y ++ Z0) X' A' (Y ++ C)) as (X1 & X2 & A1 & E1 & E2 & E3 & E4); [lia|lia|lia|]. exists X1, (X2 ++ Y), A1. split; [rewrite EX, E1; now rewrite <- app_assoc|]. split; [exact E2|]. split; [exact E3|].
    rewrite EY in E4. rewrite EX at 1. rewrite <- !app_assoc. exact E4.
  - exists X', Y, A'. split; [exact EX|]. split; [lia|]. split; [lia|reflexivity].
Qed.
Lemma pad_loop_ok (pad : K) N R Nmax : 1 <= Nmax -> w <= N -> forall n fuel A B1 B2, (n < fuel)%nat -> zlen B1 = Z.of_nat (S n) * Nmax -> Z.of_nat R * w <= zlen A + zlen B1 ->
  (forall m, (1 <= m <= n)%nat -> zlen A + Z.of_nat m * Nmax < Z.of_nat R * w) ->
  pad_loop pad N R w fuel Nmax (A ++ B1 ++ B2) (zlen A) = Some (A ++ repeat pad (length B1) ++ B2).
Proof.
  intros HN HwN. induction n as [|n IH]; intros fuel A B1 B2 HF HB HE HM; destruct fuel as [|f]; try lia; cbn [pad_loop]; unfold vw; rewrite (Z.min_r N w) by lia.
  - rewrite (storeu_mid A B1 B2) by (unfold set; rewrite ?zlen_repeat; lia). destruct (Z.ltb_spec (zlen A + Nmax) ((Z.of_nat R - 1) * w + w)); [lia|].
    unfold set. do 4 f_equal. unfold zlen in HB. lia.
  - destruct (split_at B1 Nmax) as (B & B' & -> & EB); [lia|]. rewrite <- app_assoc. rewrite (storeu_mid A B (B' ++ B2)) by (unfold set; rewrite ?zlen_repeat; lia).
    specialize (HM 1%nat ltac:(lia)) as HM1. destruct (Z.ltb_spec (zlen A + Nmax) ((Z.of_nat R - 1) * w + w)); [|lia].
    assert (LS : zlen (set Nmax pad) = Nmax) by (unfold set; rewrite zlen_repeat; lia).
    specialize (IH f (A ++ set Nmax pad) B' B2). rewrite <- !app_assoc in IH. rewrite zlen_app, LS in IH. rewrite IH.
    + unfold set. rewrite app_length, repeat_app, <- app_assoc. do 4 f_equal. unfold zlen in EB. lia.
    + lia.
    + rewrite zlen_app in HB. lia.
    + rewrite zlen_app in HE. lia.
    + intros m Hm. specialize (HM (S m) ltac:(lia)). lia.
Qed.
End Mem.

Section Rows.
Context {K : Type} (lt : K -> K -> bool) (pad : K).
Hypothesis TO : total_order lt.
Hypothesis PAD : forall x, lt pad x = false.
Variables (N : Z) (R : nat) (w : nat) (prog : list instr).
Notation wz := (Z.of_nat w).
Hypothesis Hw : 1 <= wz <= N.
Hypothesis HR : R = (2 * (R / 2))%nat.
Hypothesis HP : Forall (ok_instr R w) prog.
Hypothesis HS : forall m, wf R w m -> sorted lt (concat (run (First lt) (Last lt) prog m)) /\ Permutation (concat m) (concat (run (First lt) (Last lt) prog m)).
Notation total := (Z.of_nat R * wz).
Notation h := (R / 2)%nat.

Lemma wf_rows (m : list (list K)) : length m = R -> rows_ok wz m -> wf R w m.
Proof. intros H F. split; [exact H|]. eapply Forall_impl; [|exact F]. cbn. intros v Hv. unfold zlen in Hv. lia. Qed.
Lemma rows_wf (m : list (list K)) : wf R w m -> length m = R /\ rows_ok wz m.
Proof. intros (H & F). split; [exact H|]. eapply Forall_impl; [|exact F]. cbn. intros v Hv. unfold zlen. lia. Qed.
(** what the network does to keys followed by padding *)
Lemma net_result keys m Y : length m = R -> rows_ok wz m -> concat m = keys ++ repeat pad Y -> zlen keys + Z.of_nat Y = total ->
  let m' := run (First lt) (Last lt) prog m in
  exists s lo hi, m' = lo ++ hi /\ lo = firstn h m' /\ hi = skipn h m' /\ length lo = h /\ length hi = h /\ rows_ok wz lo /\ rows_ok wz hi /\
    concat lo ++ concat hi = s ++ repeat pad Y /\ Permutation keys s /\ sorted lt s.
Proof.
  intros LM RM CM LT m'. pose proof (wf_rows m LM RM) as W. destruct (HS m W) as (S1 & P1). fold m' in S1, P1. rewrite CM in P1.
  destruct (sorted_pad_tail lt TO pad PAD _ Y keys S1 P1) as (s & E & Ps).
  assert (W' : wf R w m') by (apply (run_wf _ _ R w w); [exact W|apply Nat.divide_refl|exact HP]). apply rows_wf in W' as (L' & R').
  exists s, (firstn h m'), (skipn h m'). split; [now rewrite firstn_skipn|]. split; [reflexivity|]. split; [reflexivity|].
  split; [rewrite firstn_length; lia|]. split; [rewrite skipn_length; lia|]. unfold rows_ok in *. rewrite <- (firstn_skipn h m') in R'. apply Forall_app in R' as (R1 & R2).
  split; [exact R1|]. split; [exact R2|]. split; [rewrite <- concat_app, firstn_skipn; exact E|]. split; [exact Ps|].
  rewrite E in S1. intros i j x y L Hi Hj. assert (i < length s)%nat by (apply nth_error_Some; congruence). assert (j < length s)%nat by (apply nth_error_Some; congruence).
  apply (S1 i j); [exact L|rewrite nth_error_app1 by assumption; exact Hi|rewrite nth_error_app1 by assumption; exact Hj].
Qed.

Lemma masked_ok offs keys num buf : num = zlen keys -> kMin R wz < num <= total -> total < 2 ^ 64 ->
  map (fun o => kMin R wz + o * wz) offs = map (fun r => r * wz) (upper R) ->
  exists keys', sort_rows_masked lt pad N R wz offs prog keys num buf = Some (keys', buf) /\ Permutation keys keys' /\ sorted lt keys'.
Proof.
  intros HK HM HT HO. unfold sort_rows_masked. unfold vw. rewrite (Z.min_r N wz) by lia.
  replace (map (fun o => gt_iota wz num (kMin R wz + o * wz)) offs) with (map (fun r => gt_iota wz num (r * wz)) (upper R)) by (rewrite <- (map_map (fun r => r * wz)), <- HO, map_map; reflexivity).
  unfold kMin in HM. set (Y := Z.to_nat (total - num)).
  destruct (split_at keys (Z.of_nat h * wz)) as (A & V & EK & EA); [lia|]. pose proof (f_equal zlen EK) as LK. rewrite zlen_app in LK.
  destruct (load_rows_ok wz ltac:(lia) h 0 [] A V) as (lo & E1 & C1 & L1 & R1); [reflexivity|exact EA|]. cbn [app] in E1. rewrite <- EK in E1. unfold lower. rewrite E1.
  destruct (masked_rows_load wz ltac:(lia) pad keys num Y h HK ltac:(lia) h A (V ++ repeat pad Y) []) as (hi & E2 & C2 & L2 & R2); [rewrite EK, app_nil_r, <- !app_assoc; reflexivity|exact EA|rewrite zlen_app, zlen_repeat; unfold Y; lia|].
  unfold upper. rewrite E2. destruct (net_result keys (lo ++ hi) Y) as (s & lo' & hi' & Em & El & Eh & Ll & Lh & Rl & Rh & EC & Ps & Ss).
  { rewrite app_length. lia. } { apply Forall_app. split; assumption. } { rewrite concat_app, C1, C2, EK, <- !app_assoc. reflexivity. } { unfold Y. lia. }
  rewrite <- El, <- Eh. pose proof (store_rows_ok wz ltac:(lia) h 0 [] A V lo' ltac:(reflexivity) EA Ll Rl) as E3. cbn [app] in E3. rewrite <- EK in E3. rewrite E3.
  assert (LA : zlen (concat lo') = zlen A) by (rewrite (rows_len wz) by assumption; rewrite Ll; lia).
  pose proof (masked_rows_store wz ltac:(lia) num h ltac:(lia) h (concat lo') (V ++ repeat pad Y) [] hi') as E4.
  replace (firstn (Z.to_nat num) (concat lo' ++ (V ++ repeat pad Y) ++ [])) with (concat lo' ++ V) in E4.
  2: { rewrite app_nil_r, app_assoc. symmetry. apply firstn_exact. rewrite app_length. unfold zlen in *. lia. }
  rewrite E4; [|rewrite app_nil_r, !zlen_app, zlen_repeat; lia|lia|rewrite zlen_app, zlen_repeat; unfold Y; lia|exact Lh|exact Rh].
  exists s. split; [|split; assumption]. do 2 f_equal. rewrite app_nil_r, EC. apply firstn_exact. apply Permutation_length in Ps. unfold zlen in HK. lia.
Qed.

Lemma fault_ok keys num buf k : num = zlen keys -> kMin R wz < num <= total -> total < 2 ^ 62 -> N = 2 ^ k -> 0 <= k < 62 ->
  (exists j, 0 <= j /\ kMin R wz = 2 ^ j) -> total + N <= zlen buf ->
  exists keys' buf', sort_rows_fault lt pad N R wz prog keys num buf = Some (keys', buf') /\ zlen buf' = zlen buf /\ Permutation keys keys' /\ sorted lt keys'.
Proof.
  intros HK HM HT HN Hk0 (j & Hj & HKM) HB. unfold sort_rows_fault. unfold vw. rewrite (Z.min_r N wz) by lia.
  set (Y := Z.to_nat (total - num)). pose proof HM as HM0. unfold kMin in HM. set (Nmax := Z.min N (kMin R wz)).
  assert (HNm : exists e, 0 <= e <= 62 /\ Nmax = 2 ^ e /\ (2 ^ e | kMin R wz)).
  { unfold Nmax. assert (j < 62) by (apply (Z.pow_lt_mono_r_iff 2); [lia|lia|]; rewrite <- HKM; unfold kMin; lia).
    destruct (Z.le_gt_cases N (kMin R wz)) as [HL|HL].
    - exists k. split; [lia|]. split; [rewrite Z.min_l by exact HL; exact HN|]. rewrite HKM, HN in *. apply (Z.pow_le_mono_r_iff 2) in HL; [|lia|lia]. exists (2 ^ (j - k)). rewrite <- Z.pow_add_r by lia. f_equal. lia.
    - exists j. split; [lia|]. split; [rewrite Z.min_r by lia; exact HKM|]. rewrite HKM. apply Z.divide_refl. }
  destruct HNm as (e & He & EN & (q & Hq)). rewrite <- EN in Hq.
  assert (N1 : 1 <= Nmax) by (unfold Nmax, kMin; lia). assert (N2 : Nmax <= kMin R wz) by (unfold Nmax; lia).
  destruct (split_at keys (Z.of_nat h * wz)) as (A & V & EK & EA); [lia|]. pose proof (f_equal zlen EK) as LK. rewrite zlen_app in LK.
  destruct (load_rows_ok wz ltac:(lia) h 0 [] A V) as (lo & E1 & C1 & L1 & R1); [reflexivity|exact EA|]. cbn [app] in E1. rewrite <- EK in E1. unfold lower. rewrite E1.
  (* CopyHalfToPaddedBuf *)
  assert (CP : exists A1 U B2, copy_half_to_padded_buf pad N R wz keys num buf = Some (A1 ++ U ++ B2) /\ zlen A1 = zlen A /\ U = V ++ repeat pad Y /\ zlen (A1 ++ U ++ B2) = zlen buf).
  { unfold copy_half_to_padded_buf. fold Nmax. assert (EL : Z.land num (wrap 64 (Z.lnot (Nmax - 1))) = Nmax * (num / Nmax)) by (rewrite EN; apply Alloc_Proofs.land_align; lia). rewrite EL.
    set (i0 := Nmax * (num / Nmax)). assert (Hi0 : 0 <= i0 <= num /\ num < i0 + Nmax) by (unfold i0; pose proof (Z.div_mod num Nmax ltac:(lia)); pose proof (Z.mod_pos_bound num Nmax ltac:(lia)); nia).
    assert (TQ : total = Nmax * (2 * q)) by (unfold kMin in Hq; rewrite HR; lia).
    set (n := Z.to_nat (2 * q - num / Nmax - 1)).
    assert (HQ : num / Nmax <= 2 * q) by (apply Z.div_le_upper_bound; lia).
    destruct (split_at buf i0) as (D & D2 & ED & LD); [lia|]. pose proof (f_equal zlen ED) as LB. rewrite zlen_app in LB.
    assert (HnB : Z.of_nat (S n) * Nmax <= zlen D2 /\ total <= i0 + Z.of_nat (S n) * Nmax).
    { unfold n. destruct (Z.eq_dec (num / Nmax) (2 * q)) as [X|X].
      - replace (Z.to_nat (2 * q - num / Nmax - 1)) with O by lia. assert (i0 = total) by (unfold i0; lia). assert (Nmax <= N) by (unfold Nmax; lia). lia.
      - replace (Z.of_nat (S (Z.to_nat (2 * q - num / Nmax - 1)))) with (2 * q - num / Nmax) by lia. unfold i0 in *. split; lia. }
    assert (HnP : 0 <= Z.of_nat (S n) * Nmax) by (apply Z.mul_nonneg_nonneg; lia).
    destruct (split_at D2 (Z.of_nat (S n) * Nmax)) as (B1 & B2 & ED2 & LB1); [lia|].
    assert (EPL : pad_loop pad N R wz (S (length buf)) Nmax buf i0 = Some (D ++ repeat pad (length B1) ++ B2)).
    { rewrite <- LD. assert (Eb : buf = D ++ B1 ++ B2) by (rewrite ED, ED2; reflexivity). rewrite Eb at 2. apply (pad_loop_ok wz pad N R Nmax N1 ltac:(lia) n).
      - assert (Z.of_nat (S n) <= Z.of_nat (length buf)); [|lia]. apply Z.le_trans with (Z.of_nat (S n) * Nmax); [rewrite <- (Z.mul_1_r (Z.of_nat (S n))) at 1; apply Z.mul_le_mono_nonneg_l; lia|]. unfold zlen in *. lia.
      - exact LB1.
      - lia.
      - intros m Hm. unfold n in Hm. rewrite LD, TQ. assert (num / Nmax + Z.of_nat m < 2 * q) by lia. clear - N1 H. unfold i0. nia. }
    rewrite EPL.
    (* split the padding at num *)
    assert (EP : repeat pad (length B1) = repeat pad (Z.to_nat (num - i0)) ++ repeat pad (Z.to_nat (i0 + zlen B1 - num))) by (rewrite <- repeat_app; f_equal; unfold zlen in *; lia).
    rewrite EP. replace (D ++ (repeat pad (Z.to_nat (num - i0)) ++ repeat pad (Z.to_nat (i0 + zlen B1 - num))) ++ B2) with ((D ++ repeat pad (Z.to_nat (num - i0))) ++ (repeat pad (Z.to_nat (i0 + zlen B1 - num)) ++ B2)) by (rewrite <- !app_assoc; reflexivity).
    set (P1 := repeat pad (Z.to_nat (num - i0))). set (P2 := repeat pad (Z.to_nat (i0 + zlen B1 - num))).
    destruct (copy_loop_ok wz R Nmax [] N1 N2 (S (length keys)) keys (D ++ P1) (P2 ++ B2)) as (X1 & X2 & A1 & EX & LA1 & LX1 & EC).
    { unfold P1. rewrite zlen_app, zlen_repeat. lia. } { lia. } { unfold zlen. lia. }
    rewrite app_nil_r in EC. rewrite HK. rewrite EC.
    (* X2 = U1 ++ V with zlen (X1 ++ U1) = zlen A *)
    assert (LX2 : zlen keys = zlen X1 + zlen X2) by (rewrite EX at 1; apply zlen_app).
    unfold kMin in LX1. destruct (split_at X2 (zlen A - zlen X1)) as (U1 & V' & EU & LU); [lia|].
    assert (EV : X1 ++ U1 = A /\ V' = V). { apply (app_inv_len (X1 ++ U1) V' A V); [rewrite app_length; unfold zlen in *; lia|]. rewrite <- EK, EX, EU, <- app_assoc. reflexivity. } destruct EV as (EV1 & ->).
    assert (EP2 : P2 = repeat pad Y ++ repeat pad (Z.to_nat (i0 + zlen B1 - total))). { unfold P2, Y. rewrite <- repeat_app. f_equal. lia. }
    exists (A1 ++ U1), (V ++ repeat pad Y), (repeat pad (Z.to_nat (i0 + zlen B1 - total)) ++ B2).
    split; [rewrite EU, EP2, <- !app_assoc; reflexivity|]. split; [rewrite zlen_app; lia|]. split; [reflexivity|].
    pose proof (f_equal zlen EU) as LU2. rewrite zlen_app in LU2. rewrite LB. pose proof (f_equal zlen ED2) as LD2. rewrite zlen_app in LD2. rewrite !zlen_app, !zlen_repeat. unfold Y. lia. }
  destruct CP as (A1 & U & B2 & EC & LA1 & EU & LBuf). rewrite EC.
  assert (LU : zlen U = Z.of_nat h * wz) by (rewrite EU, zlen_app, zlen_repeat; unfold Y; lia).
  destruct (load_rows_ok wz ltac:(lia) h h A1 U B2) as (hi & E2 & C2 & L2 & R2); [lia|exact LU|]. unfold upper. rewrite E2.
  destruct (net_result keys (lo ++ hi) Y) as (s & lo' & hi' & Em & El & Eh & Ll & Lh & Rl & Rh & ECC & Ps & Ss).
  { rewrite app_length. lia. } { apply Forall_app. split; assumption. } { rewrite concat_app, C1, C2, EU, EK, <- !app_assoc. reflexivity. } { unfold Y. lia. }
  rewrite <- El, <- Eh. pose proof (store_rows_ok wz ltac:(lia) h 0 [] A V lo' ltac:(reflexivity) EA Ll Rl) as E3. cbn [app] in E3. rewrite <- EK in E3. rewrite E3.
  rewrite (store_rows_ok wz ltac:(lia) h h A1 U B2 hi' ltac:(lia) LU Lh Rh).
  assert (LA : zlen (concat lo') = zlen A) by (rewrite (rows_len wz) by assumption; rewrite Ll; lia).
  assert (LHi : zlen (concat hi') = Z.of_nat h * wz) by (rewrite (rows_len wz) by assumption; rewrite Lh; lia).
  destruct (split_at (concat hi') (num - zlen A)) as (Y1 & Y2 & EY & LY); [lia|]. rewrite EY, <- app_assoc.
  pose proof (copy_back_ok N (Y2 ++ B2) num ltac:(lia) (S (length (concat lo' ++ V))) Y1 V (concat lo') A1 (kMin R wz)) as E5.
  destruct (copy_back N (S (length (concat lo' ++ V))) (A1 ++ Y1 ++ Y2 ++ B2) (concat lo' ++ V) num (kMin R wz)) as [(kk & ii)|] eqn:ECB.
  2: { exfalso. assert (X : None = Some (concat lo' ++ Y1)); [|discriminate X]. apply E5; try (unfold kMin; lia); unfold zlen in *; rewrite ?app_length; lia. }
  rewrite E5; [|unfold kMin; lia|unfold kMin; lia|unfold kMin; lia|unfold kMin; lia|unfold zlen in *; rewrite ?app_length; lia].
  exists s, (A1 ++ Y1 ++ Y2 ++ B2). split.
  - do 2 f_equal. assert (X : concat lo' ++ Y1 ++ Y2 = s ++ repeat pad Y) by (rewrite <- EY; exact ECC). rewrite app_assoc in X. apply app_inv_len in X; [tauto|]. rewrite app_length. apply Permutation_length in Ps. unfold zlen in *. lia.
  - split; [|split; assumption]. pose proof (f_equal zlen EY) as LY2. rewrite zlen_app in LY2. rewrite <- LBuf, !zlen_app. lia.
Qed.
End Rows.

(** the limit as a function of the vector size *)
Lemma bcn_cases big lpk N k : N = 2 ^ k -> 0 <= k -> lpk = 1 \/ lpk = 2 ->
  (N = 1 /\ base_case_num big lpk N = 8) \/ (N = 2 /\ base_case_num big lpk N = 16) \/ (N = 4 /\ base_case_num big lpk N = 64) \/
  (N = 8 /\ (base_case_num big lpk N = 64 \/ base_case_num big lpk N = 128)) \/
  (16 <= N /\ (base_case_num big lpk N = 64 \/ base_case_num big lpk N = 128 \/ big = true /\ base_case_num big lpk N = 256)).
Proof.
  intros -> Hk Hl. destruct (Z.eq_dec k 0) as [->|]; [left; destruct Hl as [->| ->], big; (split; reflexivity)|].
  destruct (Z.eq_dec k 1) as [->|]; [right; left; destruct Hl as [->| ->], big; (split; reflexivity)|].
  destruct (Z.eq_dec k 2) as [->|]; [right; right; left; destruct Hl as [->| ->], big; (split; reflexivity)|].
  destruct (Z.eq_dec k 3) as [->|]; [right; right; right; left; split; [reflexivity|]; destruct Hl as [->| ->], big; (left; reflexivity) || (right; reflexivity)|].
  right; right; right; right. assert (H16 : 16 <= 2 ^ k) by (change 16 with (2 ^ 4); apply Z.pow_le_mono_r; lia). split; [exact H16|].
  unfold base_case_num. destruct (Z.leb_spec 4 (2 ^ k)); [|lia]. destruct Hl as [->| ->], big; unfold kMaxCols.
  - rewrite Z.min_r by lia. right; right. split; reflexivity.
  - rewrite Z.min_r by lia. right; left. reflexivity.
  - rewrite Z.min_r by lia. right; left. reflexivity.
  - rewrite Z.min_r by lia. left. reflexivity.
Qed.
Lemma log2_row num j : 0 <= j -> 2 ^ j < num <= 2 ^ (j + 1) -> num <= 2 ^ 16 -> match Num0BitsAboveMS1Bit_Nonzero32 (wrap 32 (num - 1)) with Some z => 32 - z = j + 1 | None => False end.
Proof.
  intros Hj H Hn. assert (1 <= 2 ^ j) by (change 1 with (2 ^ 0); apply Z.pow_le_mono_r; lia). rewrite (wrap_small 32 (num - 1)) by lia. unfold Num0BitsAboveMS1Bit_Nonzero32. destruct (Z.eqb_spec (num - 1) 0); [lia|].
  unfold bsr. assert (E : Z.log2 (num - 1) = j) by (apply Z.log2_unique; [exact Hj|]; change (Z.succ j) with (j + 1); lia). rewrite E.
  assert (j <= 16) by (rewrite <- E; change 16 with (Z.log2 (2 ^ 16)); apply Z.log2_le_mono; lia). rewrite (wrap_small 32 (31 - j)) by lia. lia.
Qed.

Section Dispatch.
Context {K : Type} (lt : K -> K -> bool) (pad : K).
Hypothesis TO : total_order lt.
Hypothesis PAD : forall x, lt pad x = false.
Lemma single_rows (m : list K) : wf (length m) 1 (map (fun x => [x]) m).
Proof. split; [now rewrite map_length|]. apply Forall_map. apply Forall_forall. reflexivity. Qed.
Lemma wf1_shape n (m : list (list K)) : wf n 1 m -> exists l, m = map (fun x => [x]) l /\ length l = n /\ concat m = l.
Proof.
  intros (L & F). exists (concat m). subst n. induction F as [|v m Hv F IH]; [split; [reflexivity|split; reflexivity]|]. destruct v as [|x [|? ?]]; try discriminate.
  destruct IH as (E1 & E2 & _). cbn [concat app map length]. rewrite <- E1, E2. split; [reflexivity|]. split; reflexivity.
Qed.
Lemma sort_2_ok a b buf : exists keys', sort_2_to_2 lt [a; b] buf = Some (keys', buf) /\ Permutation [a; b] keys' /\ sorted lt keys'.
Proof.
  pose proof (sort2_sorts lt TO [[a]; [b]] ltac:(split; [reflexivity|repeat constructor])) as (S1 & P1). eexists. split; [reflexivity|]. split; [exact P1|exact S1].
Qed.
Lemma sort_3_ok keys num buf : num = zlen keys -> 3 <= num <= 4 -> 1 <= zlen buf -> exists keys' buf', sort_3_to_4 lt pad keys num buf = Some (keys', buf') /\ zlen buf' = zlen buf /\ Permutation keys keys' /\ sorted lt keys'.
Proof.
  intros HK HN HB. destruct buf as [|b0 buf]; [lr|]. unfold sort_3_to_4. change (b0 :: buf) with ([] ++ [b0] ++ buf). rewrite (storeu_mid [] [b0] buf [pad] 0) by reflexivity. cbn [app].
  destruct keys as [|a [|b [|c [|d [|? ?]]]]]; try lr; subst num.
  - change (zlen [a; b; c] =? 3) with true. cbv iota. pose proof (loadu_mid [] [pad] buf 0 1 eq_refl eq_refl) as EL. cbn [app] in EL. rewrite EL.
    change (load_rows [0; 1; 2] 1 1 [a; b; c]) with (Some [[a]; [b]; [c]]). cbv iota. cbn [app].
    pose proof (sort4_sorts lt TO [[a]; [b]; [c]; [pad]] ltac:(split; [reflexivity|repeat constructor])) as (S1 & P1).
    assert (W : wf 4 1 (run (First lt) (Last lt) Sort4 [[a]; [b]; [c]; [pad]])) by (apply (run_wf _ _ 4 1 1); [split; [reflexivity|repeat constructor]|apply Nat.divide_refl|apply ok_prog_dec; reflexivity]).
    destruct (wf1_shape 4 _ W) as (l & Em & Ll & Ec). rewrite Em in *. destruct l as [|x [|y [|z [|t [|? ?]]]]]; try discriminate. cbn [map concat app] in *.
    destruct (sorted_pad_tail lt TO pad PAD [x; y; z; t] 1 [a; b; c] S1 P1) as (s & Es & Ps). change [x; y; z; t] with ([x; y; z] ++ [t]) in Es. change (repeat pad 1) with [pad] in Es. apply app_inj_tail in Es as (<- & ->).
    change (store_rows [0; 1; 2] 1 [[x]; [y]; [z]; [pad]] [a; b; c]) with (Some [x; y; z]). cbv iota. cbn [nth]. pose proof (storeu_mid [] [pad] buf [pad] 0 eq_refl eq_refl) as ES. cbn [app] in ES. rewrite ES.
    eexists _, _. split; [reflexivity|]. split; [reflexivity|]. split; [exact Ps|].
    intros i j u v L Hi Hj. apply (S1 i j); [exact L| |]; change [x; y; z; pad] with ([x; y; z] ++ [pad]); (rewrite nth_error_app1; [assumption|]); apply nth_error_Some; congruence.
  - change (zlen [a; b; c; d] =? 3) with false. cbv iota.
    change (load_rows [0; 1; 2] 1 1 [a; b; c; d]) with (Some [[a]; [b]; [c]]). change (loadu [a; b; c; d] 3 1) with (Some [d]). cbv iota. cbn [app].
    pose proof (sort4_sorts lt TO [[a]; [b]; [c]; [d]] ltac:(split; [reflexivity|repeat constructor])) as (S1 & P1).
    assert (W : wf 4 1 (run (First lt) (Last lt) Sort4 [[a]; [b]; [c]; [d]])) by (apply (run_wf _ _ 4 1 1); [split; [reflexivity|repeat constructor]|apply Nat.divide_refl|apply ok_prog_dec; reflexivity]).
    destruct (wf1_shape 4 _ W) as (l & Em & Ll & Ec). rewrite Em in *. destruct l as [|x [|y [|z [|t [|? ?]]]]]; try discriminate. cbn [map concat app] in *.
    eexists _, _. split; [reflexivity|]. split; [reflexivity|]. split; [exact P1|exact S1].
Qed.

Lemma rows_case (fault : bool) N k R (w : nat) prog offs keys num buf :
  1 <= Z.of_nat w <= N -> N = 2 ^ k -> 0 <= k < 62 -> R = (2 * (R / 2))%nat -> Forall (ok_instr R w) prog ->
  (forall m, wf R w m -> sorted lt (concat (run (First lt) (Last lt) prog m)) /\ Permutation (concat m) (concat (run (First lt) (Last lt) prog m))) ->
  num = zlen keys -> kMin R (Z.of_nat w) < num <= Z.of_nat R * Z.of_nat w -> Z.of_nat R * Z.of_nat w < 2 ^ 62 ->
  map (fun o => kMin R (Z.of_nat w) + o * Z.of_nat w) offs = map (fun r => r * Z.of_nat w) (upper R) ->
  (exists j, 0 <= j /\ kMin R (Z.of_nat w) = 2 ^ j) -> Z.of_nat R * Z.of_nat w + N <= zlen buf ->
  exists keys' buf', (if fault then sort_rows_fault lt pad N R (Z.of_nat w) prog keys num buf else sort_rows_masked lt pad N R (Z.of_nat w) offs prog keys num buf) = Some (keys', buf') /\
    zlen buf' = zlen buf /\ Permutation keys keys' /\ sorted lt keys'.
Proof.
  intros Hw HN Hk HR HP HS HK HM HT HO HJ HB. destruct fault.
  - now apply (fault_ok lt pad TO PAD N R w prog Hw HR HP HS keys num buf k).
  - destruct (masked_ok lt pad TO PAD N R w prog Hw HR HP HS offs keys num buf HK HM ltac:(lia) HO) as (keys' & E & P & S). exists keys', buf. auto.
Qed.
Lemma base_case_ok fault big lpk N maxN k keys buf : N = 2 ^ k -> 0 <= k < 62 -> N <= maxN -> lpk = 1 \/ lpk = 2 ->
  zlen keys <= base_case_num big lpk N -> base_case_num big lpk N + N <= zlen buf ->
  exists keys' buf', base_case lt pad fault N maxN big keys (zlen keys) buf = Some (keys', buf') /\ zlen buf' = zlen buf /\ Permutation keys keys' /\ sorted lt keys'.
Proof.
  intros HN Hk HM Hl HK HB. unfold base_case. pose proof (zlen_nonneg keys) as H0. assert (HNp : 1 <= N) by (rewrite HN; change 1 with (2 ^ 0); apply Z.pow_le_mono_r; lia).
  pose proof (bcn_cases big lpk N k HN ltac:(lia) Hl) as BC.
  destruct (Z.leb_spec (zlen keys) 1) as [H1|H1].
  { exists keys, buf. split; [reflexivity|]. split; [reflexivity|]. split; [reflexivity|]. intros i j x y L Hi Hj. assert (j < length keys)%nat by (apply nth_error_Some; congruence). unfold zlen in H1. lia. }
  assert (CASES : exists j, (0 <= j <= 7) /\ 2 ^ j < zlen keys <= 2 ^ (j + 1)).
  { assert (zlen keys <= 256) by lia. exists (Z.log2 (zlen keys - 1)). pose proof (Z.log2_spec (zlen keys - 1) ltac:(lia)) as L. change (Z.succ (Z.log2 (zlen keys - 1))) with (Z.log2 (zlen keys - 1) + 1) in L || unfold Z.succ in L.
    split; [split; [apply Z.log2_nonneg|change 7 with (Z.log2 255); apply Z.log2_le_mono; lia]|lia]. }
  destruct CASES as (j & Hj & HR). assert (L16 : zlen keys <= 2 ^ 16) by lia. pose proof (log2_row (zlen keys) j ltac:(lia) HR L16) as LG.
  destruct (Num0BitsAboveMS1Bit_Nonzero32 (wrap 32 (zlen keys - 1))) as [z|]; [|contradiction]. rewrite LG. clear LG.
  assert (J : j = 0 \/ j = 1 \/ j = 2 \/ j = 3 \/ j = 4 \/ j = 5 \/ j = 6 \/ j = 7) by lia.
  destruct J as [->|[->|[->|[->|[->|[->|[->| ->]]]]]]]; match goal with |- context [Z.to_nat ?e] => let n := eval vm_compute in (Z.to_nat e) in change (Z.to_nat e) with n end; unfold funcs; cbn [nth_error];
  match type of HR with ?a < _ <= ?b => let x := eval vm_compute in a in let y := eval vm_compute in b in change (x < zlen keys <= y) in HR end.
  - destruct keys as [|a [|b [|? ?]]]; try lr. destruct (sort_2_ok a b buf) as (k' & E & P & S). exists k', buf. auto.
  - apply sort_3_ok; [reflexivity|lia|lia].
  - unfold sort_8_rows. eapply (rows_case fault N k 8 1 (net8 1) offs8); [cbn; lia|exact HN|exact Hk|reflexivity|apply net8_cols; tauto|intros m; apply net8_sorts; [exact TO|tauto]|reflexivity|unfold kMin; cbn [Nat.div fst Nat.divmod Z.of_nat Pos.of_succ_nat Pos.succ]; lia|lia|reflexivity|exists 2; split; [lia|reflexivity]|lia].
  - assert (2 <= N) by lia. destruct (Z.leb_spec 2 maxN); [|lia].
    unfold sort_8_rows. eapply (rows_case fault N k 8 2 (net8 2) offs8); [cbn; lia|exact HN|exact Hk|reflexivity|apply net8_cols; tauto|intros m; apply net8_sorts; [exact TO|tauto]|reflexivity|unfold kMin; cbn [Nat.div fst Nat.divmod Z.of_nat Pos.of_succ_nat Pos.succ]; lia|lia|reflexivity|exists 3; split; [lia|reflexivity]|lia].
  - assert (4 <= N) by lia. destruct (Z.leb_spec 4 maxN); [|lia].
    unfold sort_8_rows. eapply (rows_case fault N k 8 4 (net8 4) offs8); [cbn; lia|exact HN|exact Hk|reflexivity|apply net8_cols; tauto|intros m; apply net8_sorts; [exact TO|tauto]|reflexivity|unfold kMin; cbn [Nat.div fst Nat.divmod Z.of_nat Pos.of_succ_nat Pos.succ]; lia|lia|reflexivity|exists 4; split; [lia|reflexivity]|lia].
  - assert (4 <= N) by lia. destruct (Z.leb_spec 4 maxN); [|lia].
    unfold sort_16_rows. eapply (rows_case fault N k 16 4 (net16 4) offs16); [cbn; lia|exact HN|exact Hk|reflexivity|apply net16_cols; tauto|intros m; apply net16_sorts; [exact TO|tauto]|reflexivity|unfold kMin; cbn [Nat.div fst Nat.divmod Z.of_nat Pos.of_succ_nat Pos.succ]; lia|lia|reflexivity|exists 5; split; [lia|reflexivity]|lia].
  - assert (8 <= N) by lia. destruct (Z.leb_spec 8 maxN); [|lia].
    unfold sort_16_rows. eapply (rows_case fault N k 16 8 (net16 8) offs16); [cbn; lia|exact HN|exact Hk|reflexivity|apply net16_cols; tauto|intros m; apply net16_sorts; [exact TO|tauto]|reflexivity|unfold kMin; cbn [Nat.div fst Nat.divmod Z.of_nat Pos.of_succ_nat Pos.succ]; lia|lia|reflexivity|exists 6; split; [lia|reflexivity]|lia].
  - assert (16 <= N) by lia. assert (HBig : big = true) by (destruct big; [reflexivity|intuition lia]). rewrite HBig in *. destruct (Z.leb_spec 16 maxN); [|lia]. cbn [andb].
    unfold sort_16_rows. eapply (rows_case fault N k 16 16 (net16 16) offs16); [cbn; lia|exact HN|exact Hk|reflexivity|apply net16_cols; tauto|intros m; apply net16_sorts; [exact TO|tauto]|reflexivity|unfold kMin; cbn [Nat.div fst Nat.divmod Z.of_nat Pos.of_succ_nat Pos.succ]; lia|lia|reflexivity|exists 7; split; [lia|reflexivity]|lia].
Qed.
End Dispatch.
