From Coq Require Import ZArith List Arith Bool Lia Permutation.
From Verif Require Import Vec_Model Partition_Proofs Sort_Spec Network_Model Network_Check Network_Proofs.
Import ListNotations.

(** * 0-1 sequences *)
Fixpoint bsortedb (l : list bool) : bool :=
  match l with [] => true | a :: t => match t with [] => true | b :: _ => implb a b && bsortedb t end end.
Definition zsteps (n z : nat) : list bool := repeat false z ++ repeat true (n - z).
Lemma bsortedb_true t : bsortedb (true :: t) = true -> t = repeat true (length t).
Proof.
  induction t as [|b t IH]; intros H; [reflexivity|]. destruct b; [cbn [repeat length]; f_equal; apply IH; exact H|discriminate].
Qed.
Lemma bsortedb_steps l : bsortedb l = true -> exists z, z <= length l /\ l = zsteps (length l) z.
Proof.
  induction l as [|a t IH]; intros H; [exists 0; split; [auto|reflexivity]|]. destruct a.
  - exists 0. split; [lia|]. unfold zsteps. cbn [repeat app length Nat.sub]. f_equal. now apply bsortedb_true.
  - assert (Ht : bsortedb t = true) by (destruct t; [reflexivity|apply andb_prop in H; tauto]). destruct (IH Ht) as (z & Hz & E). exists (S z). split; [cbn; lia|].
    unfold zsteps in *. cbn [repeat app length Nat.sub]. f_equal. exact E.
Qed.
Lemma zsteps_nth n z i : i < n -> nth i (zsteps n z) false = (z <=? i).
Proof.
  intros H. unfold zsteps. destruct (Nat.leb_spec z i).
  - rewrite app_nth2 by (rewrite repeat_length; lia). rewrite repeat_length. rewrite nth_indep with (d' := true) by (rewrite repeat_length; lia). apply nth_repeat.
  - rewrite app_nth1 by (rewrite repeat_length; lia). apply nth_repeat.
Qed.

(** * packed evaluation *)
Lemma packl_testbit l : forall k, Z.testbit (packl l) (Z.of_nat k) = nth k l false.
Proof.
  induction l as [|b l IH]; intros k; [destruct k; reflexivity|]. cbn [packl]. destruct k as [|k].
  - destruct b; [rewrite Z.succ_double_spec, Z.testbit_odd_0|rewrite Z.double_spec, Z.testbit_even_0]; reflexivity.
  - rewrite Nat2Z.inj_succ. destruct b; [rewrite Z.succ_double_spec, Z.testbit_odd_succ by lia|rewrite Z.double_spec, Z.testbit_even_succ by lia]; apply IH.
Qed.
Lemma zsortedb_bits l k : zsortedb l = true -> bsortedb (map (fun z => Z.testbit z (Z.of_nat k)) l) = true.
Proof.
  induction l as [|a t IH]; intros H; [reflexivity|]. destruct t as [|b t]; [reflexivity|]. cbn [zsortedb] in H. apply andb_prop in H as (H1 & H2). apply Z.eqb_eq in H1.
  change (implb (Z.testbit a (Z.of_nat k)) (Z.testbit b (Z.of_nat k)) && bsortedb (map (fun z => Z.testbit z (Z.of_nat k)) (b :: t)) = true). rewrite IH by exact H2. rewrite andb_true_r.
  assert (X : Z.testbit (Z.ldiff a b) (Z.of_nat k) = false) by (rewrite H1; apply Z.testbit_0_l). rewrite Z.ldiff_spec in X. destruct (Z.testbit a _), (Z.testbit b _); try reflexivity; discriminate.
Qed.
Lemma check_ok {I} rows g (L : list I) e p i : check rows g L e p = true -> In i L -> bsortedb (concat (run andb orb p (bmat rows g e i))) = true.
Proof.
  intros H Hi. apply In_nth_error in Hi as (k & Hk). unfold check in H. apply zsortedb_bits with (k := k) in H. rewrite concat_map in H.
  rewrite (run_hom Z.land Z.lor andb orb (fun z => Z.testbit z (Z.of_nat k))) in H by (intros; (apply Z.land_spec || apply Z.lor_spec)).
  replace (map (map (fun z => Z.testbit z (Z.of_nat k))) (pack_mat rows g L e)) with (bmat rows g e i) in H; [exact H|].
  unfold bmat, pack_mat. rewrite map_map. apply map_ext. intros r. rewrite map_map. apply map_ext. intros c. rewrite packl_testbit.
  symmetry. apply nth_error_nth. exact (map_nth_error (e r c) k L Hk).
Qed.

(** * matrices by entries *)
Lemma nth_concat {A} (d : A) h : forall rows M, wf rows h M -> forall r c, r < rows -> c < h -> nth (r * h + c) (concat M) d = nth c (nth r M []) d.
Proof.
  induction rows as [|rows IH]; intros M (L & F) r c Hr Hc; [lia|]. destruct M as [|x M]; [discriminate|]. inversion F as [|? ? Hx F']; subst. cbn [concat].
  destruct r as [|r].
  - cbn [nth]. rewrite app_nth1 by lia. reflexivity.
  - rewrite app_nth2 by lia. replace (S r * length x + c - length x) with (r * length x + c) by lia. cbn [nth]. apply IH; [split; [cbn in L; lia|assumption]|lia|lia].
Qed.
Lemma nth_slice {A} (d : A) s n v c : c < n -> nth c (slice s n v) d = nth (s + c) v d.
Proof.
  intros H. unfold slice. assert (X : forall (l : list A) n c, c < n -> nth c (firstn n l) d = nth c l d). { clear. induction l as [|x l IH]; intros [|n] [|c] H; cbn; try lia; try reflexivity. apply IH. lia. }
  rewrite X by exact H. clear. revert s. induction v as [|x v IH]; intros [|s]; try reflexivity; cbn; [destruct c; reflexivity|apply IH].
Qed.
Lemma bmat_ext {I} rows g (e : nat -> nat -> I -> bool) i m : wf rows g m -> (forall r c, r < rows -> c < g -> nth c (nth r m []) false = e r c i) -> m = bmat rows g e i.
Proof.
  intros (L & F) H. unfold bmat. apply nth_ext with (d := []) (d' := []); [now rewrite map_length, seq_length|]. intros r Hr.
  set (f := fun r => map (fun c => e r c i) (seq 0 g)). rewrite nth_indep with (l := map f _) (d' := f 0) by (rewrite map_length, seq_length; lia). rewrite map_nth, seq_nth by lia. cbn [plus]. unfold f.
  assert (Lr : length (nth r m []) = g) by (rewrite Forall_forall in F; apply F, nth_In, Hr).
  apply nth_ext with (d := false) (d' := e r 0 i); [now rewrite map_length, seq_length|]. intros c Hc. rewrite (map_nth (fun c => e r c i)), seq_nth by lia. apply H; lia.
Qed.
Lemma all_bools_in n : forall l, length l = n -> In l (all_bools n).
Proof. induction n as [|n IH]; intros [|b l] H; try discriminate; [left; reflexivity|]. cbn [all_bools]. apply in_or_app. cbn in H. destruct b; [right|left]; apply in_map, IH; lia. Qed.

(** * groups of columns of 0-1 matrices *)
Definition gs (h w : nat) (m : list (list bool)) : Prop := forall j, (j + 1) * h <= w -> bsortedb (concat (map (slice (j * h) h) m)) = true.
Lemma cols_ok rows p w : check rows 1 (all_bools rows) col_e p = true -> Forall (ok_instr rows 1) p ->
  forall m, wf rows w m -> gs 1 w (run andb orb p m).
Proof.
  intros C O m W j Hj. rewrite (run_slice andb orb rows w 1) by (first [assumption|apply Nat.divide_1_l|lia]).
  pose proof (wf_slice rows w m (j * 1) 1 W ltac:(lia)) as W'. set (m' := map (slice (j * 1) 1) m) in *.
  assert (LC : length (concat m') = rows). { destruct W' as (<- & F). clear - F. induction F as [|x l Hx F IH]; [reflexivity|]. cbn. rewrite app_length, Hx, IH. reflexivity. }
  rewrite (bmat_ext rows 1 col_e (concat m') m' W'); [apply (check_ok rows 1 (all_bools rows)); [exact C|apply all_bools_in; exact LC]|].
  intros r c Hr Hc. unfold col_e. assert (c = 0) by lia. subst c. rewrite <- (nth_concat false 1 rows m' W' r 0 Hr) by lia. f_equal. lia.
Qed.
Lemma Zleb_nat a b : Z.leb (Z.of_nat a) (Z.of_nat b) = (a <=? b).
Proof. destruct (Z.leb_spec (Z.of_nat a) (Z.of_nat b)), (Nat.leb_spec a b); try reflexivity; lia. Qed.
Lemma slice_slice {A} s n a b (v : list A) : a + b <= n -> slice a b (slice s n v) = slice (s + a) b v.
Proof. intros H. unfold slice. rewrite skipn_firstn_comm, firstn_firstn, Vec_Proofs.skipn_add. f_equal. lia. Qed.
Lemma merge_ok rows h p w : check rows (2 * h) (all_z (rows * h)) (half_e h) p = true -> Forall (ok_instr rows (2 * h)) p -> Nat.divide (2 * h) w ->
  forall m, wf rows w m -> gs h w m -> gs (2 * h) w (run andb orb p m).
Proof.
  intros C O D m W G j Hj. rewrite (run_slice andb orb rows w (2 * h)) by (first [assumption|apply Nat.divide_refl|exists j; lia|lia]).
  pose proof (wf_slice rows w m (j * (2 * h)) (2 * h) W ltac:(lia)) as W'. set (m' := map (slice (j * (2 * h)) (2 * h)) m) in *.
  assert (HG : forall a, a < 2 -> exists z, z <= rows * h /\ concat (map (slice (a * h) h) m') = zsteps (rows * h) z).
  { intros a Ha. unfold m'. rewrite map_map. rewrite (map_ext _ (slice ((2 * j + a) * h) h)) by (intros v; rewrite slice_slice by nia; f_equal; lia).
    pose proof (wf_slice rows w m ((2 * j + a) * h) h W ltac:(nia)) as (L2 & F2).
    destruct (bsortedb_steps _ (G (2 * j + a) ltac:(nia))) as (z & Hz & E).
    assert (LC : length (concat (map (slice ((2 * j + a) * h) h) m)) = rows * h). { rewrite <- L2. clear - F2. induction F2 as [|x l Hx F IH]; [reflexivity|]. cbn. rewrite app_length, Hx, IH. reflexivity. }
    rewrite LC in *. exists z. split; assumption. }
  destruct (HG 0 ltac:(lia)) as (z1 & Hz1 & E1). destruct (HG 1 ltac:(lia)) as (z2 & Hz2 & E2).
  rewrite (bmat_ext rows (2 * h) (half_e h) (Z.of_nat z1, Z.of_nat z2) m' W').
  - apply (check_ok rows (2 * h) (all_z (rows * h))); [exact C|]. unfold all_z; apply in_prod; apply in_map, in_seq; lia.
  - intros r c Hr Hc. unfold half_e. destruct (Nat.ltb_spec c h) as [Hch|Hch]; cbn [fst snd].
    + assert (r * h + c < rows * h) by nia. rewrite Zleb_nat, <- (zsteps_nth (rows * h) z1) by assumption. rewrite <- E1. rewrite (nth_concat false h rows) by (first [apply (wf_slice rows (2 * h)); [exact W'|lia]|assumption]).
      replace (nth r (map (slice (0 * h) h) m') []) with (slice (0 * h) h (nth r m' [])) by exact (row_map_slice (0 * h) h m' r).
      rewrite nth_slice by assumption. reflexivity.
    + assert (r * h + (c - h) < rows * h) by nia. rewrite Zleb_nat, <- (zsteps_nth (rows * h) z2) by assumption. rewrite <- E2. rewrite (nth_concat false h rows) by (first [apply (wf_slice rows (2 * h)); [exact W'|lia]|assumption|lia]).
      replace (nth r (map (slice (1 * h) h) m') []) with (slice (1 * h) h (nth r m' [])) by exact (row_map_slice (1 * h) h m' r).
      rewrite nth_slice by lia. f_equal. lia.
Qed.

(** * the whole networks on 0-1 matrices *)
Lemma slice_all {A} (v : list A) : slice 0 (length v) v = v.
Proof. unfold slice. cbn [skipn]. apply firstn_all. Qed.
Lemma gs_whole rows w m : wf rows w m -> gs w w m -> bsortedb (concat m) = true.
Proof.
  intros (L & F) G. specialize (G 0 ltac:(lia)). rewrite Nat.mul_0_l in G. replace (map (slice 0 w) m) with m in G; [exact G|].
  clear - F. induction F as [|v m Hv F IH]; [reflexivity|]. cbn [map]. rewrite <- IH, <- Hv at 1. now rewrite slice_all.
Qed.
Lemma run_app {K} (f l : K -> K -> K) p q m : run f l (p ++ q) m = run f l q (run f l p m).
Proof. revert m. induction p as [|i p IH]; intros m; [reflexivity|]. cbn [app run]. apply IH. Qed.

Ltac okp := apply ok_prog_dec; vm_compute; reflexivity.
Ltac dv := match goal with |- Nat.divide ?a ?b => let q := eval cbv in (b / a) in exists q; reflexivity end.
Lemma net8_cols c : c = 1 \/ c = 2 \/ c = 4 -> Forall (ok_instr 8 c) (net8 c).
Proof. intros [->|[->| ->]]; okp. Qed.
Lemma net16_cols c : c = 1 \/ c = 2 \/ c = 4 \/ c = 8 \/ c = 16 -> Forall (ok_instr 16 c) (net16 c).
Proof. intros [->|[->|[->|[->| ->]]]]; okp. Qed.
Ltac mrg ck g := eapply (merge_ok _ _ _ _ ck); [okp|dv| |].
Lemma net8_bool c m : c = 1 \/ c = 2 \/ c = 4 -> wf 8 c m -> bsortedb (concat (run andb orb (net8 c) m)) = true.
Proof.
  intros HC W. pose proof (run_wf andb orb 8 c c (net8 c) m W (Nat.divide_refl c) (net8_cols c HC)) as W'. apply (gs_whole 8 c); [exact W'|]. clear W'.
  assert (O8 : Forall (ok_instr 8 1) Sort8) by okp.
  pose proof (cols_ok 8 Sort8 c check_sort8 O8 m W) as G1. pose proof (run_wf andb orb 8 c 1 Sort8 m W (Nat.divide_1_l c) O8) as W1.
  destruct HC as [->|[->| ->]]; unfold net8; cbn [Nat.ltb Nat.leb]; rewrite ?app_nil_r, ?run_app; [exact G1| |].
  - apply (merge_ok 8 1 Merge8x2 2 check_merge8x2); [okp|dv|exact W1|exact G1].
  - apply (merge_ok 8 2 Merge8x4 4 check_merge8x4); [okp|dv| |].
    + apply (run_wf andb orb 8 4 2); [exact W1|dv|okp].
    + apply (merge_ok 8 1 Merge8x2 4 check_merge8x2); [okp|dv|exact W1|exact G1].
Qed.
Lemma net16_bool c m : c = 1 \/ c = 2 \/ c = 4 \/ c = 8 \/ c = 16 -> wf 16 c m -> bsortedb (concat (run andb orb (net16 c) m)) = true.
Proof.
  intros HC W. pose proof (run_wf andb orb 16 c c (net16 c) m W (Nat.divide_refl c) (net16_cols c HC)) as W'. apply (gs_whole 16 c); [exact W'|]. clear W'.
  assert (O8 : Forall (ok_instr 16 1) Sort16) by okp.
  pose proof (cols_ok 16 Sort16 c check_sort16 O8 m W) as G1. pose proof (run_wf andb orb 16 c 1 Sort16 m W (Nat.divide_1_l c) O8) as W1.
  assert (S2 : Nat.divide 2 c -> gs 2 c (run andb orb Merge16x2 (run andb orb Sort16 m)) /\ wf 16 c (run andb orb Merge16x2 (run andb orb Sort16 m))).
  { intros D. split; [apply (merge_ok 16 1 Merge16x2 c check_merge16x2); [okp|exact D|exact W1|exact G1]|apply (run_wf andb orb 16 c 2); [exact W1|exact D|okp]]. }
  assert (S4 : Nat.divide 4 c -> gs 4 c (run andb orb Merge16x4 (run andb orb Merge16x2 (run andb orb Sort16 m))) /\ wf 16 c (run andb orb Merge16x4 (run andb orb Merge16x2 (run andb orb Sort16 m)))).
  { intros D. destruct S2 as (G2 & W2); [eapply Nat.divide_trans; [|exact D]; dv|]. split; [apply (merge_ok 16 2 Merge16x4 c check_merge16x4); [okp|exact D|exact W2|exact G2]|apply (run_wf andb orb 16 c 4); [exact W2|exact D|okp]]. }
  assert (S8 : Nat.divide 8 c -> gs 8 c (run andb orb Merge16x8 (run andb orb Merge16x4 (run andb orb Merge16x2 (run andb orb Sort16 m)))) /\ wf 16 c (run andb orb Merge16x8 (run andb orb Merge16x4 (run andb orb Merge16x2 (run andb orb Sort16 m))))).
  { intros D. destruct S4 as (G2 & W2); [eapply Nat.divide_trans; [|exact D]; dv|]. split; [apply (merge_ok 16 4 Merge16x8 c check_merge16x8); [okp|exact D|exact W2|exact G2]|apply (run_wf andb orb 16 c 8); [exact W2|exact D|okp]]. }
  destruct HC as [->|[->|[->|[->| ->]]]]; unfold net16; cbn [Nat.ltb Nat.leb]; rewrite ?app_nil_r, ?run_app; [exact G1| | | |].
  - apply S2. dv.
  - apply S4. dv.
  - apply S8. dv.
  - destruct S8 as (G & W8); [dv|]. apply (merge_ok 16 8 Merge16x16 16 check_merge16x16); [okp|dv|exact W8|exact G].
Qed.
Lemma sort2_bool m : wf 2 1 m -> bsortedb (concat (run andb orb Sort2 m)) = true.
Proof. intros W. assert (O : Forall (ok_instr 2 1) Sort2) by okp. apply (gs_whole 2 1); [apply (run_wf andb orb 2 1 1); [exact W|dv|exact O]|]. apply (cols_ok 2 Sort2 1 check_sort2 O m W). Qed.
Lemma sort4_bool m : wf 4 1 m -> bsortedb (concat (run andb orb Sort4 m)) = true.
Proof. intros W. assert (O : Forall (ok_instr 4 1) Sort4) by okp. apply (gs_whole 4 1); [apply (run_wf andb orb 4 1 1); [exact W|dv|exact O]|]. apply (cols_ok 4 Sort4 1 check_sort4 O m W). Qed.
