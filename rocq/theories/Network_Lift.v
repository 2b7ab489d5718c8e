From Coq Require Import ZArith List Arith Bool Lia Permutation.
From Verif Require Import Vec_Model Partition_Proofs Sort_Spec Network_Model Network_Check Network_Proofs Network_Sort BaseCase_Model.
Import ListNotations.

Section Lift.
Context {K : Type} (lt : K -> K -> bool).
Hypothesis TO : total_order lt.

Lemma lt_asym a b : lt a b = true -> lt b a = false.
Proof. intros H. destruct (lt b a) eqn:E; [|reflexivity]. destruct TO as ((IR & TR & _) & _). rewrite <- (IR a). symmetry. eauto. Qed.
Lemma sort2_pair a b : Permutation [First lt a b; Last lt a b] [a; b].
Proof. unfold First, Last. destruct (lt a b); [reflexivity|apply perm_swap]. Qed.
Lemma last_comm a b : Last lt a b = Last lt b a.
Proof.
  unfold Last. destruct (lt a b) eqn:E1, (lt b a) eqn:E2; try reflexivity.
  - rewrite (lt_asym a b E1) in E2. discriminate.
  - destruct TO as (_ & AS). now apply AS.
Qed.
(** thresholds *)
Definition ge (x z : K) : bool := negb (lt z x).
Lemma ge_first x a b : ge x (First lt a b) = ge x a && ge x b.
Proof.
  unfold ge, First. destruct TO as ((IR & TR & NT) & _). destruct (lt a b) eqn:E; destruct (lt a x) eqn:E1, (lt b x) eqn:E2; try reflexivity.
  - rewrite (TR a b x E E2) in E1. discriminate.
  - rewrite (NT a b x E E2) in E1. discriminate.
Qed.
Lemma ge_last x a b : ge x (Last lt a b) = ge x a || ge x b.
Proof.
  unfold ge, Last. destruct TO as ((IR & TR & NT) & _). destruct (lt a b) eqn:E; destruct (lt a x) eqn:E1, (lt b x) eqn:E2; try reflexivity.
  - rewrite (TR a b x E E2) in E1. discriminate.
  - rewrite (NT a b x E E2) in E1. discriminate.
Qed.
Lemma bsortedb_nth l : bsortedb l = true -> forall i j, i < j -> nth_error l i = Some true -> forall b, nth_error l j = Some b -> b = true.
Proof.
  induction l as [|a t IH]; intros H i j L Hi b Hj; [destruct j; discriminate|]. destruct j as [|j]; [lia|]. cbn [nth_error] in Hj. destruct i as [|i].
  - cbn in Hi. injection Hi as ->. rewrite (bsortedb_true t H) in Hj. apply nth_error_In in Hj. apply repeat_spec in Hj. exact Hj.
  - apply (IH ltac:(destruct t; [reflexivity|apply andb_prop in H; tauto]) i j ltac:(lia) Hi b Hj).
Qed.
Lemma thresholds_sorted l : (forall x, bsortedb (map (ge x) l) = true) -> sorted lt l.
Proof.
  intros H i j x y L Hi Hj. specialize (H x). pose proof (bsortedb_nth _ H i j L) as X. rewrite (map_nth_error (ge x) i l Hi) in X. specialize (X ltac:(unfold ge; now rewrite (proj1 (proj1 TO)))).
  specialize (X _ (map_nth_error (ge x) j l Hj)). unfold ge in X. now apply negb_true_iff in X.
Qed.
(** 0-1 principle for these programs *)
Lemma zero_one rows w g p m : wf rows w m -> Nat.divide g w -> Forall (ok_instr rows g) p -> (forall b, wf rows w b -> bsortedb (concat (run andb orb p b)) = true) ->
  sorted lt (concat (run (First lt) (Last lt) p m)) /\ Permutation (concat m) (concat (run (First lt) (Last lt) p m)).
Proof.
  intros W D O H. split.
  - apply thresholds_sorted. intros x. rewrite concat_map, (run_hom (First lt) (Last lt) andb orb (ge x)) by (intros; (apply ge_first || apply ge_last)). apply H.
    destruct W as (L & F). split; [now rewrite map_length|]. apply Forall_map. eapply Forall_impl; [|exact F]. intros v Hv. now rewrite map_length.
  - symmetry. eapply run_perm; eauto using sort2_pair, last_comm.
Qed.
Lemma net8_sorts c m : c = 1 \/ c = 2 \/ c = 4 -> wf 8 c m ->
  sorted lt (concat (run (First lt) (Last lt) (net8 c) m)) /\ Permutation (concat m) (concat (run (First lt) (Last lt) (net8 c) m)).
Proof. intros H W. apply (zero_one 8 c c); [exact W|apply Nat.divide_refl|now apply net8_cols|intros b; now apply net8_bool]. Qed.
Lemma net16_sorts c m : c = 1 \/ c = 2 \/ c = 4 \/ c = 8 \/ c = 16 -> wf 16 c m ->
  sorted lt (concat (run (First lt) (Last lt) (net16 c) m)) /\ Permutation (concat m) (concat (run (First lt) (Last lt) (net16 c) m)).
Proof. intros H W. apply (zero_one 16 c c); [exact W|apply Nat.divide_refl|now apply net16_cols|intros b; now apply net16_bool]. Qed.
Lemma sort2_sorts m : wf 2 1 m ->
  sorted lt (concat (run (First lt) (Last lt) Sort2 m)) /\ Permutation (concat m) (concat (run (First lt) (Last lt) Sort2 m)).
Proof. intros W. apply (zero_one 2 1 1); [exact W|apply Nat.divide_refl|okp|exact sort2_bool]. Qed.
Lemma sort4_sorts m : wf 4 1 m ->
  sorted lt (concat (run (First lt) (Last lt) Sort4 m)) /\ Permutation (concat m) (concat (run (First lt) (Last lt) Sort4 m)).
Proof. intros W. apply (zero_one 4 1 1); [exact W|apply Nat.divide_refl|okp|exact sort4_bool]. Qed.

(** sorting keys followed by maximal padding leaves the padding at the end *)
Variable pad : K.
Hypothesis PAD : forall x, lt pad x = false.
Lemma sorted_cons_inv x l : sorted lt (x :: l) -> sorted lt l /\ forall y, In y l -> lt y x = false.
Proof.
  intros H. split.
  - intros i j a b L Hi Hj. apply (H (S i) (S j)); [lia|exact Hi|exact Hj].
  - intros y Hy. apply In_nth_error in Hy as (j & Hj). apply (H 0 (S j)); [lia|reflexivity|exact Hj].
Qed.
Lemma sorted_pad_tail : forall s k keys, sorted lt s -> Permutation (keys ++ repeat pad k) s -> exists s', s = s' ++ repeat pad k /\ Permutation keys s'.
Proof.
  intros s. induction s as [|x s IH] using rev_ind; intros k keys So P.
  - apply Permutation_sym, Permutation_nil in P. destruct k; [|destruct keys; discriminate]. destruct keys; [|discriminate]. exists []. split; [reflexivity|constructor].
  - destruct k as [|k]; [rewrite app_nil_r in P; exists (s ++ [x]); split; [now rewrite app_nil_r|exact P]|].
    assert (EX : x = pad).
    { assert (I : In pad (s ++ [x])) by (eapply Permutation_in; [exact P|]; apply in_or_app; right; now left).
      apply in_app_or in I as [I|[->|[]]]; [|reflexivity]. apply In_nth_error in I as (i & Hi). assert (i < length s) by (apply nth_error_Some; congruence).
      assert (lt x pad = false) by (apply (So i (length s)); [assumption|rewrite nth_error_app1 by assumption; exact Hi|rewrite nth_error_app2, Nat.sub_diag by lia; reflexivity]).
      destruct TO as (_ & AS). apply AS; [assumption|apply PAD]. }
    subst x. destruct (IH k keys) as (s' & E & P').
    + intros i j a b L Hi Hj. assert (i < length s) by (apply nth_error_Some; congruence). assert (j < length s) by (apply nth_error_Some; congruence).
      apply (So i j); [exact L|rewrite nth_error_app1 by lia; exact Hi|rewrite nth_error_app1 by lia; exact Hj].
    + apply (Permutation_app_inv_r [pad]). rewrite <- app_assoc. replace (repeat pad k ++ [pad]) with (repeat pad (S k)) by exact (repeat_cons k pad). exact P.
    + exists s'. split; [rewrite E, <- app_assoc; f_equal; exact (eq_sym (repeat_cons k pad))|exact P'].
Qed.
End Lift.
