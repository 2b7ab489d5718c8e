(** Property theorem C29: the two-value fast path of VQSort
    (hwy/contrib/sort/vqsort-inl.h 926-1185). *)
From Coq Require Import ZArith List Lia Bool Permutation.
From Verif Require Import Word Word_Proofs Vec_Model Vec_Proofs Partition_Model Partition_Proofs Sort_Spec Properties_Heap TwoValue_Model TwoValue_Proofs.
Import ListNotations.
Local Open Scope Z_scope.

Lemma two_sorted {K} (lt : K -> K -> bool) L R a b : strict_weak lt -> lt R L = false -> sorted lt (repeat L a ++ repeat R b).
Proof.
  intros (IR & _) H i j x y Hij Hx Hy.
  assert (X : forall k z, nth_error (repeat L a ++ repeat R b) k = Some z -> (k < a)%nat /\ z = L \/ (a <= k)%nat /\ z = R).
  { intros k z Hk. destruct (Nat.lt_ge_cases k a); [left|right]; (split; [lia|]).
    - rewrite nth_error_app1 in Hk by (rewrite repeat_length; lia). apply nth_error_In in Hk. now apply repeat_spec in Hk.
    - rewrite nth_error_app2 in Hk by (rewrite repeat_length; lia). apply nth_error_In in Hk. now apply repeat_spec in Hk. }
  destruct (X i x Hx) as [(? & ->)|(? & ->)], (X j y Hy) as [(? & ->)|(? & ->)]; try lia; auto.
Qed.

Section P.
Context {K : Type} (lt eqk : K -> K -> bool) (N : Z).
Hypothesis SW : strict_weak lt.
(** EqualKeys decides equality of keys: integers, and 128-bit keys *)
Hypothesis Heq : forall a b, eqk a b = true <-> a = b.
Hypothesis HN : 1 <= N < 2 ^ 62.

(** C29.  Keys with valueL before valueR in the sort order; [buf] is the scratch
    buffer with any contents, at least one vector long.  Either the result is a
    sorted rearrangement, or a value other than the two occurs, is reported, and the
    keys are rearranged. *)
Theorem C29_two_value : forall buf keys valueL valueR, N <= zlen buf -> zlen keys < 2 ^ 62 -> lt valueL valueR = true ->
  exists keys' buf' o, maybe_two_value eqk N valueL valueR keys (zlen keys) buf = Some (keys', buf', o) /\ Permutation keys keys' /\ zlen buf' = zlen buf /\
    match o with
    | inr _ => sorted lt keys' /\ (forall x, In x keys -> x = valueL \/ x = valueR)
    | inl third => In third keys /\ third <> valueL /\ third <> valueR
    end.
Proof.
  intros buf keys L R HS HK HLR. destruct (maybe_two_value_ok eqk N (proj1 HN) Heq L R buf keys HS HK (proj2 HN)) as (k & b & o & E & P & B & S).
  exists k, b, o. split; [exact E|]. split; [exact P|]. split; [eapply buf_ok_len; exact B|]. destruct o as [t|u]; [exact S|]. destruct S as (a & c & ->). split.
  - apply two_sorted; [exact SW|]. destruct SW as (IR & TR & _). destruct (lt R L) eqn:X; [|reflexivity]. rewrite <- (IR L). symmetry. eauto.
  - intros x Hx. apply (Permutation_in _ P), in_app_or in Hx as [Hx|Hx]; apply repeat_spec in Hx; auto.
Qed.
Theorem C29_two_value_r : forall buf keys valueL valueR, N <= zlen buf -> N <= zlen keys < 2 ^ 62 -> lt valueL valueR = true ->
  exists keys' buf' o, maybe_two_value_r eqk N valueL valueR keys (zlen keys) buf = Some (keys', buf', o) /\ Permutation keys keys' /\ zlen buf' = zlen buf /\
    match o with
    | inr _ => sorted lt keys' /\ (forall x, In x keys -> x = valueL \/ x = valueR)
    | inl third => In third keys /\ third <> valueL /\ third <> valueR
    end.
Proof.
  intros buf keys L R HB HK HLR. assert (NE : L <> R) by (intros ->; destruct SW as (IR & _); rewrite IR in HLR; discriminate).
  destruct (maybe_two_value_r_ok eqk N (proj1 HN) Heq L R keys buf NE (proj1 HK) (proj2 HK) HB) as (k & b & o & E & P & B & S).
  exists k, b, o. split; [exact E|]. split; [exact P|]. split; [exact B|]. destruct o as [t|u]; [exact (proj1 S)|]. destruct S as (a & c & ->). split.
  - apply two_sorted; [exact SW|]. destruct SW as (IR & TR & _). destruct (lt R L) eqn:X; [|reflexivity]. rewrite <- (IR L). symmetry. eauto.
  - intros x Hx. apply (Permutation_in _ P), in_app_or in Hx as [Hx|Hx]; apply repeat_spec in Hx; auto.
Qed.
(** the caller with all samples equal: keys start with [idx] copies of the pivot,
    then [second]; distinct keys are ordered one way or the other.  The first key of
    the buffer, which the caller then reads again as the pivot, is unchanged or one
    of the keys. *)
Theorem C29_two_keys : (forall a b, a <> b -> lt a b = true \/ lt b a = true) ->
  forall buf pivot second idx rest, N <= zlen buf ->
  let keys := repeat pivot idx ++ second :: rest in
  pivot <> second -> N <= zlen keys < 2 ^ 62 ->
  exists keys' buf' o, partition_if_two_keys eqk N lt pivot keys (zlen keys) (Z.of_nat idx) second buf = Some (keys', buf', o) /\ Permutation keys keys' /\ zlen buf' = zlen buf /\
    match o with
    | inr _ => sorted lt keys'
    | inl third => In third keys /\ third <> pivot /\ third <> second /\ (forall x, rd buf' 0 = Some x -> rd buf 0 = Some x \/ In x keys)
    end.
Proof.
  intros TOT buf pivot second idx rest HS keys NE HK. unfold partition_if_two_keys. destruct (lt pivot second) eqn:ELT; cbn [negb].
  - assert (E1 : skipn (Z.to_nat (Z.of_nat idx)) keys = second :: rest). { unfold keys. rewrite Nat2Z.id, skipn_app, repeat_length, Nat.sub_diag. rewrite <- (repeat_length pivot idx) at 1. rewrite skipn_all. reflexivity. }
    assert (E2 : firstn (Z.to_nat (Z.of_nat idx)) keys = repeat pivot idx). { unfold keys. rewrite Nat2Z.id, firstn_app, repeat_length, Nat.sub_diag. cbn [firstn]. rewrite app_nil_r. rewrite <- (repeat_length pivot idx) at 1. apply firstn_all. }
    assert (E3 : zlen keys - Z.of_nat idx = zlen (second :: rest)) by (unfold keys; lr). rewrite E1, E2, E3.
    assert (zlen (second :: rest) < 2 ^ 62) by (unfold keys in HK; lr).
    destruct (maybe_two_value_ok eqk N (proj1 HN) Heq pivot second buf (second :: rest) HS H (proj2 HN)) as (k & b & o & E & P & B & S). rewrite E.
    exists (repeat pivot idx ++ k), b, o. split; [reflexivity|]. split; [now apply Permutation_app|]. split; [eapply buf_ok_len; exact B|]. destruct o as [t|u].
    + destruct S as (I & D1 & D2). split; [apply in_or_app; now right|]. split; [exact D1|]. split; [exact D2|].
      intros x Hx. destruct B as (p & -> & Ip & _). destruct p as [|y p]; [now left|]. right. cbn in Hx. injection Hx as ->. apply in_or_app. right. apply Ip. now left.
    + destruct S as (a & c & ->). rewrite app_assoc, <- repeat_app. apply two_sorted; [exact SW|]. destruct SW as (IR & TR & _). destruct (lt second pivot) eqn:X; [|reflexivity]. rewrite <- (IR pivot). symmetry. eauto.
  - assert (EL : lt second pivot = true) by (destruct (TOT pivot second NE); congruence).
    assert (NE' : second <> pivot) by congruence.
    destruct (maybe_two_value_r_ok eqk N (proj1 HN) Heq second pivot keys buf NE' (proj1 HK) (proj2 HK) HS) as (k & b & o & E & P & B & S).
    exists k, b, o. split; [exact E|]. split; [exact P|]. split; [exact B|]. destruct o as [t|u].
    + destruct S as ((I & D1 & D2) & ->). split; [exact I|]. split; [exact D2|]. split; [exact D1|]. now left.
    + destruct S as (a & c & ->). apply two_sorted; [exact SW|]. destruct SW as (IR & TR & _). destruct (lt pivot second) eqn:X; [congruence|reflexivity].
Qed.
(** the caller with differing samples (the first [ns] keys of the buffer, sorted):
    runs only when the largest sample is the immediate successor of the smallest;
    returning true means sorted; the samples are preserved *)
Theorem C29_two_samples : forall prev ns keys samples valueL valueR, 1 <= ns -> ns + N <= zlen samples -> zlen keys < 2 ^ 62 ->
  rd samples 0 = Some valueL -> rd samples (ns - 1) = Some valueR -> lt valueL valueR = true ->
  exists keys' samples' b, partition_if_two_samples eqk N prev ns keys (zlen keys) samples = Some (keys', samples', b) /\ Permutation keys keys' /\
    zlen samples' = zlen samples /\ firstn (Z.to_nat ns) samples' = firstn (Z.to_nat ns) samples /\
    (b = true -> sorted lt keys') /\
    (b = false -> valueL <> prev valueR \/ exists x, In x keys /\ x <> valueL /\ x <> valueR).
Proof.
  intros prev ns keys samples L R Hns HS HK HL HR HLR. unfold partition_if_two_samples. rewrite HL, HR. destruct (eqk L (prev R)) eqn:EP; cbn [negb].
  - assert (LSK : N <= zlen (skipn (Z.to_nat ns) samples)) by (rewrite zlen_skipn; lia).
    destruct (C29_two_value (skipn (Z.to_nat ns) samples) keys L R LSK HK HLR) as (k & b & o & E & P & B & S). rewrite E.
    assert (X1 : zlen (firstn (Z.to_nat ns) samples ++ b) = zlen samples) by (rewrite zlen_app, B, zlen_firstn, zlen_skipn; lia).
    assert (X2 : firstn (Z.to_nat ns) (firstn (Z.to_nat ns) samples ++ b) = firstn (Z.to_nat ns) samples).
    { rewrite firstn_app, firstn_firstn, Nat.min_id. replace (Z.to_nat ns - length (firstn (Z.to_nat ns) samples))%nat with O by (pose proof (zlen_firstn samples ns ltac:(lia)); unfold zlen in *; lia). apply app_nil_r. }
    destruct o as [t|u].
    + exists k, (firstn (Z.to_nat ns) samples ++ b), false. repeat (split; [first [reflexivity|assumption]|]). split; [discriminate|]. intros _. right. now exists t.
    + exists k, (firstn (Z.to_nat ns) samples ++ b), true. repeat (split; [first [reflexivity|assumption]|]). split; [intros _; apply S|discriminate].
  - exists keys, samples, false. repeat (split; [reflexivity|]). split; [discriminate|]. intros _. left. intros H. apply Heq in H. congruence.
Qed.
End P.
Print Assumptions C29_two_value.
Print Assumptions C29_two_value_r.
Print Assumptions C29_two_keys.
Print Assumptions C29_two_samples.

Lemma Zeqb_dec : forall a b, (a =? b) = true <-> a = b. Proof. intros. apply Z.eqb_eq. Qed.
Example C29_ex1 : maybe_two_value Z.eqb 4 1 2 [1; 2; 2; 1; 1; 1; 2; 1; 2; 1] 10 [9; 9; 9; 9] = Some ([1; 1; 1; 1; 1; 1; 2; 2; 2; 2], [2; 1; 9; 9], inr tt). Proof. reflexivity. Qed.
Example C29_ex2 : maybe_two_value Z.eqb 4 1 2 [1; 2; 2; 1; 1; 1; 2; 1; 2; 7] 10 [9; 9; 9; 9] = Some ([1; 1; 1; 1; 1; 2; 2; 2; 2; 7], [2; 7; 9; 9], inl 7). Proof. reflexivity. Qed.
Example C29_ex3 : maybe_two_value_r Z.eqb 4 1 2 [1; 2; 2; 1; 1; 1; 2; 1; 2; 1] 10 [9; 9; 9; 9] = Some ([1; 1; 1; 1; 1; 1; 2; 2; 2; 2], [1; 1; 1; 1], inr tt). Proof. reflexivity. Qed.
Example C29_ex4 : partition_if_two_keys Z.eqb 4 Z.ltb 3 [3; 3; 3; 1; 3; 5; 1; 3; 3; 3; 1] 11 3 1 [9; 9; 9; 9] = Some ([3; 3; 3; 1; 3; 5; 1; 1; 3; 3; 3], [9; 9; 9; 9], inl 5). Proof. reflexivity. Qed.

(** C29, refuted for floating-point keys: EqualKeys compares values, so -0.0 counts
    as 0.0 and is overwritten.  Keys are float32 bit patterns, valueL = 0.0f and
    valueR = 1.0f. *)
Definition eq_f32 (a b : Z) : bool := (a =? b) || ((a mod 2 ^ 31 =? 0) && (b mod 2 ^ 31 =? 0)).
Theorem C29_negative_zero_refuted : exists keys keys' buf', maybe_two_value eq_f32 4 0 (Z.shiftl 127 23) keys (zlen keys) [0; 0; 0; 0] = Some (keys', buf', inr tt) /\
  In (2 ^ 31) keys /\ ~ In (2 ^ 31) keys'.
Proof.
  exists [Z.shiftl 127 23; 2 ^ 31; 0; 2 ^ 31; 0]. eexists. eexists. split; [vm_compute; reflexivity|]. split; [right; left; reflexivity|].
  intros [H|[H|[H|[H|[H|[]]]]]]; discriminate H.
Qed.
Print Assumptions C29_negative_zero_refuted.
