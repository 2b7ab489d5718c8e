(** Property theorems C62-C63: descriptive statistics (hwy/stats.h, hwy/stats.cc),
    in exact arithmetic. *)
From Coq Require Import ZArith QArith Qfield List Lia Lqa Bool.
From Verif Require Import Word Word_Proofs Stats_Model Stats_Spec Stats_Proofs.
Import ListNotations.
Local Open Scope Q_scope.

(** samples the int64_t squares can handle *)
Definition max_count : Z := 3037000499.

Lemma run_form log h : (Z.of_nat (length (samples h)) <= max_count)%Z -> Forall finite_float (samples h) -> samples h <> [] ->
  inv log (samples h) (s_run log h) /\ s_m1 (s_run log h) == mean (samples h) /\ s_m2 (s_run log h) == moment 2 (samples h) /\
  s_m3 (s_run log h) == moment 3 (samples h) /\ s_m4 (s_run log h) == moment 4 (samples h).
Proof.
  intros HL HF NE. pose proof (inv_run log h HL HF) as I. split; [exact I|]. apply moments; [exact NE|].
  destruct I as [IN IF _ _ _ _ _ _ _]. rewrite IN in IF. exact IF.
Qed.

(** C62.  Whatever sequence of Notify and Assimilate calls (objects may be
    merged in any tree shape, also with themselves) built a Stats object, its
    count, extremes, log sum, mean and second to fourth central moments are
    those of all the samples. *)
Theorem C62_moments : forall log h, let l := samples h in let s := s_run log h in
  (Z.of_nat (length l) <= max_count)%Z -> Forall finite_float l -> l <> [] ->
  s_count s = Z.of_nat (length l) /\ is_min (s_min s) l /\ is_max (s_max s) l /\ s_log s == qsum (map log l) /\
  s_mean s == mean l /\ s_m2 s == moment 2 l /\ s_m3 s == moment 3 l /\ s_m4 s == moment 4 l.
Proof.
  intros log h l s HL HF NE. destruct (run_form log h HL HF NE) as (I & M1 & M2 & M3 & M4).
  destruct I as [IN _ ILg IMn IMx IMn' IMx' IMn2 IMx2].
  split; [exact IN|]. split.
  - split; [|exact IMn]. destruct IMn' as [E|Hin]; [|exists (s_min (s_run log h)); split; [exact Hin|reflexivity]].
    unfold l, s in *. destruct (samples h) as [|x l']; [congruence|]. exists x. split; [now left|].
    rewrite E. apply Qle_antisym; [|rewrite <- E; apply IMn; now left]. inversion HF; subst. match goal with X : finite_float x |- _ => apply X end.
  - split.
    + split; [|exact IMx]. destruct IMx' as [E|Hin]; [|exists (s_max (s_run log h)); split; [exact Hin|reflexivity]].
      unfold l, s in *. destruct (samples h) as [|x l']; [congruence|]. exists x. split; [now left|].
      rewrite E. apply Qle_antisym; [rewrite <- E; apply IMx; now left|]. inversion HF; subst. match goal with X : finite_float x |- _ => apply X end.
    + split; [exact ILg|]. auto.
Qed.
Print Assumptions C62_moments.
(** the derived quantities, below 2^31 samples *)
Theorem C62_accessors : forall log h, let l := samples h in let s := s_run log h in
  (Z.of_nat (length l) < 2 ^ 31)%Z -> Forall finite_float l -> l <> [] ->
  s_mu2 s == moment 2 l / qlen l /\ s_mu3 s == moment 3 l / qlen l /\ s_mu4 s == moment 4 l / qlen l /\
  (moment 2 l >= 1 # 10000000 -> s_sample_kurtosis s == (moment 4 l / qlen l) / ((moment 2 l / qlen l) * (moment 2 l / qlen l)) /\
     s_kurtosis s == s_sample_kurtosis s * ((qlen l - 1) / qlen l) * ((qlen l - 1) / qlen l)).
Proof.
  intros log h l s HL HF NE. destruct (run_form log h ltac:(unfold l, max_count in *; lia) HF NE) as (I & M1 & M2 & M3 & M4). fold l s in I, M1, M2, M3, M4.
  pose proof (iN _ _ _ I) as IN.
  assert (L0 : (0 < Z.of_nat (length l))%Z) by (unfold l in *; destruct (samples h); [congruence|cbn [length]; lia]).
  assert (NZ : ~ qlen l == 0) by (intros E; apply (inject_Z_injective (Z.of_nat (length l)) 0) in E; lia).
  assert (EI : int_of (s_n s) = s_n s) by (unfold int_of; apply swrap_small; [lia|]; unfold in_s; lia).
  unfold s_mu2, s_mu3, s_mu4. rewrite EI, M2, M3, M4. unfold q_of. rewrite IN. fold (qlen l).
  split; [reflexivity|]. split; [reflexivity|]. split; [reflexivity|]. intros HB.
  assert (NZ2 : ~ moment 2 l == 0) by (intros E; rewrite E in HB; revert HB; unfold Qle; cbn; lia).
  assert (EK : s_sample_kurtosis s == moment 4 l / qlen l / (moment 2 l / qlen l * (moment 2 l / qlen l))).
  { unfold s_sample_kurtosis.
    assert (EB : Qle_bool (1 # 10000000) (qabs (s_m2 s)) = true).
    { apply Qle_bool_iff. unfold qabs. destruct (Qle_bool 0 (s_m2 s)) eqn:E0; [rewrite M2; exact HB|].
      exfalso. assert (C : Qle_bool 0 (s_m2 s) = true) by (apply Qle_bool_iff; rewrite M2; eapply Qle_trans; [|exact HB]; unfold Qle; cbn; lia). congruence. }
    rewrite EB. cbn [negb]. rewrite M4, M2. unfold q_of. rewrite IN. fold (qlen l). field. auto. }
  split; [exact EK|]. unfold s_kurtosis. rewrite IN. destruct (Z.eqb_spec (Z.of_nat (length l)) 0); [lia|]. reflexivity.
Qed.
Print Assumptions C62_accessors.
Definition ex_h := HMerge (HNotify 2 (HNotify 5 HNew)) (HSelf (HNotify (-3) (HNotify 1 HNew))).
Example C62_ex : samples ex_h = [2; 5; -3; 1; -3; 1] /\ Forall finite_float (samples ex_h) /\ moment 2 (samples ex_h) >= 1 # 10000000.
Proof.
  split; [reflexivity|]. split; [|vm_compute; discriminate].
  repeat (constructor; [split; vm_compute; discriminate|]). constructor.
Qed.
Example C62_ex_run : let s := s_run (fun x => x) ex_h in s_n s = 6%Z /\ Qred (s_mean s) = 1 # 2 /\ Qred (s_m2 s) = 95 # 2 /\ Qred (s_min s) = -3 /\ Qred (s_max s) = 5.
Proof. vm_compute. repeat split. Qed.

(** C63.  Variance() and SampleVariance() are the variance of the samples:
    proved up to 2^31 (2^31 - 1) samples. *)
Theorem C63_variance_partial : forall log h, let l := samples h in let s := s_run log h in
  Forall finite_float l -> (2 <= Z.of_nat (length l))%Z ->
  ((Z.of_nat (length l) < 2 ^ 31)%Z -> s_sample_variance s == moment 2 l / qlen l /\ s_sample_variance s >= 0) /\
  ((Z.of_nat (length l) <= 2 ^ 31)%Z -> s_variance s == moment 2 l / (qlen l - 1) /\ s_variance s >= 0).
Proof.
  intros log h l s HF L2.
  assert (NE : samples h <> []) by (unfold l in *; destruct (samples h); [cbn in L2; lia|discriminate]).
  assert (NN : 0 <= moment 2 l).
  { unfold moment. generalize (mean l). generalize l. clear. intros l m. induction l as [|x l IH]; [apply Qle_refl|]. cbn [map]. change (0 <= (x - m) ^ 2 + qsum (map (fun x => (x - m) ^ 2) l)).
    assert (0 <= (x - m) ^ 2) by (change ((x - m) ^ 2) with ((x - m) * (x - m)); destruct (Qlt_le_dec (x - m) 0); nra). lra. }
  assert (LP : 0 < qlen l /\ 0 < qlen l - 1).
  { unfold qlen. split; [change 0 with (inject_Z 0); rewrite <- Zlt_Qlt; lia|]. apply -> Qlt_minus_iff. change 1 with (inject_Z 1). rewrite <- Zlt_Qlt. lia. }
  split; intros HL; (destruct (run_form log h ltac:(unfold l, max_count in *; lia) HF NE) as (I & M1 & M2 & _); fold l s in I, M1, M2; pose proof (iN _ _ _ I) as IN).
  - unfold s_sample_variance. rewrite IN. destruct (Z.eqb_spec (Z.of_nat (length l)) 0); [lia|].
    assert (EI : int_of (Z.of_nat (length l)) = Z.of_nat (length l)) by (unfold int_of; apply swrap_small; [lia|]; unfold in_s; lia). rewrite EI, M2.
    change (q_of (Z.of_nat (length l))) with (qlen l). split; [reflexivity|]. apply Qle_shift_div_l; [apply LP|]. lra.
  - unfold s_variance. rewrite IN. destruct (Z.eqb_spec (Z.of_nat (length l)) 0); [lia|]. destruct (Z.eqb_spec (Z.of_nat (length l)) 1); [lia|].
    assert (EI : int_of (Z.of_nat (length l) - 1) = (Z.of_nat (length l) - 1)%Z) by (unfold int_of; apply swrap_small; [lia|]; unfold in_s; lia). rewrite EI, M2.
    assert (EQ : q_of (Z.of_nat (length l) - 1) == qlen l - 1) by (rewrite q_sub; reflexivity). rewrite EQ. split; [reflexivity|]. apply Qle_shift_div_l; [apply LP|]. lra.
Qed.
Print Assumptions C63_variance_partial.

(** C63 is false for more samples: static_cast<int>(n_ - 1) wraps, so every
    object with more than 2^31 samples that are not all equal (up to the limit
    of the model) reports a negative variance. *)
Theorem C63_variance_refuted :
  (forall log h, let l := samples h in Forall finite_float l -> (2 ^ 31 < Z.of_nat (length l) <= max_count)%Z ->
     (exists x y, In x l /\ In y l /\ ~ x == y) -> s_variance (s_run log h) < 0) /\
  (exists h, let l := samples h in Forall finite_float l /\ (2 ^ 31 < Z.of_nat (length l) <= max_count)%Z /\ (exists x y, In x l /\ In y l /\ ~ x == y)).
Proof.
  split.
  - intros log h l HF HL (x & y & Hx & Hy & NEQ).
    assert (NE : samples h <> []) by (unfold l in *; intros E; rewrite E in Hx; destruct Hx).
    destruct (run_form log h ltac:(unfold l in *; lia) HF NE) as (I & M1 & M2 & _). fold l in I, M1, M2.
    unfold s_variance. rewrite (iN _ _ _ I). destruct (Z.eqb_spec (Z.of_nat (length l)) 0); [lia|]. destruct (Z.eqb_spec (Z.of_nat (length l)) 1); [lia|].
    assert (POS : 0 < moment 2 l).
    { unfold moment. generalize (mean l). intros m.
      assert (SQ : forall z, 0 <= (z - m) ^ 2) by (intros z; change ((z - m) ^ 2) with ((z - m) * (z - m)); destruct (Qlt_le_dec (z - m) 0); nra).
      assert (G : forall k, 0 <= qsum (map (fun x => (x - m) ^ 2) k)).
      { induction k as [|z k IH]; [apply Qle_refl|]. change (0 <= (z - m) ^ 2 + qsum (map (fun x => (x - m) ^ 2) k)). specialize (SQ z). lra. }
      assert (K : forall k z, In z k -> ~ z == m -> 0 < qsum (map (fun x => (x - m) ^ 2) k)).
      { induction k as [|z k IH]; intros w Hw NM; [destruct Hw|]. destruct Hw as [->|Hw].
        - change (0 < (w - m) ^ 2 + qsum (map (fun x => (x - m) ^ 2) k)). specialize (G k).
          assert (0 < (w - m) ^ 2). { change ((w - m) ^ 2) with ((w - m) * (w - m)). destruct (Qlt_le_dec (w - m) 0); [nra|]. assert (~ w - m == 0) by (intros E; apply NM; lra). assert (0 < w - m) by lra. nra. } lra.
        - change (0 < (z - m) ^ 2 + qsum (map (fun x => (x - m) ^ 2) k)). specialize (IH w Hw NM). specialize (SQ z). lra. }
      destruct (Qeq_dec x m) as [Ex|Ex]; [|now apply (K l x)]. apply (K l y Hy). intros Ey. apply NEQ. rewrite Ex, Ey. reflexivity. }
    rewrite M2. set (d := int_of (Z.of_nat (length l) - 1)).
    assert (HD : (d < 0)%Z).
    { unfold d, int_of, swrap, max_count in *. rewrite Z.mod_small by lia. cbv zeta. change (2 ^ (32 - 1))%Z with 2147483648%Z. change (2 ^ 32)%Z with 4294967296%Z. change (2 ^ 31)%Z with 2147483648%Z in *. destruct (Z.ltb_spec (Z.of_nat (length l) - 1) 2147483648); lia. }
    assert (ND : 0 < q_of (- d)) by (unfold q_of; change 0 with (inject_Z 0); rewrite <- Zlt_Qlt; lia).
    assert (ED : q_of d == - q_of (- d)) by (unfold q_of; rewrite inject_Z_opp; ring).
    assert (EE : moment 2 l / q_of d == - (moment 2 l / q_of (- d))) by (rewrite ED; field; lra).
    rewrite EE. assert (0 < moment 2 l / q_of (- d)) by (apply Qlt_shift_div_l; lra). lra.
  - pose (h0 := HNotify 0 (HNotify 1 HNew)).
    pose (dbl := fix dbl k := match k with O => h0 | Datatypes.S k' => HSelf (dbl k') end).
    assert (L : forall k, Z.of_nat (length (samples (dbl k))) = (2 * 2 ^ Z.of_nat k)%Z).
    { induction k as [|k IH]; [reflexivity|]. change (samples (dbl (Datatypes.S k))) with (samples (dbl k) ++ samples (dbl k)).
      rewrite app_length, Nat2Z.inj_add, IH, Nat2Z.inj_succ, Z.pow_succ_r by lia. lia. }
    assert (S : forall k x, In x (samples (dbl k)) <-> x = 0 \/ x = 1).
    { induction k as [|k IH]; intros x; [cbn; intuition|]. change (samples (dbl (Datatypes.S k))) with (samples (dbl k) ++ samples (dbl k)).
      rewrite in_app_iff, IH. tauto. }
    assert (F0 : finite_float 0) by (split; vm_compute; discriminate). assert (F1 : finite_float 1) by (split; vm_compute; discriminate).
    assert (EK : exists k : nat, Z.of_nat k = 30%Z) by (exists 30%nat; reflexivity). destruct EK as (k & EK).
    clearbody dbl. exists (HNotify 0 (dbl k)). cbn zeta. cbn [samples].
    split; [constructor; [exact F0|]; apply Forall_forall; intros x Hx; apply S in Hx as [->| ->]; assumption|].
    split.
    + cbn [length]. rewrite Nat2Z.inj_succ, L, EK. unfold max_count. lia.
    + exists 0, 1. split; [now left|]. split; [right; apply S; now right|]. discriminate.
Qed.
Print Assumptions C63_variance_refuted.

Lemma nth_firstn_le {A} (d : A) (l : list A) n i : (i < n)%nat -> nth i (firstn n l) d = nth i l d.
Proof. revert n i. induction l as [|x l IH]; intros [|n] [|i] H; cbn; try lia; try reflexivity. apply IH. lia. Qed.
Lemma nth_skip {A} (d : A) (l : list A) n i : nth i (skipn n l) d = nth (n + i) l d.
Proof. revert n i. induction l as [|x l IH]; intros [|n] i; cbn; try reflexivity; [now destruct i|apply IH]. Qed.
(** Bins<N>: Notify counts its bin and no other; merging adds the counts *)
Theorem C62_bins : forall N bin c, (0 < N <= 2 ^ 31)%Z -> Z.of_nat (length c) = N -> Forall (fun x => 0 <= x < 2 ^ 64 - 1)%Z c ->
  ((0 <= bin < N)%Z -> exists c', b_notify N bin c = Some c' /\ length c' = length c /\
     forall i, nth i c' 0%Z = (nth i c 0 + (if (Z.of_nat i =? bin) then 1 else 0))%Z) /\
  (~ (0 <= bin < N)%Z -> b_notify N bin c = None).
Proof.
  intros N bin c HN HL HC. unfold b_notify. split.
  - intros HB. destruct (Z.leb_spec 0 bin); [|lia]. destruct (Z.ltb_spec bin N); [|lia]. cbn [andb].
    assert (E : swrap 32 bin = bin) by (apply swrap_small; [lia|]; unfold in_s; lia). rewrite E. eexists. split; [reflexivity|].
    set (k := Z.to_nat bin). assert (K : (k < length c)%nat) by lia.
    assert (W : wrap 64 (nth k c 0 + 1)%Z = (nth k c 0 + 1)%Z).
    { rewrite Forall_forall in HC. specialize (HC (nth k c 0%Z) (nth_In _ _ K)). apply wrap_small. unfold in_u. lia. }
    rewrite W. split.
    + rewrite app_length, firstn_length. cbn [length]. rewrite skipn_length. lia.
    + intros i. destruct (Nat.lt_trichotomy i k) as [H1|[->|H1]].
      * rewrite app_nth1 by (rewrite firstn_length; lia). rewrite nth_firstn_le by lia. destruct (Z.eqb_spec (Z.of_nat i) bin); lia.
      * rewrite app_nth2 by (rewrite firstn_length; lia). rewrite firstn_length, Nat.min_l, Nat.sub_diag by lia. cbn [nth]. destruct (Z.eqb_spec (Z.of_nat k) bin); lia.
      * rewrite app_nth2 by (rewrite firstn_length; lia). rewrite firstn_length, Nat.min_l by lia. destruct (i - k)%nat as [|j] eqn:Ej; [lia|]. cbn [nth].
        rewrite nth_skip. replace (S k + j)%nat with i by lia. destruct (Z.eqb_spec (Z.of_nat i) bin); lia.
  - intros HB. destruct (Z.leb_spec 0 bin); [|reflexivity]. destruct (Z.ltb_spec bin N); [lia|reflexivity].
Qed.
Print Assumptions C62_bins.
Theorem C62_bins_merge : forall c o i, length c = length o -> (i < length c)%nat ->
  (0 <= nth i c 0 + nth i o 0 < 2 ^ 64)%Z -> nth i (b_assimilate c o) 0%Z = (nth i c 0 + nth i o 0)%Z /\ length (b_assimilate c o) = length c.
Proof.
  intros c o i HL Hi HR. unfold b_assimilate. rewrite map_length, combine_length. split; [|lia].
  set (g := fun p : Z * Z => wrap 64 (fst p + snd p)).
  rewrite (nth_indep _ _ (g (0%Z, 0%Z))) by (rewrite map_length, combine_length; lia).
  rewrite map_nth, combine_nth by exact HL. unfold g. cbn [fst snd]. apply wrap_small. unfold in_u. lia.
Qed.
Print Assumptions C62_bins_merge.
Example C62_bins_ex : b_notify 4 2 [1; 2; 3; 4]%Z = Some [1; 2; 4; 4]%Z.
Proof. reflexivity. Qed.
