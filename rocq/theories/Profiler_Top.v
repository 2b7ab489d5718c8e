From Coq Require Import ZArith List Bool Lia Permutation.
From Verif Require Import Profiler_Model Profiler_Spec Profiler_Proofs Profiler_Merge.
Import ListNotations.
Open Scope Z_scope.
Arguments Z.pow : simpl never.

Section Top.
Context (cap maxp : nat) (Hcap : (1 <= cap)%nat) (Hmax : (cap <= maxp)%nat).
Lemma h_nonneg : forall h, nonneg (h_samples h).
Proof. intros. apply nonneg_flat. Qed.
Lemma thread_table : forall h, history_ok h -> fits (h_samples h) -> exists t t', recorded cap maxp h t /\ analyze_remaining maxp t = Some t' /\ stack (res t') = [] /\ table_inv (zones (res t')) (h_samples h).
Proof.
  intros [so co cs] (Hso & Hco & Hok & Hd) (Htot & U & HU & HUi). cbn [h_so h_co h_calls] in *. unfold h_samples in *. cbn [h_so h_co h_calls] in *.
  destruct (analyze_forest U so co HU Hso Hco cs [] []) as (zs & E & HT); auto.
  - apply table_inv_nil.
  - intros o Ho. cbn [app] in Ho. apply in_map_iff in Ho as (s & <- & Hs). auto.
  - intros s [].
  - destruct (thread_ok cap maxp Hcap Hmax so co _ _ E) as (t & t' & E1 & E2 & E3). exists t, t'. split; auto. split; auto. rewrite E3. split; auto.
Qed.
Lemma recorded_table : forall h t, history_ok h -> fits (h_samples h) -> recorded cap maxp h t -> exists t', analyze_remaining maxp t = Some t' /\ stack (res t') = [] /\ table_inv (zones (res t')) (h_samples h).
Proof. intros h t H1 H2 H3. destruct (thread_table h H1 H2) as (t0 & t' & E0 & E & Es & ET). unfold recorded in *. rewrite E0 in H3. injection H3 as <-. eauto. Qed.
Lemma fits_app : forall a b, nonneg a -> nonneg b -> fits (a ++ b) -> fits a /\ fits b.
Proof.
  intros a b Ha Hb (Ht & U & HU & Hi). rewrite total_app in Ht. pose proof (total_nonneg a Ha). pose proof (total_nonneg b Hb). split; (split; [lia|]); exists U; split; auto; intros; apply Hi; apply in_or_app; auto.
Qed.
Lemma flat_nonneg : forall hs, nonneg (flat_map h_samples hs).
Proof. intros hs s Hs. apply in_flat_map in Hs as (h & _ & Hs). eapply h_nonneg; eauto. Qed.
Lemma all_tables : forall hs ts main T, Forall2 (recorded cap maxp) hs ts -> Forall history_ok hs -> table_inv main T -> nonneg T -> fits (T ++ flat_map h_samples hs) ->
  exists zs, assimilate_all maxp main ts = Some zs /\ table_inv zs (T ++ flat_map h_samples hs).
Proof.
  intros hs ts main T H. revert main T. induction H as [|h t hs ts Hr HF IH]; intros main T Hok HT HN Hfit. { exists main. cbn [flat_map assimilate_all]. rewrite app_nil_r. auto. }
  inversion Hok as [|? ? Hh Hok']; subst. cbn [flat_map] in *. rewrite app_assoc in Hfit. destruct (fits_app _ _ (nonneg_app _ _ HN (h_nonneg h)) (flat_nonneg hs) Hfit) as (Hf1 & _).
  destruct (fits_app _ _ HN (h_nonneg h) Hf1) as (_ & Hf2). destruct (recorded_table h t Hh Hf2 Hr) as (t' & E & _ & ET). cbn [assimilate_all]. rewrite E.
  destruct Hf1 as (Ht1 & U & HU & HUi). rewrite total_app in Ht1.
  destruct (assimilate_ok U (zones (res t')) (h_samples h) main T) as (m & Em & Tm); auto. { apply h_nonneg. } { intros o Ho. apply in_map_iff in Ho as (s & <- & Hs). auto. }
  rewrite Em. destruct (IH m (T ++ h_samples h)) as (zs & Ez & Tz); auto. { apply nonneg_app; auto. apply h_nonneg. } exists zs. split; auto. rewrite <- app_assoc in Tz. auto.
Qed.
Lemma print_ok : forall name hs ts, hs <> [] -> Forall2 (recorded cap maxp) hs ts -> Forall history_ok hs -> fits (flat_map h_samples hs) ->
  exists zs, print_results name maxp ts = Some (map (line name) (merge_duplicates name (length zs) zs)) /\ table_inv zs (flat_map h_samples hs).
Proof.
  intros name hs ts Hne HF Hok Hfit. destruct HF as [|h t hs ts Hr HF]; [congruence|]. inversion Hok as [|? ? Hh Hok']; subst. cbn [flat_map] in *.
  destruct (fits_app _ _ (h_nonneg h) (flat_nonneg hs) Hfit) as (Hf1 & _). destruct (recorded_table h t Hh Hf1 Hr) as (t' & E & _ & ET). cbn [print_results]. rewrite E.
  destruct (all_tables hs ts (zones (res t')) (h_samples h) HF Hok' ET (h_nonneg h) Hfit) as (zs & Ez & Tz). rewrite Ez. exists zs. auto.
Qed.
(** names of a table *)
Lemma table_nm : forall name zs T n, table_inv zs T -> (In n (map (nm name) zs) <-> In n (map (fun s => name (s_off s)) T)).
Proof.
  intros name zs T n ((_ & HI & _) & _). rewrite <- (map_map s_off name), <- (map_map acc_offset name). rewrite !in_map_iff. split; intros (o & E & Ho); exists o; split; auto; apply HI; auto.
Qed.
Lemma report_first : forall name hs ts, hs <> [] -> Forall2 (recorded cap maxp) hs ts -> Forall history_ok hs -> fits (flat_map h_samples hs) ->
  exists report, print_results name maxp ts = Some report /\
    (forall n, In n (map (fun s => name (s_off s)) (flat_map h_samples hs)) -> In (n, calls_of Nat.eqb name (flat_map h_samples hs) n, time_of Nat.eqb name (flat_map h_samples hs) n mod 2 ^ 64) report) /\
    (forall n c d, In (n, c, d) report -> In n (map (fun s => name (s_off s)) (flat_map h_samples hs)) /\ c <= calls_of Nat.eqb name (flat_map h_samples hs) n).
Proof.
  intros name hs ts Hne HF Hok Hfit. destruct (print_ok name hs ts Hne HF Hok Hfit) as (zs & E & HT). eexists. split; [exact E|]. set (T := flat_map h_samples hs) in *.
  assert (HNC : forall n, NC name zs n = calls_of Nat.eqb name T n /\ ND name zs n mod 2 ^ 64 = time_of Nat.eqb name T n mod 2 ^ 64) by (intros; apply table_names; auto).
  assert (Hb : forall n, NC name zs n < 2 ^ 39). { intros n. destruct (HNC n) as (-> & _). destruct Hfit as (Ht & _). pose proof (calls_le_total Nat.eqb name T n (flat_nonneg hs)). lia. }
  destruct (merge_ok name (length zs) zs (le_n _) (proj2 HT) Hb) as (M1 & M2). split.
  - intros n Hn. destruct (HNC n) as (<- & <-). apply M1. apply (table_nm name zs T); auto.
  - intros n c d Hin. destruct (HNC n) as (<- & _). destruct (M2 n c d Hin) as (I1 & I2). split; auto. apply (table_nm name zs T); auto.
Qed.
Lemma report_distinct : forall name hs ts, hs <> [] -> Forall2 (recorded cap maxp) hs ts -> Forall history_ok hs -> fits (flat_map h_samples hs) ->
  (forall a b, In a (flat_map h_samples hs) -> In b (flat_map h_samples hs) -> name (s_off a) = name (s_off b) -> s_off a = s_off b) ->
  exists report, print_results name maxp ts = Some report /\ report_ok name (flat_map h_samples hs) report.
Proof.
  intros name hs ts Hne HF Hok Hfit Hinj. destruct (print_ok name hs ts Hne HF Hok Hfit) as (zs & E & HT). eexists. split; [exact E|]. set (T := flat_map h_samples hs) in *.
  pose proof HT as ((HN & HI & HV) & HO).
  assert (HNn : NoDup (map (nm name) zs)).
  { assert (Hinj2 : forall a b, In a zs -> In b zs -> nm name a = nm name b -> acc_offset a = acc_offset b).
    { intros a b Ha Hb Hab. assert (Ha' : In (acc_offset a) (map s_off T)) by (apply HI, in_map; auto). assert (Hb' : In (acc_offset b) (map s_off T)) by (apply HI, in_map; auto).
      apply in_map_iff in Ha' as (sa & Ea & Hsa). apply in_map_iff in Hb' as (sb & Eb & Hsb). rewrite <- Ea, <- Eb. apply Hinj; auto. rewrite Ea, Eb. auto. }
    clear - HN Hinj2. induction zs as [|z zs IH]; cbn [map] in *; constructor; inversion HN as [|? ? Hz HN']; subst.
    - intros Hin. apply in_map_iff in Hin as (w & Ew & Hw). apply Hz. rewrite (Hinj2 z w); [apply in_map; auto | left; auto | right; auto | auto].
    - apply IH; auto. intros; apply Hinj2; auto; right; auto. }
  rewrite (merge_distinct name (length zs) zs HO HNn). split.
  - rewrite map_map. exact HNn.
  - assert (Hent : forall z, In z zs -> acc_calls z = calls_of Nat.eqb name T (nm name z) /\ acc_duration z = time_of Nat.eqb name T (nm name z) mod 2 ^ 64).
    { intros z Hz. destruct (table_names name zs T (nm name z) HT) as (T1 & T2). rewrite <- T1, <- T2.
      assert (Hun : NC name zs (nm name z) = acc_calls z /\ ND name zs (nm name z) = acc_duration z).
      { clear - HNn Hz. induction zs as [|w zs IH]; [destruct Hz|]. cbn [map] in HNn. inversion HNn as [|? ? Hw HN']; subst. rewrite NC_cons, ND_cons.
        assert (Hnone : forall n l, ~ In n (map (nm name) l) -> NC name l n = 0 /\ ND name l n = 0).
        { clear. intros n. induction l as [|a l IH]; intros H; [split; reflexivity|]. rewrite NC_cons, ND_cons. destruct (Nat.eqb_spec (nm name a) n). { exfalso. apply H. left; auto. } destruct IH as (-> & ->); auto. intros Hi. apply H. right; auto. }
        destruct Hz as [->|Hz].
        - rewrite Nat.eqb_refl. destruct (Hnone _ _ Hw) as (-> & ->). lia.
        - destruct (Nat.eqb_spec (nm name w) (nm name z)) as [Ew|Ew]. { exfalso. apply Hw. rewrite Ew. apply in_map. auto. } destruct (IH HN' Hz) as (-> & ->). lia. }
      fold (NC name zs (nm name z)). fold (ND name zs (nm name z)). destruct Hun as (-> & ->). destruct (HO z Hz) as (_ & _ & _ & Hh). split; auto. rewrite Z.mod_small; auto. }
    intros n c d. rewrite in_map_iff. split.
    + intros (z & El & Hz). unfold line in El. injection El as <- <- <-. destruct (Hent z Hz) as (E1 & E2). split; auto. apply (table_nm name zs T); auto. change (name (acc_offset z)) with (nm name z). apply in_map; auto.
    + intros (Hn & -> & ->). apply (table_nm name zs T) in Hn; auto. apply in_map_iff in Hn as (z & <- & Hz). exists z. split; auto. destruct (Hent z Hz) as (E1 & E2). unfold line. rewrite E1, E2. reflexivity.
Qed.
End Top.
