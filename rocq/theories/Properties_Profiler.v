(** Statements about profiler.h. *)
From Coq Require Import ZArith List Bool Lia.
From Verif Require Import Profiler_Model Profiler_Spec Profiler_Proofs Profiler_Merge Profiler_Top.
Import ListNotations.
Open Scope Z_scope.

(** ** C89: each thread's table has one entry per zone, with the number of calls and the time spent in the zone itself *)
Theorem C89_thread_self_times : forall cap maxp, (1 <= cap)%nat -> (cap <= maxp)%nat -> forall h, history_ok h -> fits (h_samples h) ->
  exists t t', recorded cap maxp h t /\ analyze_remaining maxp t = Some t' /\ stack (res t') = [] /\ table_of (zones (res t')) (h_samples h).
Proof. intros cap maxp H1 H2 h Hh Hf. destruct (thread_table cap maxp H1 H2 h Hh Hf) as (t & t' & A & B & C & D & _). eauto 6. Qed.
(** zone 5 runs from 100 to 1000 and contains zone 7 twice (and zone 5 inside zone 7); zone 7 then runs again across the 2^39 wraparound *)
Definition C89_example : history := History 3 2 [Call 5 100 1000 [Call 7 200 300 []; Call 7 400 700 [Call 5 500 560 []]]; Call 7 (2 ^ 39 - 10) (2 ^ 39 + 90) []].
Example C89_nonvacuous : history_ok C89_example /\ fits (h_samples C89_example) /\
  h_samples C89_example = [(7, 1, 95); (5, 1, 55); (7, 1, 233); (5, 1, 491); (7, 1, 95)].
Proof.
  split; [|split].
  - repeat split; cbn; try lia. { repeat constructor; cbn; lia. } intros c [<-|[<-|[]]]; cbn; lia.
  - split; [vm_compute; reflexivity|]. exists [5; 7]. split; [cbn; lia|]. intros s Hs. cbn in Hs. unfold s_off. repeat (destruct Hs as [<-|Hs]; [cbn; auto|]). destruct Hs.
  - vm_compute. reflexivity.
Qed.

(** ** C90: buffering in packets and intermediate analyses do not change the results, and never write outside the buffer or the storage, also while zones are open *)
Theorem C90_buffering_transparent : forall cap maxp, (1 <= cap)%nat -> (cap <= maxp)%nat -> forall so co es r,
  analyze (Results [] [] so co) (map event_packet es) = Some r ->
  exists t t', run_events cap maxp (new_thread so co) es = Some t /\ analyze_remaining maxp t = Some t' /\ res t' = r.
Proof. intros. eapply thread_ok; eauto. Qed.
(** the same events give the same results for all sizes of the buffer and the storage *)
Theorem C90_size_independent : forall so co es r cap1 maxp1 cap2 maxp2, (1 <= cap1)%nat -> (cap1 <= maxp1)%nat -> (1 <= cap2)%nat -> (cap2 <= maxp2)%nat ->
  analyze (Results [] [] so co) (map event_packet es) = Some r ->
  exists t1 t1' t2 t2', run_events cap1 maxp1 (new_thread so co) es = Some t1 /\ analyze_remaining maxp1 t1 = Some t1' /\
    run_events cap2 maxp2 (new_thread so co) es = Some t2 /\ analyze_remaining maxp2 t2 = Some t2' /\ res t1' = res t2'.
Proof.
  intros so co es r c1 m1 c2 m2 H1 H2 H3 H4 E. destruct (thread_ok c1 m1 H1 H2 so co es r E) as (t1 & t1' & A1 & B1 & C1). destruct (thread_ok c2 m2 H3 H4 so co es r E) as (t2 & t2' & A2 & B2 & C2).
  exists t1, t1', t2, t2'. subst r. auto.
Qed.
(** the hypothesis holds for every well-formed history, and for one with a zone still open *)
Theorem C90_history_analyzed : forall h, history_ok h -> fits (h_samples h) -> exists r, analyze (Results [] [] (h_so h) (h_co h)) (map event_packet (flat_map events (h_calls h))) = Some r.
Proof.
  intros [so co cs] (Hso & Hco & Hok & Hd) (Htot & U & HU & HUi). cbn [h_so h_co h_calls] in *. unfold h_samples in *. cbn [h_so h_co h_calls] in *.
  destruct (analyze_forest U so co HU Hso Hco cs [] []) as (zs & E & HT); auto.
  - apply table_inv_nil.
  - intros o Ho. cbn [app] in Ho. apply in_map_iff in Ho as (s & <- & Hs). auto.
  - intros s [].
  - eauto.
Qed.
Example C90_nonvacuous : exists r, analyze (Results [] [] 0 0) (map event_packet [Enter 5 10; Enter 7 20; Exit 50; Enter 7 60]) = Some r /\ length (stack r) = 2%nat /\ map acc_duration (zones r) = [30].
Proof. eexists. split; [vm_compute; reflexivity|]. split; reflexivity. Qed.

(** ** C91: the printed report has one line per zone name with the totals over all threads *)
(** proved if zones with equal names have equal offsets, i.e. names are not duplicated in the binary *)
Theorem C91_report_distinct_partial : forall cap maxp, (1 <= cap)%nat -> (cap <= maxp)%nat -> forall name hs ts, hs <> [] ->
  Forall2 (recorded cap maxp) hs ts -> Forall history_ok hs -> fits (flat_map h_samples hs) ->
  (forall a b, In a (flat_map h_samples hs) -> In b (flat_map h_samples hs) -> name (s_off a) = name (s_off b) -> s_off a = s_off b) ->
  exists report, print_results name maxp ts = Some report /\ report_ok name (flat_map h_samples hs) report.
Proof. exact report_distinct. Qed.
(** in general: a line with the totals for each name; other lines have executed names and no more calls than the total (missing: there are no other lines) *)
Theorem C91_report_first_partial : forall cap maxp, (1 <= cap)%nat -> (cap <= maxp)%nat -> forall name hs ts, hs <> [] ->
  Forall2 (recorded cap maxp) hs ts -> Forall history_ok hs -> fits (flat_map h_samples hs) ->
  exists report, print_results name maxp ts = Some report /\
    (forall n, In n (map (fun s => name (s_off s)) (flat_map h_samples hs)) -> In (n, calls_of Nat.eqb name (flat_map h_samples hs) n, time_of Nat.eqb name (flat_map h_samples hs) n mod 2 ^ 64) report) /\
    (forall n c d, In (n, c, d) report -> In n (map (fun s => name (s_off s)) (flat_map h_samples hs)) /\ c <= calls_of Nat.eqb name (flat_map h_samples hs) n).
Proof. exact report_first. Qed.
(** refuted in general: if the last zone in the table has the name of an earlier one, it is counted there and printed again *)
Definition C91_dup : list history := [History 0 0 [Call 5 100 200 []; Call 7 300 350 []]].
Theorem C91_duplicate_refuted : exists ts, Forall2 (recorded 32 1000) C91_dup ts /\ Forall history_ok C91_dup /\ fits (flat_map h_samples C91_dup) /\
  print_results (fun _ => 1%nat) 1000 ts = Some [(1%nat, 2, 150); (1%nat, 1, 50)] /\
  ~ report_ok (fun _ => 1%nat) (flat_map h_samples C91_dup) [(1%nat, 2, 150); (1%nat, 1, 50)].
Proof.
  eexists [_]. split. { constructor; [unfold recorded; vm_compute; reflexivity | constructor]. }
  split. { constructor; [|constructor]. repeat split; cbn; try lia. { repeat constructor; cbn; lia. } intros c [<-|[<-|[]]]; cbn; lia. }
  split. { split; [vm_compute; reflexivity|]. exists [5; 7]. split; [cbn; lia|]. intros s Hs. cbn in Hs. unfold s_off. repeat (destruct Hs as [<-|Hs]; [cbn; auto|]). destruct Hs. }
  split. { vm_compute. reflexivity. }
  intros (H & _). cbn in H. inversion H as [|? ? Hn _]; subst. apply Hn. left. reflexivity.
Qed.
(** refuted if no zone was ever entered: PrintResults dereferences the null pointer of the first thread *)
Theorem C91_no_threads_refuted : forall name maxp, print_results name maxp [] = None.
Proof. reflexivity. Qed.
Example C91_nonvacuous : exists ts, Forall2 (recorded 4 9) [C89_example; C89_example] ts /\ print_results Z.to_nat 9 ts = Some [(5%nat, 4, 1092); (7%nat, 6, 846)].
Proof. eexists [_; _]. split; [constructor; [unfold recorded; vm_compute; reflexivity | constructor; [unfold recorded; vm_compute; reflexivity | constructor]]|]. vm_compute. reflexivity. Qed.
