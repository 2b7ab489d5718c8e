(** Property theorems C17, C18, C19, C22 (hwy/contrib/thread_pool/thread_pool.h,
    task distribution of one Run). *)
From Coq Require Import ZArith List Lia Bool.
From Verif Require Import Word Word_Proofs Pool_Model Pool_Spec Pool_Proofs Pool_Steal.
Import ListNotations.
Local Open Scope Z_scope.

(** C17: consecutive cut points [bound 0 = begin <= ... <= bound nw = end];
    worker w gets [bound w, bound (w+1)), sizes differing by at most one. *)
Theorem C17_division_covers_range : forall begin end_ nw,
  0 <= begin <= end_ -> end_ < 2 ^ 64 -> 0 < nw ->
  exists bound : Z -> Z,
    bound 0 = begin /\ bound nw = end_ /\
    (forall w, 0 <= w < nw -> bound w <= bound (w + 1)) /\
    (forall w w', 0 <= w < nw -> 0 <= w' < nw ->
       Z.abs ((bound (w + 1) - bound w) - (bound (w' + 1) - bound w')) <= 1) /\
    DivideRangeAmongWorkers begin end_ nw =
      map (fun k => (bound (Z.of_nat k), bound (Z.of_nat k + 1))) (seq 0 (Z.to_nat nw)).
Proof. exact Divide_spec. Qed.
Print Assumptions C17_division_covers_range.
Example C17_ex : DivideRangeAmongWorkers 10 21 4 = [(10,13); (13,16); (16,19); (19,21)].
Proof. reflexivity. Qed.

(** C18: whatever the interleaving [sched] of the workers' atomic steps, no
    task is ever called twice or outside the range, every call carries a valid
    worker index, the run cannot go on for ever (bounded number of steps),
    some unfinished worker can always move, and once all are finished every
    task of the range has been called exactly once. *)
Theorem C18_run_calls_each_task_exactly_once : forall begin end_ nw victims junk_b junk_e,
  0 <= begin <= end_ -> end_ + nw <= 2 ^ 64 -> 1 <= nw <= 64 ->
  (forall w, 0 <= w < nw -> Worker_victims w nw = Some (victims w)) ->
  match Run_start begin end_ nw victims junk_b junk_e with
  | Inline calls =>
      (forall t, calls_for t calls = once_in begin end_ t) /\ workers_ok nw calls
  | Parallel my_end s0 =>
      forall sched s, Forall (fun w => 0 <= w < nw) sched ->
        exec begin end_ my_end sched s0 = Some s ->
        (forall t, (calls_for t (st_calls s) <= once_in begin end_ t)%nat) /\
        workers_ok nw (st_calls s) /\
        Z.of_nat (length sched) <= 8 * nw + 2 * (end_ - begin) /\
        (finished nw s -> forall t, calls_for t (st_calls s) = once_in begin end_ t) /\
        (~ finished nw s -> exists w s', 0 <= w < nw /\ step begin end_ my_end w s = Some s')
  end.
Proof.
  intros begin end_ nw victims jb je Hb Hov Hn Hv. unfold Run_start.
  rewrite (wrap_small 64 (end_ - begin)) by lia.
  destruct ((end_ - begin <=? 1) || (nw =? 1)) eqn:E1.
  - split; [intros; apply inline_calls; lia|].
    unfold workers_ok. apply Forall_forall. intros c Hc. apply in_map_iff in Hc as (i & <- & _). cbn. lia.
  - destruct (end_ - begin >? nw) eqn:E2.
    + destruct (Divide_spec begin end_ nw) as (bound & B0 & Bn & Bm & _ & Ed); [lia|lia|lia|].
      assert (Nth : forall w, 0 <= w < nw -> nth (Z.to_nat w) (DivideRangeAmongWorkers begin end_ nw) (0, 0) = (bound w, bound (w + 1))).
      { intros w Hw. rewrite Ed.
        rewrite (nth_indep _ (0, 0) ((fun k => (bound (Z.of_nat k), bound (Z.of_nat k + 1))) O)) by (rewrite map_length, seq_length; lia).
        rewrite (map_nth (fun k => (bound (Z.of_nat k), bound (Z.of_nat k + 1)))). rewrite seq_nth by lia. cbn [plus]. rewrite Z2Nat.id by lia. reflexivity. }
      assert (G : run_good begin end_ (Z.of_nat (Z.to_nat nw)) victims
        (fun w => snd (nth (Z.to_nat w) (DivideRangeAmongWorkers begin end_ nw) (0, 0)))
        {| st_begin := fun w => fst (nth (Z.to_nat w) (DivideRangeAmongWorkers begin end_ nw) (0, 0));
           st_pc := fun w => PVictims (victims w); st_calls := [] |} (8 * Z.of_nat (Z.to_nat nw) + 2 * (end_ - begin))).
      { apply stealing_good with bound; rewrite ?Z2Nat.id by lia; auto.
        - intros w Hw. destruct (Worker_victims_ok w nw Hw ltac:(lia)) as (vs & E & L & ND & F).
          rewrite Hv in E by auto. injection E as ->. repeat split; auto; [left; reflexivity|rewrite L; lia].
        - intros w Hw. cbn. rewrite Nth by auto. reflexivity.
        - intros w Hw. rewrite Nth by auto. reflexivity. }
      rewrite Z2Nat.id in G by lia. exact G.
    + assert (G : run_good begin end_ (Z.of_nat (Z.to_nat nw)) victims je
         {| st_begin := jb; st_pc := fun _ => PSingle; st_calls := [] |} (Z.of_nat (Z.to_nat nw))).
      { apply single_good; rewrite ?Z2Nat.id by lia; auto; lia. }
      rewrite Z2Nat.id in G by lia. intros sched s Hs He. destruct (G sched s Hs He) as (A & B & C & D & F).
      repeat split; auto; lia.
Qed.
Print Assumptions C18_run_calls_each_task_exactly_once.

(** a concrete stealing run: 3 workers, 7 tasks, worker 2 does everything first *)
Definition C18_ex_victims (w : Z) : list Z := match Worker_victims w 3 with Some l => l | None => [] end.
Example C18_ex : (forall w, 0 <= w < 3 -> Worker_victims w 3 = Some (C18_ex_victims w)) /\
  (match Run_start 5 12 3 C18_ex_victims (fun _ => 0) (fun _ => 0) with
  | Parallel my_end s0 =>
    match exec 5 12 my_end (repeat 2 20 ++ [1;1;0;0;1;0;0;1;1;1;0;0])%list s0 with
    | Some s => Some (map (st_pc s) [0;1;2], st_calls s)
    | None => None end
  | _ => None end) = Some ([PVictims []; PVictims []; PVictims []],
      [(7,2);(6,2);(5,2);(9,2);(8,2);(11,2);(10,2)]).
Proof.
  split; [intros w Hw; assert (H : w = 0 \/ w = 1 \/ w = 2) by lia; destruct H as [->|[->| ->]]; vm_compute; reflexivity|].
  vm_compute. reflexivity.
Qed.

(** C19 is false of the code.  First witness: one task per worker; worker 3 of
    8 computes task 2^64-3+3 = 0 and calls it. *)
Theorem C19_refuted_single : exists begin end_ nw w sched my_end s0 s,
  0 <= begin <= end_ /\ end_ < 2 ^ 64 /\ 1 <= nw <= 64 /\ 0 <= w < nw /\
  Run_start begin end_ nw (fun _ => []) (fun _ => 0) (fun _ => 0) = Parallel my_end s0 /\
  Forall (fun w => 0 <= w < nw) sched /\ exec begin end_ my_end sched s0 = Some s /\
  In (0, w) (st_calls s) /\ once_in begin end_ 0 = 0%nat.
Proof.
  exists (2 ^ 64 - 3), (2 ^ 64 - 1), 8, 3, [3]. do 3 eexists.
  split; [lia|]. split; [lia|]. split; [lia|]. split; [lia|]. split; [reflexivity|].
  split; [repeat constructor; lia|]. split; [reflexivity|]. split; [left; reflexivity|reflexivity].
Qed.
Print Assumptions C19_refuted_single.

(** Second witness: work stealing; worker 1's counter passes 2^64-1 and wraps,
    after which worker 0 reserves and calls task 0 of a range starting at 2^64-4. *)
Theorem C19_refuted_stealing : exists begin end_ nw victims w sched my_end s0 s,
  0 <= begin <= end_ /\ end_ < 2 ^ 64 /\ 1 <= nw <= 64 /\ 0 <= w < nw /\
  (forall w, 0 <= w < nw -> Worker_victims w nw = Some (victims w)) /\
  Run_start begin end_ nw victims (fun _ => 0) (fun _ => 0) = Parallel my_end s0 /\
  Forall (fun w => 0 <= w < nw) sched /\ exec begin end_ my_end sched s0 = Some s /\
  In (0, w) (st_calls s) /\ once_in begin end_ 0 = 0%nat.
Proof.
  set (vic := fun w => match Worker_victims w 2 with Some l => l | None => [] end).
  destruct (Run_start (2 ^ 64 - 4) (2 ^ 64 - 1) 2 vic (fun _ => 0) (fun _ => 0)) as [|my_end s0] eqn:ER; [discriminate|].
  set (sched := [1;1;1;1;0;0;0;0;0;0;0;0;0]).
  assert (EC : match Run_start (2 ^ 64 - 4) (2 ^ 64 - 1) 2 vic (fun _ => 0) (fun _ => 0) with
    | Parallel me s => option_map st_calls (exec (2 ^ 64 - 4) (2 ^ 64 - 1) me sched s) | Inline _ => None end
    = Some [(0,0); (2 ^ 64 - 3, 0); (2 ^ 64 - 4, 0); (2 ^ 64 - 2, 1)]) by (vm_compute; reflexivity).
  rewrite ER in EC. destruct (exec (2 ^ 64 - 4) (2 ^ 64 - 1) my_end sched s0) as [s|] eqn:EX; [|discriminate].
  injection EC as EC.
  exists (2 ^ 64 - 4), (2 ^ 64 - 1), 2, vic, 0, sched, my_end, s0, s.
  split; [lia|]. split; [lia|]. split; [lia|]. split; [lia|].
  split; [intros w Hw; assert (H : w = 0 \/ w = 1) by lia; destruct H as [->| ->]; vm_compute; reflexivity|].
  split; [exact ER|]. split; [repeat constructor; lia|]. split; [exact EX|].
  split; [rewrite EC; left; reflexivity|reflexivity].
Qed.
Print Assumptions C19_refuted_stealing.

(** C22 *)
Theorem C22_coprime_iff_gcd_one : forall a b, 0 < a < 2 ^ 32 -> 0 < b < 2 ^ 32 ->
  CoprimeNonzero a b = Some (Z.gcd a b =? 1).
Proof. exact CoprimeNonzero_ok. Qed.
Print Assumptions C22_coprime_iff_gcd_one.
Theorem C22_find_another_coprime : forall size start,
  0 < size -> 0 <= start -> start + 16 * size + 2 < 2 ^ 32 ->
  exists c, FindAnotherCoprime size start = Some c /\ Z.gcd c size = 1 /\
    0 < c < start + 16 * size /\ (2 < size -> start <= c).
Proof. exact FindAnotherCoprime_ok. Qed.
Print Assumptions C22_find_another_coprime.
(** [iter_next k c size cur] = k applications of Next *)
Theorem C22_shuffled_iota_visits_each_once : forall coprime size cur,
  0 < size < 2 ^ 32 -> 0 <= cur < size -> 0 <= coprime -> size + coprime <= 2 ^ 32 -> Z.gcd coprime size = 1 ->
  let visited := map (fun k => iter_next k coprime size cur) (seq 0 (Z.to_nat size)) in
  NoDup visited /\ forall x, 0 <= x < size <-> In x visited.
Proof. exact iter_next_perm. Qed.
Print Assumptions C22_shuffled_iota_visits_each_once.
Theorem C22_victims_distinct : forall worker nw, 0 <= worker < nw -> nw <= 64 ->
  exists vs, Worker_victims worker nw = Some (worker :: vs) /\
    length (worker :: vs) = Z.to_nat (Z.min 4 nw) /\
    NoDup (worker :: vs) /\ Forall (fun v => 0 <= v < nw) (worker :: vs).
Proof. exact Worker_victims_ok. Qed.
Print Assumptions C22_victims_distinct.
Example C22_ex : CoprimeNonzero 15 8 = Some true /\ CoprimeNonzero 15 9 = Some false /\
  FindAnotherCoprime 12 7 = Some 7 /\ Worker_victims 5 12 = Some [5; 4; 3; 2].
Proof. repeat split; vm_compute; reflexivity. Qed.
