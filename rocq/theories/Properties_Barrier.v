(** Property theorems C20, C21 (thread pool fork-join protocol). *)
From Coq Require Import ZArith List Lia Bool.
From Verif Require Import Word Word_Proofs Pool_Model Pool_Steal Barrier_Model Barrier_Spec Barrier_Proofs Barrier_Life.
Import ListNotations.
Local Open Scope Z_scope.

(** C20.  For at most 60 threads, any initial configuration, any sequence of
    Run / SendConfig operations (ending with the destructor) that uses fewer
    than 2^32 - 1 epochs, and any interleaving [sched] of main and workers:
    - main has returned from round e only after every worker finished e, and no
      worker is ever more than one round ahead;
    - a worker executes round e's work only while main is inside round e, and
      then sees all of round e's task description (begin, end, function,
      closure, ranges) and uses the barrier type main uses;
    - from every reachable state the pool can still run to complete
      destruction: no deadlock, no lost wake-up. *)
Theorem C20_fork_join : forall n cfg ops sched s,
  1 <= n <= 60 -> c_exit cfg = false -> Forall no_exit ops ->
  Z.of_nat (length (lifetime cfg ops)) < 2 ^ 32 - 1 ->
  Forall (thread_ok n) sched -> bexec (lifetime cfg ops) n sched (b_init cfg) = Some s ->
  (forall w, 0 <= w < n -> main_returned s <= worker_finished s w <= main_returned s + 1) /\
  (forall w e, 0 <= w < n -> working s w e ->
     m_epoch s = e /\ m_pc s <> MIdle /\ 1 <= e <= Z.of_nat (length (lifetime cfg ops)) /\
     (forall k, 0 <= k < 5 -> b_tasks s k = e) /\
     c_barrier (w_cfg s w) = r_barrier (round_at (lifetime cfg ops) e)) /\
  (m_pc s = MRun -> forall k, 0 <= k < 5 -> b_tasks s k = m_epoch s) /\
  (exists sched' s', Forall (thread_ok n) sched' /\ bexec (lifetime cfg ops) n sched' s = Some s' /\
     all_done (lifetime cfg ops) n s').
Proof.
  intros n cfg ops sched s Hn Hc Hf HT HF HE. unfold lifetime in *.
  set (cx := {| c_wait := c_wait (config_after cfg ops); c_barrier := c_barrier (config_after cfg ops); c_exit := true |}) in *.
  destruct (lifetime_ok cfg ops cx Hc Hf eq_refl) as (T1 & HW & HB & HX & HC & H01 & H0).
  set (rs := rounds_of cfg (ops ++ [OSend cx])) in *. set (C := Cof cfg (ops ++ [OSend cx])) in *.
  assert (HT' : 1 <= Z.of_nat (length rs) < 2 ^ 32 - 1) by lia.
  assert (I0 : BInv rs n C (b_init cfg)) by (apply BInv_init; auto).
  assert (HI : BInv rs n C s) by (eapply BInv_exec; eauto).
  destruct (safety rs n C HB s HI) as (S1 & S2 & S3).
  split; [exact S1|]. split; [exact S2|]. split; [exact S3|].
  apply (completes rs n C); auto.
Qed.
Print Assumptions C20_fork_join.

(** a deterministic scheduler used to exhibit executions: step each listed
    thread once per pass if it can move *)
Fixpoint pass (rs : list round) (n : Z) (ts : list thread) (s : bstate) (acc : list thread) : bstate * list thread :=
  match ts with
  | [] => (s, acc)
  | t :: k => match bstep rs n t s with Some s' => pass rs n k s' (t :: acc) | None => pass rs n k s acc end
  end.
Fixpoint greedy (fuel : nat) (rs : list round) (n : Z) (ts : Z -> list thread) (stop : bstate -> bool) (s : bstate) (acc : list thread) : list thread :=
  match fuel with
  | O => rev acc
  | S f => if stop s then rev acc else
           let (s', acc') := pass rs n (ts (m_epoch s)) s acc in greedy f rs n ts stop s' acc'
  end.
Definition workers_upto (n : Z) : list thread := map (fun i => TWorker (Z.of_nat i)) (seq 0 (Z.to_nat n)).

(** C20 is not vacuous: 3 workers, two Runs around a switch from
    (block, ordered) to (separate spin, counter4), and complete destruction. *)
Definition C20_ops : list pool_op := [ORun; OSend {| c_wait := WtSeparate; c_barrier := BCounter4; c_exit := false |}; ORun; OSend {| c_wait := WtSpin1; c_barrier := BGroup2; c_exit := false |}; ORun].
Definition C20_cfg := {| c_wait := WtBlock; c_barrier := BOrdered; c_exit := false |}.
Example C20_ex : (let rs := lifetime C20_cfg C20_ops in
  let sched := greedy 300 rs 3 (fun _ => TMain :: workers_upto 3) (fun s => false) (b_init C20_cfg) [] in
  match bexec rs 3 sched (b_init C20_cfg) with
  | Some s => Some (m_pc s, m_epoch s, map (w_pc s) [0;1;2], forallb (fun t => match t with TMain => true | TWorker w => (0 <=? w) && (w <? 3) end) sched)
  | None => None
  end) = Some (MIdle, 9, [WExit; WExit; WExit], true).
Proof. vm_compute. reflexivity. Qed.

(** C21 is false of the code: with 61 threads, BarrierCounter<4> keeps its
    fourth counter in the barrier slot of worker 60.  After enough epochs the
    stale count (15) equals the epoch at which the pool switches to the
    Ordered barrier, and main leaves epoch 15 while worker 60 has not yet even
    started it.  The operations are those of SetWaitMode(kBlock) twice, three
    auto-tuning Runs, SetWaitMode(kSpin). *)
Definition C21_c b := {| c_wait := WtBlock; c_barrier := b; c_exit := false |}.
Definition C21_ops : list pool_op :=
  [OSend (C21_c BOrdered); OSend (C21_c BOrdered); ORun; OSend (C21_c BCounter1); ORun; OSend (C21_c BCounter2);
   ORun; OSend (C21_c BCounter4); OSend {| c_wait := WtSpin1; c_barrier := BOrdered; c_exit := false |}].
Definition C21_sched : list thread :=
  greedy 3000 (lifetime C20_cfg C21_ops) 61
    (fun e => if e <? 15 then TMain :: workers_upto 61 else TMain :: workers_upto 60)
    (fun s => match m_pc s with MIdle => m_epoch s =? 15 | _ => false end) (b_init C20_cfg) [].
Definition thread_okb (n : Z) (t : thread) : bool := match t with TMain => true | TWorker w => (0 <=? w) && (w <? n) end.

Theorem C21_refuted_61_threads : exists cfg ops sched s w,
  c_exit cfg = false /\ Forall no_exit ops /\ Forall (thread_ok 61) sched /\
  bexec (lifetime cfg ops) 61 sched (b_init cfg) = Some s /\
  0 <= w < 61 /\ main_returned s = 15 /\ worker_finished s w = 14.
Proof.
  assert (E : option_map (fun s => (main_returned s, worker_finished s 60)) (bexec (lifetime C20_cfg C21_ops) 61 C21_sched (b_init C20_cfg)) = Some (15, 14))
    by (vm_compute; reflexivity).
  destruct (bexec (lifetime C20_cfg C21_ops) 61 C21_sched (b_init C20_cfg)) as [s|] eqn:ES; [|discriminate].
  injection E as E1 E2.
  exists C20_cfg, C21_ops, C21_sched, s, 60. split; [reflexivity|]. split; [repeat constructor|].
  split; [|split; [exact ES|split; [lia|split; [exact E1|exact E2]]]].
  assert (B : forallb (thread_okb 61) C21_sched = true) by (vm_compute; reflexivity).
  apply Forall_forall. intros t Ht. rewrite forallb_forall in B. specialize (B t Ht). clear - B. destruct t; cbn [thread_okb thread_ok] in *; [exact I|lia].
Qed.
Print Assumptions C21_refuted_61_threads.
