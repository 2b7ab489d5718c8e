(** Model of the fork-join protocol of hwy/contrib/thread_pool/thread_pool.h:
    MainAdapter, ThreadFunc, Wait*, Barrier*, SendConfig, ~ThreadPool, as an
    interleaving of atomic steps of the main thread and n worker threads.

    Simplifications: sequentially consistent interleaving (the code uses
    release stores / acquire loads); a spin or futex wait is one guarded step
    that is disabled while its condition is false; user closures are a single
    step ([MRun]/[WRun], see Pool_Model.v for their inside); thread creation
    and join are not modelled (threads exist from the start: the constructor
    uses no barrier). *)
From Coq Require Import ZArith List Bool.
From Verif Require Import Word Pool_Model.
Import ListNotations.
Local Open Scope Z_scope.

(** thread_pool.h:155-170 *)
Inductive wait_t := WtBlock | WtSpin1 | WtSeparate.
Inductive barrier_t := BOrdered | BCounter1 | BCounter2 | BCounter4 | BGroup2 | BGroup4.

(** thread_pool.h:216-282 (spin type and reserved bits do not affect the protocol) *)
Record config := { c_wait : wait_t; c_barrier : barrier_t; c_exit : bool }.

(** kShards, 0 for the barriers whose Reset is a no-op (lines 651-768) *)
Definition shards (b : barrier_t) : Z :=
  match b with BCounter1 => 1 | BCounter2 => 2 | BCounter4 => 4 | _ => 0 end.
(** loop stride of UntilReached: 1 for Ordered, kGroupSize for Group *)
Definition group (b : barrier_t) : Z :=
  match b with BGroup2 => 2 | BGroup4 => 4 | _ => 1 end.

Definition kMaxThreads : Z := 63. (* thread_pool.h:87 *)

(** One CallWithConfig(…, main_adapter_): wait and barrier types used by the
    main thread, and, if the round's closure is SendConfig's, the config that
    each worker latches. *)
Record round := { r_wait : wait_t; r_barrier : barrier_t; r_latch : option config }.

(** Public operations that use the barrier: Run with more than one task, and
    SendConfig (via SetWaitMode, via auto-tuning after Run, via ~ThreadPool). *)
Inductive pool_op := ORun | OSend (c : config).

(** Run (1101-1163, its CallWithConfig) and SendConfig (1213-1246): two phases,
    the second with the old wait type and the new barrier type. *)
Fixpoint rounds_of (cfg : config) (ops : list pool_op) : list round :=
  match ops with
  | [] => []
  | ORun :: k =>
      {| r_wait := c_wait cfg; r_barrier := c_barrier cfg; r_latch := None |} :: rounds_of cfg k
  | OSend c :: k =>
      {| r_wait := c_wait cfg; r_barrier := c_barrier cfg; r_latch := Some c |} ::
      {| r_wait := c_wait cfg; r_barrier := c_barrier c; r_latch := None |} :: rounds_of c k
  end.

(** the config after the operations (config_ member) *)
Fixpoint config_after (cfg : config) (ops : list pool_op) : config :=
  match ops with [] => cfg | ORun :: k => config_after cfg k | OSend c :: k => config_after c k end.

(** A pool's whole life: operations, then the destructor (1051-1068), which
    sends the current config with exit = true. *)
Definition lifetime (cfg : config) (ops : list pool_op) : list round :=
  let last := config_after cfg ops in
  rounds_of cfg (ops ++ [OSend {| c_wait := c_wait last; c_barrier := c_barrier last; c_exit := true |}]).

Definition round0 := {| r_wait := WtBlock; r_barrier := BOrdered; r_latch := None |}.
(** the round of 1-based epoch e *)
Definition round_at (rs : list round) (e : Z) : round := nth (Z.to_nat (e - 1)) rs round0.

(** main: [MIdle] outside any round; then Tasks::Set and SetRange ([MSet k],
    five locations), Reset ([MReset k]), WakeWorkers ([MWake k]), own
    WorkerRun ([MRun]), UntilReached ([MBar k acc]). *)
Inductive mpc := MIdle | MSet (k : Z) | MReset (k : Z) | MWake (k : Z) | MRun | MBar (k acc : Z).
(** worker: UntilWoken, reading LatchedConfig, WorkerRun, WorkerReached (with
    the leader's loop index), and the end of the thread. *)
Inductive wpc := WWait | WLatch | WRun | WArrive (j : Z) | WExit.

Record bstate := {
  b_waiter : Z -> Z;      (* Worker::wait_epoch_ of worker slot i *)
  b_barrier : Z -> Z;     (* Worker::barrier_epoch_ of worker slot i *)
  b_tasks : Z -> Z;       (* which epoch's values Tasks::begin_,end_,func_,opaque_ and the ranges hold *)
  m_epoch : Z;            (* ThreadPool::epoch_ *)
  m_pc : mpc;
  w_epoch : Z -> Z;       (* ThreadFunc::operator() loop variable *)
  w_pc : Z -> wpc;
  w_cfg : Z -> config;    (* ThreadFunc::config_ *)
  w_latched : Z -> config (* Worker::latched_ *)
}.

(** epochs are uint32_t: equality is modulo 2^32 *)
Definition eq32 (a b : Z) : bool := wrap 32 a =? wrap 32 b.

(** thread_pool.h:943-950, 1023-1047: epochs start at 0 / 1, all configs = config_ *)
Definition b_init (cfg : config) : bstate := {|
  b_waiter := fun _ => 0; b_barrier := fun _ => 0; b_tasks := fun _ => 0;
  m_epoch := 0; m_pc := MIdle;
  w_epoch := fun _ => 1; w_pc := fun _ => WWait; w_cfg := fun _ => cfg; w_latched := fun _ => cfg |}.

Definition set_m (s : bstate) (p : mpc) : bstate := {|
  b_waiter := b_waiter s; b_barrier := b_barrier s; b_tasks := b_tasks s;
  m_epoch := m_epoch s; m_pc := p;
  w_epoch := w_epoch s; w_pc := w_pc s; w_cfg := w_cfg s; w_latched := w_latched s |}.
Definition set_epoch (s : bstate) (e : Z) : bstate := {|
  b_waiter := b_waiter s; b_barrier := b_barrier s; b_tasks := b_tasks s;
  m_epoch := e; m_pc := m_pc s;
  w_epoch := w_epoch s; w_pc := w_pc s; w_cfg := w_cfg s; w_latched := w_latched s |}.
Definition set_task (s : bstate) (k x : Z) : bstate := {|
  b_waiter := b_waiter s; b_barrier := b_barrier s; b_tasks := fupd (b_tasks s) k x;
  m_epoch := m_epoch s; m_pc := m_pc s;
  w_epoch := w_epoch s; w_pc := w_pc s; w_cfg := w_cfg s; w_latched := w_latched s |}.
Definition set_waiter (s : bstate) (k x : Z) : bstate := {|
  b_waiter := fupd (b_waiter s) k x; b_barrier := b_barrier s; b_tasks := b_tasks s;
  m_epoch := m_epoch s; m_pc := m_pc s;
  w_epoch := w_epoch s; w_pc := w_pc s; w_cfg := w_cfg s; w_latched := w_latched s |}.
Definition set_barrier (s : bstate) (k x : Z) : bstate := {|
  b_waiter := b_waiter s; b_barrier := fupd (b_barrier s) k x; b_tasks := b_tasks s;
  m_epoch := m_epoch s; m_pc := m_pc s;
  w_epoch := w_epoch s; w_pc := w_pc s; w_cfg := w_cfg s; w_latched := w_latched s |}.
(** worker w's private state *)
Definition set_w (s : bstate) (w ep : Z) (p : wpc) (c l : config) : bstate := {|
  b_waiter := b_waiter s; b_barrier := b_barrier s; b_tasks := b_tasks s;
  m_epoch := m_epoch s; m_pc := m_pc s;
  w_epoch := fupd (w_epoch s) w ep; w_pc := fupd (w_pc s) w p;
  w_cfg := fupd (w_cfg s) w c; w_latched := fupd (w_latched s) w l |}.

(** BarrierCounter::Reset loop (661-667), then WakeWorkers *)
Definition after_reset (b : barrier_t) (k : Z) : mpc := if k <? shards b then MReset k else MWake 0.

(** One step of the main thread: Run/SendConfig/MainAdapter::operator()
    (886-907).  [None]: blocked, or no operation left. *)
Definition step_main (rs : list round) (n : Z) (s : bstate) : option bstate :=
  let e := m_epoch s in
  let r := round_at rs e in
  match m_pc s with
  | MIdle => if e <? Z.of_nat (length rs) then Some (set_m (set_epoch s (e + 1)) (MSet 0)) else None
  | MSet k => Some (set_m (set_task s k e) (if k + 1 <? 5 then MSet (k + 1) else after_reset (r_barrier r) 0))
  | MReset k => Some (set_m (set_barrier s (kMaxThreads - k) 0) (after_reset (r_barrier r) (k + 1)))
  | MWake k =>
      match r_wait r with
      | WtSeparate => Some (set_m (set_waiter s k e) (if k + 1 <? n then MWake (k + 1) else MRun)) (* 633-637 *)
      | _ => Some (set_m (set_waiter s 0 e) MRun) (* 596-600, 616-618 *)
      end
  | MRun => Some (set_m s (MBar 0 0))
  | MBar k acc =>
      let K := shards (r_barrier r) in
      if K =? 0 then
        (* Ordered 724-730, Group 756-761: spin until slot k holds the epoch *)
        if k <? n then
          if eq32 e (b_barrier s k) then Some (set_m s (MBar (k + group (r_barrier r)) 0)) else None
        else Some (set_m s MIdle)
      else
        (* Counter 679-708: load the shards one by one, compare the sum *)
        if k <? K then Some (set_m s (MBar (k + 1) (wrap 32 (acc + b_barrier s (kMaxThreads - k)))))
        else if acc =? n then Some (set_m s MIdle) else Some (set_m s (MBar 0 0))
  end.

(** UntilWoken of the three wait types (603-607, 620-625, 639-644) *)
Definition woken_guard (s : bstate) (w : Z) : bool :=
  match c_wait (w_cfg s w) with
  | WtBlock => negb (eq32 (b_waiter s 0) (w_epoch s w - 1))
  | WtSpin1 => eq32 (b_waiter s 0) (w_epoch s w)
  | WtSeparate => eq32 (b_waiter s w) (w_epoch s w)
  end.

(** end of the loop body of ThreadFunc::operator() (971-972) *)
Definition w_next (s : bstate) (w : Z) : bstate :=
  if c_exit (w_cfg s w) then set_w s w (w_epoch s w) WExit (w_cfg s w) (w_latched s w)
  else set_w s w (w_epoch s w + 1) WWait (w_cfg s w) (w_latched s w).

(** One step of worker thread w: ThreadFunc::operator() (952-976) *)
Definition step_worker (rs : list round) (n : Z) (w : Z) (s : bstate) : option bstate :=
  let ep := w_epoch s w in
  let c := w_cfg s w in
  let l := w_latched s w in
  match w_pc s w with
  | WWait => if woken_guard s w then Some (set_w s w ep WLatch c l) else None
  | WLatch => Some (set_w s w ep WRun l l)
  | WRun =>
      (* SendConfig's closure latches its config in this worker's slot; which
         closure runs is decided by Tasks::func_ *)
      let l' := match r_latch (round_at rs (b_tasks s 2)) with Some x => x | None => l end in
      Some (set_w s w ep (WArrive (w + 1)) c l')
  | WArrive j =>
      let b := c_barrier c in
      if negb (shards b =? 0) then
        (* 670-676 *)
        let slot := kMaxThreads - Z.land w (shards b - 1) in
        Some (w_next (set_barrier s slot (wrap 32 (b_barrier s slot + 1))) w)
      else if negb (group b =? 1) && (w mod group b =? 0) && (j <? Z.min (w + group b) n) then
        (* 743-753: a leader waits for its group *)
        if eq32 ep (b_barrier s j) then Some (set_w s w ep (WArrive (j + 1)) c l) else None
      else Some (w_next (set_barrier s w ep) w)
  | WExit => None
  end.

Inductive thread := TMain | TWorker (w : Z).
Definition bstep (rs : list round) (n : Z) (t : thread) (s : bstate) : option bstate :=
  match t with TMain => step_main rs n s | TWorker w => step_worker rs n w s end.

Fixpoint bexec (rs : list round) (n : Z) (sched : list thread) (s : bstate) : option bstate :=
  match sched with
  | [] => Some s
  | t :: k => match bstep rs n t s with None => None | Some s' => bexec rs n k s' end
  end.
