(** Model of the task-distribution part of hwy/contrib/thread_pool/thread_pool.h:
    coprime search, victims, range division, and the atomic-step behaviour of
    WorkerRun.  uint32_t/uint64_t arithmetic wraps explicitly. *)
From Coq Require Import ZArith List Bool.
From Verif Require Import Word Arith_Model.
Import ListNotations.
Local Open Scope Z_scope.

(* ---------------------------------------------------------------- *)
(** ** ShuffledIota, thread_pool.h:90-150 *)

(** thread_pool.h:96-100.  [current + coprime_] is uint32_t addition; the
    Divisor64 remainder is [mod] by C02; result cast to uint32_t. *)
Definition Iota_Next (coprime current size : Z) : Z :=
  wrap 32 (wrap 32 (current + coprime) mod size).

(** thread_pool.h:114-127, the for(;;) loop; [None] = still looping. *)
Fixpoint Coprime_loop (fuel : nat) (a b : Z) : option bool :=
  match fuel with
  | O => None
  | S f =>
    let a1 := Z.max a b in
    let b1 := Z.min a b in
    if b1 =? 1 then Some true
    else
      let a2 := wrap 32 (a1 - b1) in
      if a2 =? 0 then Some false
      else Coprime_loop f (Z.shiftr a2 (bsf a2)) b1
  end.

(** thread_pool.h:104-128; [None] for a zero argument (bit scan of zero). *)
Definition CoprimeNonzero (a b : Z) : option bool :=
  if (a =? 0) || (b =? 0) then None
  else
    let ta := bsf a in
    let tb := bsf b in
    if negb (Z.min ta tb =? 0) then Some false
    else Coprime_loop 64 (Z.shiftr a ta) (Z.shiftr b tb).

(** thread_pool.h:140-146, the search loop; [None] = HWY_UNREACHABLE reached
    (or the fuel, the number of iterations, is exhausted). *)
Fixpoint Find_loop (fuel : nat) (size bound inc x : Z) : option Z :=
  match fuel with
  | O => None
  | S f =>
    if x <? bound then
      match CoprimeNonzero x size with
      | None => None
      | Some true => Some x
      | Some false => Find_loop f size bound inc (wrap 32 (x + inc))
      end
    else None
  end.

(** thread_pool.h:132-147 *)
Definition FindAnotherCoprime (size start : Z) : option Z :=
  if size <=? 2 then Some 1
  else
    let inc := if Z.odd size then 1 else 2 in
    let bound := wrap 32 (start + wrap 32 (size * 16)) in
    Find_loop (Z.to_nat bound) size bound inc (Z.lor start 1).

(* ---------------------------------------------------------------- *)
(** ** Worker constructor: victims, thread_pool.h:293-315 *)
Definition kMaxVictims : Z := 4.

Fixpoint victims_from (n : nat) (coprime size prev : Z) : list Z :=
  match n with
  | O => []
  | S k => let v := Iota_Next coprime prev size in v :: victims_from k coprime size v
  end.

(** thread_pool.h:300-314; the list of num_victims_ entries of victims_. *)
Definition Worker_victims (worker num_workers : Z) : option (list Z) :=
  let num_victims := Z.min kMaxVictims num_workers in
  match FindAnotherCoprime num_workers (wrap 32 ((worker + 1) * 257 + worker * 13)) with
  | None => None
  | Some c => Some (worker :: victims_from (Z.to_nat (num_victims - 1)) c num_workers worker)
  end.

(* ---------------------------------------------------------------- *)
(** ** Tasks::DivideRangeAmongWorkers, thread_pool.h:458-480 *)
Fixpoint Divide_loop (n : nat) (worker my_begin min_tasks remainder : Z) : list (Z * Z) :=
  match n with
  | O => []
  | S k =>
    let my_end := wrap 64 (my_begin + min_tasks + (if worker <? remainder then 1 else 0)) in
    (my_begin, my_end) :: Divide_loop k (worker + 1) my_end min_tasks remainder
  end.

(** the (my_begin_, my_end_) pairs passed to SetRange, in worker order *)
Definition DivideRangeAmongWorkers (begin end_ num_workers : Z) : list (Z * Z) :=
  let num_tasks := wrap 64 (end_ - begin) in
  Divide_loop (Z.to_nat num_workers) 0 begin (num_tasks / num_workers) (num_tasks mod num_workers).

(* ---------------------------------------------------------------- *)
(** ** One Run: interleaving semantics of WorkerRun *)

(** Program counter of a worker inside WorkerRunWithStealing
    (thread_pool.h:519-546).
    [PVictims vs]: about to start with victim [hd vs] (load MyEnd, line 531),
    or finished if [vs = []].
    [PLoop v e vs]: in the for(;;) with other_end = e, about to fetch_add.
    [PCall t v e vs]: reserved task t < e, about to call func (line 543).
    [PSingle]: about to run WorkerRunSingle (lines 493-505). *)
Inductive pc :=
| PSingle
| PVictims (vs : list Z)
| PLoop (v e : Z) (vs : list Z)
| PCall (t v e : Z) (vs : list Z).

Record state := {
  st_begin : Z -> Z;            (* my_begin_ of each worker *)
  st_pc : Z -> pc;              (* one per worker *)
  st_calls : list (Z * Z)       (* closure calls so far: (task, worker), newest first *)
}.

Definition fupd {A} (f : Z -> A) (k : Z) (x : A) : Z -> A :=
  fun i => if i =? k then x else f i.

(** One atomic step of worker [w].  [tb],[te] = Tasks::begin_/end_; [my_end] =
    the workers' my_end_, constant during the run. *)
Definition step (tb te : Z) (my_end : Z -> Z) (w : Z) (s : state) : option state :=
  match st_pc s w with
  | PSingle =>
    (* lines 494-503: task = begin + worker (uint64 wrap); call if task < end *)
    let task := wrap 64 (tb + w) in
    Some {| st_begin := st_begin s; st_pc := fupd (st_pc s) w (PVictims []);
            st_calls := if task <? te then (task, w) :: st_calls s else st_calls s |}
  | PVictims [] => None
  | PVictims (v :: vs) =>
    Some {| st_begin := st_begin s; st_pc := fupd (st_pc s) w (PLoop v (my_end v) vs);
            st_calls := st_calls s |}
  | PLoop v e vs =>
    (* line 350: fetch_add returns the old value; line 537 *)
    let task := st_begin s v in
    Some {| st_begin := fupd (st_begin s) v (wrap 64 (task + 1));
            st_pc := fupd (st_pc s) w (if e <=? task then PVictims vs else PCall task v e vs);
            st_calls := st_calls s |}
  | PCall t v e vs =>
    Some {| st_begin := st_begin s; st_pc := fupd (st_pc s) w (PLoop v e vs);
            st_calls := (t, w) :: st_calls s |}
  end.

(** A schedule names, step by step, the worker that moves; any interleaving of
    the workers is such a list.  [None]: a scheduled worker had already
    finished. *)
Fixpoint exec (tb te : Z) (my_end : Z -> Z) (sched : list Z) (s : state) : option state :=
  match sched with
  | [] => Some s
  | w :: ws =>
    match step tb te my_end w s with
    | None => None
    | Some s' => exec tb te my_end ws s'
    end
  end.

Definition finished (nw : Z) (s : state) : Prop := forall w, 0 <= w < nw -> st_pc s w = PVictims [].

(** ThreadPool::Run, thread_pool.h:1101-1123 up to the wake-up, then
    WorkerRun's dispatch (483-489) for every worker including main.
    [victims w] is worker w's victim list; [junk] the my_begin_ values left
    from earlier runs when DivideRange is not called (line 1118).
    Left: the calls made inline by the main thread (lines 1107-1112). *)
Inductive run_start :=
| Inline (calls : list (Z * Z))
| Parallel (my_end : Z -> Z) (s : state).

Definition Run_start (begin end_ nw : Z) (victims : Z -> list Z) (junk_b junk_e : Z -> Z) : run_start :=
  let num_tasks := wrap 64 (end_ - begin) in
  if (num_tasks <=? 1) || (nw =? 1) then
    Inline (map (fun i => (begin + Z.of_nat i, 0)) (seq 0 (Z.to_nat (end_ - begin))))
  else if num_tasks >? nw then
    let rs := DivideRangeAmongWorkers begin end_ nw in
    Parallel (fun w => snd (nth (Z.to_nat w) rs (0, 0)))
      {| st_begin := fun w => fst (nth (Z.to_nat w) rs (0, 0));
         st_pc := fun w => PVictims (victims w); st_calls := [] |}
  else
    Parallel junk_e {| st_begin := junk_b; st_pc := fun _ => PSingle; st_calls := [] |}.
