(** What the fork-join protocol must guarantee. *)
From Coq Require Import ZArith List Bool.
From Verif Require Import Barrier_Model.
Import ListNotations.
Local Open Scope Z_scope.

Definition thread_ok (n : Z) (t : thread) : Prop := match t with TMain => True | TWorker w => 0 <= w < n end.

(** number of rounds (epochs) whose work worker w has finished *)
Definition worker_finished (s : bstate) (w : Z) : Z :=
  match w_pc s w with WArrive _ | WExit => w_epoch s w | _ => w_epoch s w - 1 end.
(** number of rounds from which the main thread has returned *)
Definition main_returned (s : bstate) : Z :=
  match m_pc s with MIdle => m_epoch s | _ => m_epoch s - 1 end.
(** worker w is executing round e's work *)
Definition working (s : bstate) (w e : Z) : Prop := w_pc s w = WRun /\ w_epoch s w = e.
(** the pool was destroyed: main went through all rounds, every thread ended *)
Definition all_done (rs : list round) (n : Z) (s : bstate) : Prop :=
  m_pc s = MIdle /\ m_epoch s = Z.of_nat (length rs) /\ forall w, 0 <= w < n -> w_pc s w = WExit.

Definition no_exit (o : pool_op) : Prop := match o with ORun => True | OSend c => c_exit c = false end.
