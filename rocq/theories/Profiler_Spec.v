(** What the profiler reports, in terms of the zones a program entered and left, independently of packets, buffers and tables. *)
From Coq Require Import ZArith List Bool.
From Verif Require Import Profiler_Model.
Import ListNotations.
Open Scope Z_scope.

(** One execution of a zone: its name's offset, the timestamps at entry and exit, and the zones executed inside it *)
Inductive call := Call (off t0 t1 : Z) (inner : list call).
(** the recorded events, in order *)
Fixpoint events (c : call) : list event := match c with Call o t0 t1 cs => Enter o t0 :: flat_map events cs ++ [Exit t1] end.
(** elapsed time; timestamps are kept modulo 2^39 ticks *)
Definition elapsed (c : call) : Z := match c with Call _ t0 t1 _ => (t1 - t0) mod 2 ^ 39 end.
Fixpoint sumZ (l : list Z) : Z := match l with [] => 0 | x :: r => x + sumZ r end.
Definition inside (co : Z) (cs : list call) : Z := sumZ (map (fun c => elapsed c + co) cs).
(** time spent in the zone itself, not in zones inside it *)
Definition self_time (so co : Z) (c : call) : Z := match c with Call _ _ _ cs => Z.max 0 (elapsed c - (so + co + inside co cs)) end.
(** all zone executions: (offset, number of calls, self time) *)
Fixpoint samples (so co : Z) (c : call) : list (Z * Z * Z) := match c with Call o _ _ cs => flat_map (samples so co) cs ++ [(o, 1, self_time so co c)] end.
Fixpoint depth (c : call) : nat := match c with Call _ _ _ cs => S (fold_right (fun c m => Nat.max (depth c) m) 0%nat cs) end.
(** offsets fit (25 bits, not the code of an exit), timestamps are 64-bit, and the time inside a zone does not overflow 64 bits *)
Fixpoint call_ok (so co : Z) (c : call) : Prop :=
  match c with Call o t0 t1 cs => 0 < o < 2 ^ 25 /\ o <> 2 ^ 24 /\ 0 <= t0 < 2 ^ 64 /\ 0 <= t1 < 2 ^ 64 /\ so + co + inside co cs < 2 ^ 64 /\ fold_right (fun c P => call_ok so co c /\ P) True cs end.

Definition s_off (s : Z * Z * Z) : Z := fst (fst s).
(** totals by key *)
Definition calls_of {K} (eqb : K -> K -> bool) (key : Z -> K) (T : list (Z * Z * Z)) (k : K) : Z := sumZ (map (fun s => if eqb (key (s_off s)) k then snd (fst s) else 0) T).
Definition time_of {K} (eqb : K -> K -> bool) (key : Z -> K) (T : list (Z * Z * Z)) (k : K) : Z := sumZ (map (fun s => if eqb (key (s_off s)) k then snd s else 0) T).
Definition zid (z : Z) : Z := z.
(** a table holds exactly the totals of T: one entry per offset, with the number of calls and the total self time (modulo 2^64) *)
Definition table_of (zs : list acc) (T : list (Z * Z * Z)) : Prop :=
  NoDup (map acc_offset zs) /\ (forall o, In o (map acc_offset zs) <-> In o (map s_off T)) /\
  forall z, In z zs -> acc_calls z = calls_of Z.eqb zid T (acc_offset z) /\ acc_duration z = time_of Z.eqb zid T (acc_offset z) mod 2 ^ 64.
Definition total_calls (T : list (Z * Z * Z)) : Z := sumZ (map (fun s => snd (fst s)) T).

(** what one thread did, and its measured overheads *)
Record history := History { h_so : Z; h_co : Z; h_calls : list call }.
Definition h_samples (h : history) : list (Z * Z * Z) := flat_map (samples (h_so h) (h_co h)) (h_calls h).
Definition history_ok (h : history) : Prop := 0 <= h_so h /\ 0 <= h_co h /\ Forall (call_ok (h_so h) (h_co h)) (h_calls h) /\ forall c, In c (h_calls h) -> (depth c <= 64)%nat.
(** at most 256 different zones, and fewer than 2^39 calls *)
Definition fits (T : list (Z * Z * Z)) : Prop := total_calls T < 2 ^ 39 /\ exists U, (length U <= 256)%nat /\ forall s, In s T -> In (s_off s) U.
(** the state of the thread after executing its zones, with a buffer of [cap] packets and storage for [maxp] *)
Definition recorded (cap maxp : nat) (h : history) (t : thread) : Prop := run_events cap maxp (new_thread (h_so h) (h_co h)) (flat_map events (h_calls h)) = Some t.
(** the correct report: one line per name, with the number of calls and the total self time over all threads *)
Definition report_ok (name : Z -> nat) (T : list (Z * Z * Z)) (report : list (nat * Z * Z)) : Prop :=
  NoDup (map (fun l => fst (fst l)) report) /\
  forall n c d, In (n, c, d) report <-> In n (map (fun s => name (s_off s)) T) /\ c = calls_of Nat.eqb name T n /\ d = time_of Nat.eqb name T n mod 2 ^ 64.
