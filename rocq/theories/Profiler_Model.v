(** Model of hwy/profiler.h (PROFILER_ENABLED builds): packets and buffering, AnalyzePackets, the per-thread tables, merging and printing.
    64-bit fields wrap. None: an out-of-bounds array access or a null pointer dereference (the HWY_DASSERTs are off in optimized builds).
    Not modelled: ComputeOverhead's measurements (the two overheads are arbitrary values), the time spent in the analysis itself, printf, and the
    sorting of the report by VQSort (C31): here the entries are listed in the order before sorting. *)
From Coq Require Import ZArith List Bool.
Import ListNotations.
Open Scope Z_scope.

Definition m64 (x : Z) : Z := x mod 2 ^ 64.
Definition kOffsetBits := 25. (* 88 *)
Definition kOffsetBias := 2 ^ (kOffsetBits - 1). (* 89 *)
Definition kTimestampBits := 64 - kOffsetBits. (* 94 *)
Definition kTimestampMask := 2 ^ kTimestampBits - 1. (* 95 *)
Definition kMaxDepth : nat := 64. (* 76 *)
Definition kMaxZones : nat := 256. (* 78 *)

(** Packet::Make 97-108, Timestamp 110, BiasedOffset 112-117. A packet is its 64 bits *)
Definition pk_make (biased_offset timestamp : Z) : Z := m64 (m64 (Z.shiftl biased_offset kTimestampBits) + Z.land timestamp kTimestampMask).
Definition pk_time (p : Z) : Z := Z.land p kTimestampMask.
Definition pk_offset (p : Z) : Z := Z.shiftr p kTimestampBits.

(** Accumulator 147-187: (lo, hi) of the u128 *)
Definition kNumCallBits := 64 - kOffsetBits.
Record acc := Acc { lo : Z; hi : Z }.
Definition acc_offset (z : acc) : Z := Z.shiftr (lo z) kNumCallBits.
Definition acc_calls (z : acc) : Z := Z.land (lo z) (2 ^ kNumCallBits - 1).
Definition acc_duration (z : acc) : Z := hi z.
Definition acc_set (biased_offset num_calls duration : Z) : acc := Acc (m64 (m64 (Z.shiftl biased_offset kNumCallBits) + num_calls)) duration.
Definition acc_add (z : acc) (num_calls duration : Z) : acc := Acc (m64 (lo z + num_calls)) (m64 (hi z + duration)).

(** ClampedSubtract 189-195 *)
Definition clamped_subtract (minuend subtrahend : Z) : Z := if minuend <? subtrahend then 0 else m64 (minuend - subtrahend).

(** UpdateOrAdd 312-340: search from the second zone on; a hit is exchanged with its predecessor *)
Fixpoint update_rest (prev : acc) (rest : list acc) (off calls dur : Z) : option (list acc) :=
  match rest with
  | [] => None
  | z :: rest' =>
      if acc_offset z =? off then Some (acc_add z calls dur :: prev :: rest')
      else match update_rest z rest' off calls dur with Some l => Some (prev :: l) | None => None end
  end.
Definition update_or_add (zones : list acc) (off calls dur : Z) : option (list acc) :=
  match zones with
  | [] => Some [acc_set off calls dur]
  | z0 :: rest =>
      if acc_offset z0 =? off then Some (acc_add z0 calls dur :: rest) else
      match update_rest z0 rest off calls dur with
      | Some l => Some l
      | None => if (length zones <? kMaxZones)%nat then Some (zones ++ [acc_set off calls dur]) else None
      end
  end.

(** Results 198-381: the stack of active zones (packet, child_total), innermost first, and the table of retired zones *)
Record results := Results { stack : list (Z * Z); zones : list acc; self_overhead : Z; child_overhead : Z }.
(** AnalyzePackets 228-262, one packet *)
Definition analyze1 (r : results) (p : Z) : option results :=
  if negb (pk_offset p =? kOffsetBias) then
    if (length (stack r) <? kMaxDepth)%nat then Some (Results ((p, 0) :: stack r) (zones r) (self_overhead r) (child_overhead r)) else None
  else
    match stack r with
    | [] => None
    | (np, child_total) :: st =>
        let duration := Z.land (m64 (pk_time p - pk_time np)) kTimestampMask in
        let self_duration := clamped_subtract duration (m64 (self_overhead r + child_overhead r + child_total)) in
        match update_or_add (zones r) (pk_offset np) 1 self_duration with
        | None => None
        | Some zs =>
            let st' := match st with [] => [] | (q, ct) :: st2 => (q, m64 (ct + (duration + child_overhead r))) :: st2 end in
            Some (Results st' zs (self_overhead r) (child_overhead r))
        end
    end.
Fixpoint analyze (r : results) (ps : list Z) : option results :=
  match ps with [] => Some r | p :: ps' => match analyze1 r p with Some r' => analyze r' ps' | None => None end end.

(** ThreadSpecific 384-482: the buffer (capacity [cap]), the storage (max_packets_ = [maxp]) and the results *)
Record thread := Thread { buffer : list Z; packets : list Z; res : results }.
Section Thread.
Context (cap maxp : nat).
(** copying the buffer to the storage, emptying that first if needed: 450-466, 420-428 *)
Definition to_storage (t : thread) : option thread :=
  match (if (maxp <? length (packets t) + length (buffer t))%nat then match analyze (res t) (packets t) with Some r => Some (Thread (buffer t) [] r) | None => None end else Some t) with
  | None => None
  | Some t' => if (length (packets t') + length (buffer t') <=? maxp)%nat then Some (Thread (buffer t') (packets t' ++ buffer t') (res t')) else None
  end.
(** Write 450-469 *)
Definition write (t : thread) (p : Z) : option thread :=
  match (if (length (buffer t) =? cap)%nat then match to_storage t with Some t' => Some (Thread [] (packets t') (res t')) | None => None end else Some t) with
  | None => None
  | Some t' => if (length (buffer t') <? cap)%nat then Some (Thread (buffer t' ++ [p]) (packets t') (res t')) else None
  end.
(** AnalyzeRemainingPackets 416-432 *)
Definition analyze_remaining (t : thread) : option thread :=
  match to_storage t with
  | None => None
  | Some t' => match analyze (res t') (packets t') with Some r => Some (Thread (buffer t') [] r) | None => None end
  end.
(** Zone's constructor and destructor 523-553 via WriteEntry and WriteExit 405-414 *)
Inductive event := Enter (biased_offset timestamp : Z) | Exit (timestamp : Z).
Definition event_packet (e : event) : Z := match e with Enter o t => pk_make o t | Exit t => pk_make kOffsetBias t end.
Fixpoint run_events (t : thread) (es : list event) : option thread :=
  match es with [] => Some t | e :: es' => match write t (event_packet e) with Some t' => run_events t' es' | None => None end end.
(** a thread that has computed its overheads; 389-400, ComputeOverhead 590-end *)
Definition new_thread (so co : Z) : thread := Thread [] [] (Results [] [] so co).
End Thread.

(** Assimilate 266-278 *)
Fixpoint assimilate (main : list acc) (other : list acc) : option (list acc) :=
  match other with
  | [] => Some main
  | z :: other' => match update_or_add main (acc_offset z) (acc_calls z) (acc_duration z) with Some m => assimilate m other' | None => None end
  end.

(** MergeDuplicates 345-371. [name off]: the characters of the zone name at that offset (two offsets can have equal names) *)
Section Merge.
Context (name : Z -> nat).
(** the loop over j: [kept] are the zones i+1..j-1, [todo] the zones from j on; [cur] is zones_[i]. Returns num_calls, zones_[i] and the remaining zones *)
Fixpoint merge_inner (fuel : nat) (num_calls : Z) (cur : acc) (kept todo : list acc) : Z * acc * list acc :=
  match fuel, todo with
  | S fuel', z :: todo' =>
      if (name (acc_offset cur) =? name (acc_offset z))%nat then
        let num_calls := m64 (num_calls + acc_calls z) in let cur := acc_add cur 0 (acc_duration z) in
        match todo' with
        | [] => (num_calls, cur, kept ++ [z]) (* 358-359: break without --num_zones_ *)
        | _ => merge_inner fuel' num_calls cur kept (last todo' z :: removelast todo')
        end
      else merge_inner fuel' num_calls cur (kept ++ [z]) todo'
  | _, _ => (num_calls, cur, kept ++ todo)
  end.
Fixpoint merge_duplicates (fuel : nat) (zs : list acc) : list acc :=
  match fuel, zs with
  | S fuel', z :: rest =>
      let '(num_calls, cur, rest') := merge_inner (length rest) (acc_calls z) z [] rest in
      acc_set (acc_offset z) num_calls (acc_duration cur) :: merge_duplicates fuel' rest'
  | _, _ => zs
  end.

(** PrintResults 497-512 and Print 281-305: the lines printed, as (name, calls, duration) *)
Fixpoint assimilate_all (maxp : nat) (main : list acc) (others : list thread) : option (list acc) :=
  match others with
  | [] => Some main
  | t :: others' => match analyze_remaining maxp t with None => None | Some t' => match assimilate main (zones (res t')) with Some m => assimilate_all maxp m others' | None => None end end
  end.
Definition line (z : acc) : nat * Z * Z := (name (acc_offset z), acc_calls z, acc_duration z).
Definition print_results (maxp : nat) (threads : list thread) : option (list (nat * Z * Z)) :=
  match threads with
  | [] => None (* 501-502: main is null *)
  | main :: others =>
      match analyze_remaining maxp main with
      | None => None
      | Some m => match assimilate_all maxp (zones (res m)) others with Some zs => Some (map line (merge_duplicates (length zs) zs)) | None => None end
      end
  end.
End Merge.
