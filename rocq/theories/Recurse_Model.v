(** hwy/contrib/sort/vqsort-inl.h 1185-2090: pivot sampling, pivot selection, the
    quicksort recursion and its entry points; shared-inl.h 27-109.  In units of
    keys, as in Partition_Model: [N] keys per vector.  Subarrays are exact lists:
    [keys] is keys[0, num), so an access outside the subarray is [None]. *)
From Coq Require Import ZArith List Bool.
From Verif Require Import Word Vec_Model Heap_Model Partition_Model TwoValue_Model BaseCase_Model.
Import ListNotations.
Local Open Scope Z_scope.

(** The sort traits (traits-inl.h, traits128-inl.h), per key instead of per vector. *)
Record traits (K : Type) : Type := {
  t_lt : K -> K -> bool;         (* Compare, Compare1 *)
  t_ltn : K -> K -> bool;        (* Compare of TraitsForSortingNetwork *)
  t_first : K -> K -> K;         (* First *)
  t_last : K -> K -> K;          (* Last *)
  t_sort2 : K -> K -> K * K;     (* Sort2 *)
  t_eq : K -> K -> bool;         (* EqualKeys, Equal1; NoKeyDifference(a ^ b) *)
  t_firstv : K;                  (* FirstValue *)
  t_lastv : K;                   (* LastValue *)
  t_prev : K -> K;               (* PrevValue *)
  t_xor : K -> K -> K;           (* Xor of the lanes *)
  t_kv : bool;                   (* IsKV *)
  t_128 : bool                   (* Is128 *)
}.
Arguments t_lt {K}. Arguments t_ltn {K}. Arguments t_first {K}. Arguments t_last {K}. Arguments t_sort2 {K}. Arguments t_eq {K}.
Arguments t_firstv {K}. Arguments t_lastv {K}. Arguments t_prev {K}. Arguments t_xor {K}. Arguments t_kv {K}. Arguments t_128 {K}.

(** shared-inl.h 27-38 RandomBits: state[0..2] *)
Definition rng : Type := (Z * Z * Z)%type.
Definition random_bits (s : rng) : Z * rng :=
  let '(a, b, c) := s in
  let w := wrap 64 (c + 1) in
  let next := Z.lxor a w in
  let s0 := Z.lxor (wrap 64 (b + wrap 64 (Z.shiftl b 3))) (Z.shiftr b 11) in
  let rot := Z.lor (wrap 64 (Z.shiftl b 24)) (Z.shiftr b 40) in
  (next, (s0, wrap 64 (rot + next), w)).

(** 1205-1209 RandomChunkIndex; the uint64_t product cannot wrap *)
Definition random_chunk_index (num_chunks bits : Z) : Z := Z.shiftr (wrap 64 (bits * num_chunks)) 32.

(** PivotResult (1324-1329) without kDone, RecurseMode (1717-1727) without the
    unused kLooseSelect *)
Inductive pivot_result := kNormal | kIsFirst | kWasLast.
Inductive rmode := kSort | kSelect.
Definition is_first (r : pivot_result) : bool := match r with kIsFirst => true | _ => false end.
Definition was_last (r : pivot_result) : bool := match r with kWasLast => true | _ => false end.

Section Recurse.
Context {K : Type}.
Variables (T : traits K).
Notation lt := (t_lt T).
Notation eqk := (t_eq T).
(** Lanes(d), the compile-time bound MaxLanes(d), LanesPerChunk(sizeof(T)), all in
    keys; lanes per key; !MSVC && !debug (kMaxCols); HWY_MEM_OPS_MIGHT_FAULT;
    IsFloat<T>; debug build (HWY_DASSERT active) *)
Variables (N maxN kC lpk : Z) (big fault isfloat debug : bool).
(** see Partition_Model *)
Variables (zero : K) (tail upper : list K -> list bool -> list K) (part : bool).

Definition base_num : Z := base_case_num big lpk N.
(** SampleLanes *)
Definition nsamples : Z := 2 * kC.

(** HWY_DASSERT(b): aborts in debug builds *)
Definition dassert {A} (b : bool) (x : option A) : option A := if debug && negb b then None else x.

(** Load(d, p + off): p has address [addr] in units of keys; must be aligned to the vector *)
Definition load_al {A} (addr : Z) (l : list A) (off : Z) : option (list A) :=
  if (addr + off) mod N =? 0 then loadu l off N else None.
(** Store(v, d, p + off) *)
Definition store_al {A} (addr : Z) (l : list A) (off : Z) (v : list A) : option (list A) :=
  if (addr + off) mod N =? 0 then storeu l off v else None.

(** 1184-1200 MedianOf3 *)
Definition median_of_3 (v0 v1 v2 : K) : K :=
  if t_128 T then
    let sum := t_xor T (t_xor T v0 v1) v2 in
    let first := t_first T (t_first T v0 v1) v2 in
    let last := t_last T (t_last T v0 v1) v2 in
    t_xor T (t_xor T sum first) last
  else
    let '(v0, v2) := t_sort2 T v0 v2 in
    let v1 := t_last T v0 v1 in
    t_first T v1 v2.
Definition vmedian (v0 v1 v2 : list K) : list K :=
  map (fun p : K * (K * K) => median_of_3 (fst p) (fst (snd p)) (snd (snd p))) (combine v0 (combine v1 v2)).

(** 1249-1263 the sampling loop; [keys], [addr] after alignment *)
Fixpoint draw_loop (fuel : nat) (addr : Z) (keys : list K) (o0 o1 o2 o3 o4 o5 : Z) (buf : list K) (i : Z) : option (list K) :=
  match fuel with
  | O => None
  | S f =>
      if i <? kC then
        match load_al addr keys (o0 + i), load_al addr keys (o1 + i), load_al addr keys (o2 + i) with
        | Some v0, Some v1, Some v2 =>
            match store_al 0 buf i (vmedian v0 v1 v2) with
            | None => None
            | Some buf =>
                match load_al addr keys (o3 + i), load_al addr keys (o4 + i), load_al addr keys (o5 + i) with
                | Some v3, Some v4, Some v5 =>
                    match store_al 0 buf (i + kC) (vmedian v3 v4 v5) with
                    | None => None
                    | Some buf => draw_loop f addr keys o0 o1 o2 o3 o4 o5 buf (i + N)
                    end
                | _, _, _ => None
                end
            end
        | _, _, _ => None
        end
      else Some buf
  end.
(** 1212-1264 DrawSamples; [addr] = keys / sizeof(key).  CopyBytes<8> to two
    uint32: low half first (little-endian). *)
Definition draw_samples (addr : Z) (keys : list K) (num : Z) (buf : list K) (s : rng) : option (list K * rng) :=
  dassert (nsamples <=? num)
  (let misalign := Z.land addr (kC - 1) in
   let consume := if negb (misalign =? 0) then kC - misalign else 0 in
   let keys := skipn (Z.to_nat consume) keys in
   let addr := addr + consume in
   let num := wrap 64 (num - consume) in
   let '(r0, s) := random_bits s in
   let '(r1, s) := random_bits s in
   let '(r2, s) := random_bits s in
   let num_chunks := wrap 32 (Z.min (num / kC) 0xFFFFFFFF) in
   let off r := random_chunk_index num_chunks r * kC in
   match draw_loop (S (Z.to_nat kC)) addr keys
           (off (wrap 32 r0)) (off (Z.shiftr r0 32)) (off (wrap 32 r1)) (off (Z.shiftr r1 32)) (off (wrap 32 r2)) (off (Z.shiftr r2 32)) buf 0 with
   | Some buf => Some (buf, s)
   | None => None
   end).

(** 1272-1303 UnsortedSampleEqual.  OR of XOR-differences is zero iff no vector
    differs, so the accumulator is kept as the boolean [acc] = "no difference". *)
Fixpoint sample_equal_loop (fuel : nat) (first : K) (buf : list K) (acc : bool) (i : Z) : option bool :=
  match fuel with
  | O => None
  | S f =>
      if i <? nsamples then
        match load_al 0 buf i with
        | None => None
        | Some v =>
            let same := forallb (fun x => eqk x first) v in
            if isfloat then if negb same then Some false else sample_equal_loop f first buf acc (i + N)
            else sample_equal_loop f first buf (acc && same) (i + N)
        end
      else Some acc
  end.
Definition unsorted_sample_equal (buf : list K) : option bool :=
  match rd buf 0 with
  | None => None
  | Some first => sample_equal_loop (S (Z.to_nat nsamples)) first buf true 0
  end.

(** 1305-1320 SortSamples: BaseCase(d, st, buf, kSampleLanes, buf + kSampleLanes) *)
Definition sort_samples (buf : list K) : option (list K) :=
  dassert (nsamples <=? base_num)
  match base_case (t_ltn T) (t_lastv T) fault N maxN big (firstn (Z.to_nat nsamples) buf) nsamples (skipn (Z.to_nat nsamples) buf) with
  | Some (s, b) => Some (s ++ b)
  | None => None
  end.

(** 1346-1378 PivotRank.  First loop: Some None = return 0, Some (Some rank_prev) *)
Fixpoint prev_loop (fuel : nat) (samples : list K) (rank_prev : Z) : option (option Z) :=
  match fuel with
  | O => None
  | S f =>
      match rd samples rank_prev, rd samples kC with
      | Some a, Some b =>
          if eqk a b then if rank_prev =? 0 then Some None else prev_loop f samples (rank_prev - 1)
          else Some (Some rank_prev)
      | _, _ => None
      end
  end.
(** second loop: Some None = return rank_prev, Some (Some rank_next) *)
Fixpoint next_loop (fuel : nat) (samples : list K) (rank_next : Z) : option (option Z) :=
  match fuel with
  | O => None
  | S f =>
      match rd samples rank_next, rd samples kC with
      | Some a, Some b =>
          if eqk a b then if rank_next =? nsamples - 1 then Some None else next_loop f samples (rank_next + 1)
          else Some (Some rank_next)
      | _, _ => None
      end
  end.
Definition pivot_rank (samples : list K) : option Z :=
  match prev_loop (S (Z.to_nat nsamples)) samples (kC - 1) with
  | None => None
  | Some None => Some 0
  | Some (Some rank_prev) =>
      match next_loop (S (Z.to_nat nsamples)) samples (rank_prev + 1) with
      | None => None
      | Some None => Some rank_prev
      | Some (Some rank_next) =>
          let excess_if_median := wrap 64 (rank_next - kC) in
          let excess_if_prev := wrap 64 (kC - rank_prev) in
          Some (if excess_if_median <? excess_if_prev then kC else rank_prev)
      end
  end.
(** 1382-1400 ChoosePivotByRank *)
Definition choose_pivot_by_rank (samples : list K) : option K :=
  match pivot_rank samples with
  | None => None
  | Some r =>
      match rd samples r, rd samples (nsamples - 1) with
      | Some pivot, Some last => dassert (negb (eqk pivot last)) (Some pivot)
      | _, _ => None
      end
  end.

(** 1404-1498 AllEqual: Some None = true, Some (Some i) = false with *first_mismatch = i *)
Definition ne_mask (v : list K) (pivot : K) : list bool := map (fun x => negb (eqk x pivot)) v.
Definition any_true (m : list bool) : bool := existsb (fun b => b) m.
(** 1457-1464: search for the first mismatch, "with termination guarantee" *)
Fixpoint find_mismatch (fuel : nat) (addr : Z) (keys : list K) (pivot : K) (i : Z) : option Z :=
  match fuel with
  | O => None
  | S f =>
      match load_al addr keys i with
      | None => None
      | Some v => if any_true (ne_mask v pivot) then Some (i + find_first_true (ne_mask v pivot)) else find_mismatch f addr keys pivot (i + N)
      end
  end.
(** 1444-1451: [loops] more iterations of the unrolled loop at offset i + loop * 2 * N;
    diff0 / diff1 as booleans "no difference so far" *)
Fixpoint group_diff (loops : nat) (addr : Z) (keys : list K) (pivot : K) (i : Z) (d0 d1 : bool) : option (bool * bool) :=
  match loops with
  | O => Some (d0, d1)
  | S l =>
      match load_al addr keys i, load_al addr keys (i + N) with
      | Some v0, Some v1 =>
          group_diff l addr keys pivot (i + 2 * N) (d0 && forallb (fun x => eqk x pivot) v0) (d1 && forallb (fun x => eqk x pivot) v1)
      | _, _ => None
      end
  end.
(** 1440-1467: inl = first mismatch, inr = i after the groups *)
Fixpoint group_loop (fuel : nat) (addr : Z) (keys : list K) (num : Z) (pivot : K) (i : Z) (d0 d1 : bool) : option (Z + Z) :=
  match fuel with
  | O => None
  | S f =>
      let lanes_per_group := 8 * 2 * N in
      if (lanes_per_group <=? num) && (i <=? wrap 64 (num - lanes_per_group)) then
        match group_diff 8 addr keys pivot i d0 d1 with
        | None => None
        | Some (d0, d1) =>
            if negb (d0 && d1) then option_map inl (find_mismatch (S (length keys)) addr keys pivot i)
            else group_loop f addr keys num pivot (i + lanes_per_group) d0 d1
        end
      else Some (inr i)
  end.
(** 1470-1479 whole vectors *)
Fixpoint whole_loop (fuel : nat) (addr : Z) (keys : list K) (num : Z) (pivot : K) (i : Z) : option (option Z) :=
  match fuel with
  | O => None
  | S f =>
      if i <=? wrap 64 (num - N) then
        match load_al addr keys i with
        | None => None
        | Some v => if any_true (ne_mask v pivot) then Some (Some (i + find_first_true (ne_mask v pivot))) else whole_loop f addr keys num pivot (i + N)
        end
      else Some None
  end.
Definition all_equal (addr : Z) (pivot : K) (keys : list K) (num : Z) : option (option Z) :=
  dassert (N <=? num)
  (let misalign := Z.land addr (N - 1) in
   let consume := N - misalign in
   match loadu keys 0 N with
   | None => None
   | Some v =>
       let diff := mask_and (first_n N consume) (ne_mask v pivot) in
       if any_true diff then Some (Some (find_first_true diff))
       else
         match (if negb isfloat then group_loop (S (length keys)) addr keys num pivot consume true true else Some (inr consume)) with
         | None => None
         | Some (inl m) => Some (Some m)
         | Some (inr i) =>
             match whole_loop (S (length keys)) addr keys num pivot i with
             | None => None
             | Some (Some m) => Some (Some m)
             | Some None =>
                 let i := wrap 64 (num - N) in
                 match loadu keys i N with
                 | None => None
                 | Some v => if any_true (ne_mask v pivot) then Some (Some (i + find_first_true (ne_mask v pivot))) else Some None
                 end
             end
         end
   end).

(** 1500-1558 ExistsAnyBefore and 1560-1617 ExistsAnyAfter have the same shape;
    [sel] = First/Last accumulates, [hit x] = Compare(x, pivot) / Compare(pivot, x).
    ([i <= num - group] and [i + group <= num] agree once num >= group.) *)
Fixpoint scan_group (loops : nat) (sel : K -> K -> K) (keys : list K) (i : Z) (acc : list K) : option (list K) :=
  match loops with
  | O => Some acc
  | S l =>
      match loadu keys i N with
      | None => None
      | Some curr => scan_group l sel keys (i + N) (map (fun p : K * K => sel (fst p) (snd p)) (combine acc curr))
      end
  end.
Fixpoint scan_groups (fuel : nat) (sel : K -> K -> K) (hit : K -> bool) (keys : list K) (num i : Z) (acc : list K) : option (option Z) :=
  match fuel with
  | O => None
  | S f =>
      let lanes_per_group := 16 * N in
      if (lanes_per_group <=? num) && (i <=? wrap 64 (num - lanes_per_group)) then
        match scan_group 16 sel keys i acc with
        | None => None
        | Some acc => if existsb hit acc then Some None else scan_groups f sel hit keys num (i + lanes_per_group) acc
        end
      else Some (Some i)
  end.
Fixpoint scan_whole (fuel : nat) (hit : K -> bool) (keys : list K) (num i : Z) : option (option Z) :=
  match fuel with
  | O => None
  | S f =>
      if i <=? wrap 64 (num - N) then
        match loadu keys i N with
        | None => None
        | Some curr => if existsb hit curr then Some None else scan_whole f hit keys num (i + N)
        end
      else Some (Some i)
  end.
Definition exists_any (sel : K -> K -> K) (hit : K -> bool) (pivot : K) (keys : list K) (num : Z) : option bool :=
  dassert (N <=? num)
  match scan_groups (S (length keys)) sel hit keys num 0 (set N pivot) with
  | None => None
  | Some None => Some true
  | Some (Some i) =>
      match scan_whole (S (length keys)) hit keys num i with
      | None => None
      | Some None => Some true
      | Some (Some i) =>
          if negb (i =? num) then
            match loadu keys (wrap 64 (num - N)) N with
            | None => None
            | Some curr => Some (existsb hit curr)
            end
          else Some false
      end
  end.
Definition exists_any_before (keys : list K) (num : Z) (pivot : K) : option bool :=
  exists_any (t_first T) (fun x => lt x pivot) pivot keys num.
Definition exists_any_after (keys : list K) (num : Z) (pivot : K) : option bool :=
  exists_any (t_last T) (fun x => lt pivot x) pivot keys num.

(** 1621-1713 ChoosePivotForEqualSamples; reads the pivot from the buffer again *)
Definition choose_pivot_for_equal_samples (keys : list K) (num : Z) (samples : list K) (second third : K) : option (K * pivot_result) :=
  match rd samples 0 with
  | None => None
  | Some pivot =>
      if eqk pivot (t_firstv T) then Some (pivot, kIsFirst)
      else if eqk pivot (t_lastv T) then Some (t_prev T pivot, kWasLast)
      else if t_kv T then
        let before := lt second pivot in
        if before then
          match exists_any_after keys num pivot with
          | None => None
          | Some true => Some (pivot, kNormal)
          | Some false => Some (t_prev T pivot, kWasLast)
          end
        else
          match exists_any_before keys num pivot with
          | None => None
          | Some true => Some (pivot, kNormal)
          | Some false => Some (pivot, kIsFirst)
          end
      else
        let '(second, third) := t_sort2 T second third in
        dassert (lt second third)
        (let before := lt second pivot in
         let after := lt pivot third in
         dassert (before || after)
         (if before then
            match (if after then Some true else exists_any_after keys num pivot) with
            | None => None
            | Some true => Some (pivot, kNormal)
            | Some false => Some (t_prev T pivot, kWasLast)
            end
          else
            match exists_any_before keys num pivot with
            | None => None
            | Some true => Some (pivot, kNormal)
            | Some false => Some (pivot, kIsFirst)
            end))
  end.

(** 1782-1825: sampling and choice of the pivot.  keys, buf, rng and None = return
    (done), Some (pivot, result) *)
Definition choose (addr : Z) (keys : list K) (num : Z) (buf : list K) (s : rng) : option (list K * list K * rng * option (K * pivot_result)) :=
  match draw_samples addr keys num buf s with
  | None => None
  | Some (buf, s) =>
      match unsorted_sample_equal buf with
      | None => None
      | Some true =>
          match rd buf 0 with
          | None => None
          | Some pivot =>
              match all_equal addr pivot keys num with
              | None => None
              | Some None => Some (keys, buf, s, None)
              | Some (Some idx_second) =>
                  match rd keys idx_second with
                  | None => None
                  | Some second =>
                      match (if negb (t_kv T) then partition_if_two_keys eqk N lt pivot keys num idx_second second buf else Some (keys, buf, inl zero)) with
                      | None => None
                      | Some (keys, buf, inr _) => Some (keys, buf, s, None)
                      | Some (keys, buf, inl third) =>
                          match choose_pivot_for_equal_samples keys num buf second third with
                          | None => None
                          | Some pr => Some (keys, buf, s, Some pr)
                          end
                      end
                  end
              end
          end
      | Some false =>
          match sort_samples buf with
          | None => None
          | Some buf =>
              match (if negb (t_kv T) then partition_if_two_samples eqk N (t_prev T) nsamples keys num buf else Some (keys, buf, false)) with
              | None => None
              | Some (keys, buf, true) => Some (keys, buf, s, None)
              | Some (keys, buf, false) =>
                  match choose_pivot_by_rank buf with
                  | None => None
                  | Some pivot => Some (keys, buf, s, Some (pivot, kNormal))
                  end
              end
          end
      end
  end.

(** HeapSort(st, keys, num): 160-190, Heap_Model; enough fuel *)
Definition heap (keys : list K) : option (list K) := heap_sort lt lpk (Z.to_nat (2 * zlen keys + 3)) keys (lpk * zlen keys).

(** 1757-1882 Recurse.  [levels] = remaining_levels.  Result: keys, buf, rng. *)
Fixpoint recurse (levels : nat) (mode : rmode) (addr : Z) (keys : list K) (buf : list K) (s : rng) (k : Z) : option (list K * list K * rng) :=
  let num := zlen keys in
  dassert (negb (num =? 0))
  (if num <=? base_num then
     match base_case (t_ltn T) (t_lastv T) fault N maxN big keys num buf with
     | Some (keys, buf) => Some (keys, buf, s)
     | None => None
     end
   else
     match choose addr keys num buf s with
     | None => None
     | Some (keys, buf, s, None) => Some (keys, buf, s)
     | Some (keys, buf, s, Some (pivot, result)) =>
         match levels with
         | O => match heap keys with Some keys => Some (keys, buf, s) | None => None end
         | S l =>
             match partition lt zero N tail upper part false pivot keys num buf with
             | None => None
             | Some (keys, buf, bound) =>
                 dassert (negb (bound =? 0))
                 (dassert (negb (bound =? num) || was_last result)
                  (let lhs := firstn (Z.to_nat bound) keys in
                   let rhs := skipn (Z.to_nat bound) keys in
                   match mode with
                   | kSelect =>
                       if negb (is_first result) && (k <? bound) then
                         match recurse l kSelect addr lhs buf s k with
                         | Some (lhs, buf, s) => Some (lhs ++ rhs, buf, s)
                         | None => None
                         end
                       else if negb (was_last result) && (bound <=? k) then
                         match recurse l kSelect (addr + bound) rhs buf s (k - bound) with
                         | Some (rhs, buf, s) => Some (lhs ++ rhs, buf, s)
                         | None => None
                         end
                       else Some (keys, buf, s)
                   | kSort =>
                       match (if negb (is_first result) then recurse l kSort addr lhs buf s 0 else Some (lhs, buf, s)) with
                       | None => None
                       | Some (lhs, buf, s) =>
                           match (if negb (was_last result) then recurse l kSort (addr + bound) rhs buf s 0 else Some (rhs, buf, s)) with
                           | None => None
                           | Some (rhs, buf, s) => Some (lhs ++ rhs, buf, s)
                           end
                       end
                   end))
             end
         end
     end).

(** 1885-1926 HandleSpecialCases: Some None = false.  partial_128 does not occur:
    a vector holds at least one key here.  [pot_huge] = kPotentiallyHuge. *)
Variable pot_huge : bool.
Definition handle_special_cases (keys buf : list K) : option (option (list K * list K)) :=
  let num := zlen keys in
  if num <=? base_num then
    match base_case (t_ltn T) (t_lastv T) fault N maxN big keys num buf with
    | Some r => Some (Some r)
    | None => None
    end
  else if pot_huge && (base_num <? 2 * N) then
    match heap keys with Some keys => Some (Some (keys, buf)) | None => None end
  else Some None.

Definition max_levels : nat := 50.
(** the parts of Sort (1971-2000), PartialSort (2002-2046) and Select (2048-2090)
    between CountAndReplaceNaN and the final Fill.  [enabled] = VQSORT_ENABLED. *)
Variable enabled : bool.
Definition sort_body (addr : Z) (keys buf : list K) (s : rng) : option (list K * list K * rng) :=
  if enabled then
    match handle_special_cases keys buf with
    | None => None
    | Some (Some (keys, buf)) => Some (keys, buf, s)
    | Some None => recurse max_levels kSort addr keys buf s 0
    end
  else match heap keys with Some keys => Some (keys, buf, s) | None => None end.
Definition select_body (addr : Z) (keys buf : list K) (s : rng) (k : Z) : option (list K * list K * rng) :=
  dassert (k <? zlen keys)
  (if enabled then
    match handle_special_cases keys buf with
    | None => None
    | Some (Some (keys, buf)) => Some (keys, buf, s)
    | Some None => recurse max_levels kSelect addr keys buf s k
    end
  else match heap_select lt lpk (Z.to_nat (2 * zlen keys + 3)) keys (lpk * zlen keys) (lpk * k) with Some keys => Some (keys, buf, s) | None => None end).
Definition partial_sort_body (addr : Z) (keys buf : list K) (s : rng) (k : Z) : option (list K * list K * rng) :=
  dassert (k <=? zlen keys)
  (if enabled then
    match handle_special_cases keys buf with
    | None => None
    | Some (Some (keys, buf)) => Some (keys, buf, s)
    | Some None =>
        match recurse max_levels kSelect addr keys buf s k with
        | None => None
        | Some (keys, buf, s) =>
            match recurse max_levels kSort addr (firstn (Z.to_nat k) keys) buf s 0 with
            | None => None
            | Some (lhs, buf, s) => Some (lhs ++ skipn (Z.to_nat k) keys, buf, s)
            end
        end
    end
  else match heap_partial_sort lt lpk (Z.to_nat (2 * zlen keys + 3)) keys (lpk * zlen keys) (lpk * k) with Some keys => Some (keys, buf, s) | None => None end).
End Recurse.

(** 1929-1957 CountAndReplaceNaN, on raw keys [F]; [sentinel] = LastValue.  Integer
    keys: returns 0 (1960-1963). *)
Section NaN.
Context {F : Type} (is_nan : F -> bool) (sentinel zero : F) (N : Z).
Definition count_true_nan (m : list bool) : Z := zlen (filter (fun b => b) m).
Fixpoint nan_loop (fuel : nat) (keys : list F) (num i num_nan : Z) : option (list F * Z * Z) :=
  match fuel with
  | O => None
  | S f =>
      if (N <=? num) && (i <=? wrap 64 (num - N)) then
        match loadu keys i N with
        | None => None
        | Some v =>
            let m := map is_nan v in
            match blended_store (set N sentinel) m keys i with
            | None => None
            | Some keys => nan_loop f keys num (i + N) (num_nan + count_true_nan m)
            end
        end
      else Some (keys, i, num_nan)
  end.
Definition count_and_replace_nan (keys : list F) : option (list F * Z) :=
  let num := zlen keys in
  match nan_loop (S (length keys)) keys num 0 0 with
  | None => None
  | Some (keys, i, num_nan) =>
      let remaining := num - i in
      match load_n zero N keys i remaining with
      | None => None
      | Some v =>
          let m := map is_nan v in
          match store_n (if_then_else m (set N sentinel) v) N keys i remaining with
          | None => None
          | Some keys => Some (keys, num_nan + count_true_nan m)
          end
      end
  end.
(** 1997-1999: if (num_nan != 0) Fill(d, NaN, num_nan, keys + num - num_nan)
    (Fill: Algo_Model, C14; here its effect) *)
Definition fill_nan (nan : F) (keys : list F) (num_nan : Z) : option (list F) :=
  if negb (num_nan =? 0) then storeu keys (zlen keys - num_nan) (repeat nan (Z.to_nat num_nan)) else Some keys.
End NaN.
