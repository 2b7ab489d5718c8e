(** hwy/contrib/sort/vqsort-inl.h 610-925: PartitionRightmost, StoreLeftRight,
    StoreRightAndBuf, Partition.  All quantities are in units of keys: the code's
    lane counts are multiples of LanesPerKey (1 or 2), which divides the power of
    two Lanes(d).  [N] is the number of keys per vector.  [keys] is the subarray
    [keys, keys + num) and [buf] the buffer; pointer offsets below are relative
    to them, and any access outside is [None]. *)
From Coq Require Import ZArith List Lia Bool.
From Verif Require Import Word Vec_Model.
Import ListNotations.
Local Open Scope Z_scope.

Section Partition.
Context {K : Type}.
Variables (lt : K -> K -> bool) (zero : K) (N : Z).
(** CompressStore(v, m) stores the selected lanes followed by [tail v m]: up to
    N - CountTrue(m) arbitrary further lanes (quick_reference.md 1589-1593). *)
Variable tail : list K -> list bool -> list K.
(** upper lanes of Compress where CompressIsPartition (quick_reference.md
    1571-1578): the unselected lanes in any order. *)
Variable upper : list K -> list bool -> list K.
(** [part]: CompressIsPartition<T>::value || (HWY_MAX_BYTES == 16 && Is128()).
    [blend_full]: CompressBlendedStore is implemented by loading and storing a
    whole vector (quick_reference.md 1595-1599). *)
Variables part blend_full : bool.

Definition kUnroll : Z := 4.                              (* shared-inl.h 73 *)
Definition max_buf : Z := (3 * kUnroll + 1) * N.          (* 651 *)
Definition partition_buf_num : Z := 2 * (3 * kUnroll + 1) * N. (* shared-inl.h 88-94 *)

(** st.Compare(d, pivot, v) with broadcast pivot *)
Definition cmp (pivot : K) (v : list K) : list bool := map (lt pivot) v.
Definition compress_store (v : list K) (m : list bool) (l : list K) (off : Z) : option (list K * Z) :=
  match storeu l off (select v m ++ tail v m) with
  | Some l' => Some (l', zlen (select v m))
  | None => None
  end.

(** 622-641: (num_here, num_main).  [num & (4N - 1)] with N a power of two. *)
Definition rightmost_split (num : Z) : Z * Z :=
  let remainder := Z.land num (kUnroll * N - 1) in
  let min := remainder + (if remainder <? N then kUnroll * N else 0) in
  let num_here := Z.min min num in
  let num_main := wrap 64 (num - num_here) in
  if num_main <? 2 * kUnroll * N then (num, 0) else (num_here, num_main).

(** 660-671: (keys is only read) *)
Fixpoint rightmost_loop (fuel : nat) (pivot : K) (keys : list K) (num_here i readR : Z) (buf : list K) (bufL bufR : Z)
  : option (Z * Z * list K * Z * Z) :=
  match fuel with
  | O => None
  | S f =>
      if i <=? wrap 64 (num_here - N) then
        let readR := readR - N in
        match loadu keys readR N with
        | None => None
        | Some v =>
            let comp := cmp pivot v in
            match compress_store v (mask_not comp) buf bufL with
            | None => None
            | Some (buf, numL) =>
                match compress_store v comp buf bufR with
                | None => None
                | Some (buf, _) => rightmost_loop f pivot keys num_here (i + N) readR buf (bufL + numL) (bufR + (N - numL))
                end
            end
        end
      else Some (i, readR, buf, bufL, bufR)
  end.

(** 611-700; result: keys, buf, bufL, writeR, num_main *)
Definition partition_rightmost (pivot : K) (keys : list K) (num : Z) (buf : list K) : option (list K * list K * Z * Z * Z) :=
  let '(num_here, num_main) := rightmost_split num in
  match rightmost_loop (S (Z.to_nat num)) pivot keys num_here 0 num buf 0 max_buf with
  | None => None
  | Some (i, readR, buf, bufL, bufR) =>
      let remaining := num_here - i in
      match (if negb (remaining =? 0) then
               let mask := first_n N remaining in
               let readR := readR - remaining in
               match load_n zero N keys readR remaining with
               | None => None
               | Some v =>
                   let comp := cmp pivot v in
                   match compress_store v (mask_and (mask_not comp) mask) buf bufL with
                   | None => None
                   | Some (buf, numL) =>
                       match compress_store v comp buf bufR with
                       | None => None
                       | Some (buf, _) => Some (buf, bufL + numL, bufR + (remaining - numL))
                       end
                   end
               end
             else Some (buf, bufL, bufR)) with
      | None => None
      | Some (buf, bufL, bufR) =>
          let numWrittenR := bufR - max_buf in
          let writeR := num - numWrittenR in
          (* CopyBytes(buf + max_buf, keys + writeR, numWrittenR) *)
          match loadu buf max_buf numWrittenR with
          | None => None
          | Some x => match storeu keys writeR x with
                      | Some keys' => Some (keys', buf, bufL, writeR, num_main)
                      | None => None
                      end
          end
      end
  end.

(** 704-741 StoreLeftRight: keys, writeL, remaining *)
Definition store_left_right (pivot : K) (v : list K) (keys : list K) (writeL remaining : Z) : option (list K * Z * Z) :=
  let comp := cmp pivot v in
  let remaining := remaining - N in
  if part then
    let lr := select v (mask_not comp) ++ upper v (mask_not comp) in
    let num_left := N - zlen (select v comp) in
    match storeu keys writeL lr with
    | None => None
    | Some keys => match storeu keys (remaining + writeL) lr with
                   | None => None
                   | Some keys => Some (keys, writeL + num_left, remaining)
                   end
    end
  else
    match compress_store v (mask_not comp) keys writeL with
    | None => None
    | Some (keys, num_left) =>
        let writeL := writeL + num_left in
        match compress_blended_store blend_full v comp keys (remaining + writeL) with
        | None => None
        | Some (keys, _) => Some (keys, writeL, remaining)
        end
    end.

(** 743-754 StoreLeftRight4, for a list of vectors *)
Fixpoint store_left_right_list (pivot : K) (vs : list (list K)) (keys : list K) (writeL remaining : Z) : option (list K * Z * Z) :=
  match vs with
  | [] => Some (keys, writeL, remaining)
  | v :: r => match store_left_right pivot v keys writeL remaining with
              | Some (keys, writeL, remaining) => store_left_right_list pivot r keys writeL remaining
              | None => None
              end
  end.

(** four LoadU at p + 0*N .. p + 3*N *)
Definition load4 (keys : list K) (p : Z) : option (list K * list K * list K * list K) :=
  match loadu keys p N, loadu keys (p + N) N, loadu keys (p + 2 * N) N, loadu keys (p + 3 * N) N with
  | Some a, Some b, Some c, Some d => Some (a, b, c, d)
  | _, _, _, _ => None
  end.

(** 757-770 StoreRightAndBuf: keys, writeR, buf, bufL *)
Definition store_right_and_buf (pivot : K) (v : list K) (keys : list K) (writeR : Z) (buf : list K) (bufL : Z) : option (list K * Z * list K * Z) :=
  let comp := cmp pivot v in
  match compress_store v (mask_not comp) buf bufL with
  | None => None
  | Some (buf, numL) =>
      let numR := N - numL in
      let writeR := writeR - numR in
      (* StoreN(Compress(v, comp), d, keys + writeR, numR) writes the first numR lanes *)
      match storeu keys writeR (firstn (Z.to_nat numR) (select v comp)) with
      | None => None
      | Some keys => Some (keys, writeR, buf, bufL + numL)
      end
  end.

(** 847-894 the main loop *)
Fixpoint partition_loop (fuel : nat) (pivot : K) (keys : list K) (writeL remaining readL readR : Z) : option (list K * Z * Z) :=
  match fuel with
  | O => None
  | S f =>
      if negb (readL =? readR) then
        let capacityL := wrap 64 (readL - writeL) in
        match (if kUnroll * N <? capacityL then
                 option_map (fun v => (v, readL, readR - kUnroll * N)) (load4 keys (readR - kUnroll * N))
               else option_map (fun v => (v, readL + kUnroll * N, readR)) (load4 keys readL)) with
        | None => None
        | Some (v0, v1, v2, v3, readL, readR) =>
            match store_left_right_list pivot [v0; v1; v2; v3] keys writeL remaining with
            | None => None
            | Some (keys, writeL, remaining) => partition_loop f pivot keys writeL remaining readL readR
            end
        end
      else Some (keys, writeL, remaining)
  end.

(** 772-925 Partition: keys, buf, returned boundary *)
Definition partition (pivot : K) (keys : list K) (num : Z) (buf : list K) : option (list K * list K * Z) :=
  match partition_rightmost pivot keys num buf with
  | None => None
  | Some (keys, buf, bufL, writeR, num_main) =>
      let writeL := 0 in
      let remaining := writeR - writeL in
      match (if negb (num_main =? 0) then
               let readL := kUnroll * N in
               let readR := num_main - kUnroll * N in
               match load4 keys 0, load4 keys readR with
               | Some (vL0, vL1, vL2, vL3), Some (vR0, vR1, vR2, vR3) =>
                   match partition_loop (S (Z.to_nat num)) pivot keys writeL remaining readL readR with
                   | None => None
                   | Some (keys, writeL, remaining) =>
                       match store_left_right_list pivot [vL0; vL1; vL2; vL3; vR0; vR1] keys writeL remaining with
                       | None => None
                       | Some (keys, writeL, remaining) =>
                           let writeR := writeL + remaining in
                           match store_right_and_buf pivot vR2 keys writeR buf bufL with
                           | None => None
                           | Some (keys, writeR, buf, bufL) =>
                               match store_right_and_buf pivot vR3 keys writeR buf bufL with
                               | None => None
                               | Some (keys, writeR, buf, bufL) => Some (keys, buf, bufL, writeL)
                               end
                           end
                       end
                   end
               | _, _ => None
               end
             else Some (keys, buf, bufL, writeL)) with
      | None => None
      | Some (keys, buf, bufL, writeL) =>
          (* CopyBytes(buf, keys + writeL, bufL) *)
          match loadu buf 0 bufL with
          | None => None
          | Some x => match storeu keys writeL x with
                      | None => None
                      | Some keys => Some (keys, buf, writeL + bufL)
                      end
          end
      end
  end.
End Partition.
