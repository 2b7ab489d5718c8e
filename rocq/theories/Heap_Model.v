(** hwy/contrib/sort/vqsort-inl.h 131-237: SiftDown, HeapSort, HeapSelect,
    HeapPartialSort.  A key occupies [N1] = LanesPerKey lanes; the array is a
    list of keys and lane offset [i] denotes key i/N1.  Lane offsets are size_t
    (mod 2^64).  [lt] is the traits' Compare on one key.  [None]: access outside
    the array, a lane offset that is not a key boundary, or fuel exhausted. *)
From Coq Require Import ZArith List Lia Bool.
From Verif Require Import Word Vec_Model.
Import ListNotations.
Local Open Scope Z_scope.

Section Heap.
Context {K : Type}.
Variables (lt : K -> K -> bool) (N1 : Z).

(** st.SetKey(d, lanes + i) *)
Definition key_at (l : list K) (i : Z) : option K := if i mod N1 =? 0 then rd l (i / N1) else None.
(** st.Swap(lanes + i, lanes + j) *)
Definition key_swap (l : list K) (i j : Z) : option (list K) :=
  match key_at l i, key_at l j with
  | Some a, Some b =>
      match wr l (i / N1) b with Some l' => wr l' (j / N1) a | None => None end
  | _, _ => None
  end.

(** 132-156 SiftDown *)
Fixpoint sift_down (fuel : nat) (l : list K) (num_lanes start : Z) : option (list K) :=
  match fuel with
  | O => None
  | S f =>
      if start <? num_lanes then
        let left := wrap 64 (2 * start + N1) in
        let right := wrap 64 (2 * start + 2 * N1) in
        if num_lanes <=? left then Some l
        else
          match key_at l start, key_at l left with
          | Some key_j, Some key_l =>
              let idx_larger := if lt key_j key_l then left else start in
              match (if right <? num_lanes then
                       match key_at l idx_larger, key_at l right with
                       | Some a, Some b => Some (if lt a b then right else idx_larger)
                       | _, _ => None
                       end
                     else Some idx_larger) with
              | None => None
              | Some idx_larger =>
                  if idx_larger =? start then Some l
                  else match key_swap l start idx_larger with
                       | Some l' => sift_down f l' num_lanes idx_larger
                       | None => None
                       end
              end
          | _, _ => None
          end
      else Some l
  end.

(** 167-169 / 201-203: for (i = first; i != (~N1 + 1); i -= N1) SiftDown *)
Fixpoint build_heap (fuel : nat) (l : list K) (num_lanes i : Z) : option (list K) :=
  match fuel with
  | O => None
  | S f =>
      if i =? wrap 64 (- N1) then Some l
      else match sift_down fuel l num_lanes i with
           | Some l' => build_heap f l' num_lanes (wrap 64 (i - N1))
           | None => None
           end
  end.

(** 171-189: for (i = num_lanes - N1; i != 0; i -= N1) *)
Fixpoint extract_loop (fuel : nat) (l : list K) (i : Z) : option (list K) :=
  match fuel with
  | O => None
  | S f =>
      if i =? 0 then Some l
      else match key_swap l 0 i with
           | Some l1 => match sift_down fuel l1 i 0 with
                        | Some l2 => extract_loop f l2 (wrap 64 (i - N1))
                        | None => None
                        end
           | None => None
           end
  end.

(** 160-190 HeapSort *)
Definition heap_sort (fuel : nat) (l : list K) (num_lanes : Z) : option (list K) :=
  if num_lanes =? N1 then Some l
  else match build_heap fuel l num_lanes (wrap 64 (wrap 64 (num_lanes - N1) / N1 / 2 * N1)) with
       | Some l1 => extract_loop fuel l1 (wrap 64 (num_lanes - N1))
       | None => None
       end.

(** 205-226: for (i = k; i <= num_lanes - N1; i += N1) *)
Fixpoint select_loop (fuel : nat) (l : list K) (num_lanes k i : Z) : option (list K) :=
  match fuel with
  | O => None
  | S f =>
      if i <=? wrap 64 (num_lanes - N1) then
        match key_at l i, key_at l 0 with
        | Some a, Some b =>
            match (if lt a b then
                     match key_swap l 0 i with Some l1 => sift_down fuel l1 k 0 | None => None end
                   else Some l) with
            | Some l' => select_loop f l' num_lanes k (wrap 64 (i + N1))
            | None => None
            end
        | _, _ => None
        end
      else Some l
  end.

(** 191-229 HeapSelect *)
Definition heap_select (fuel : nat) (l : list K) (num_lanes k_lanes : Z) : option (list K) :=
  let k := wrap 64 (k_lanes + N1) in
  if num_lanes =? N1 then Some l
  else match build_heap fuel l k (wrap 64 (wrap 64 (k - N1) / N1 / 2 * N1)) with
       | None => None
       | Some l1 => match select_loop fuel l1 num_lanes k k with
                    | Some l2 => key_swap l2 0 (wrap 64 (k - N1))
                    | None => None
                    end
       end.

(** 231-237 HeapPartialSort *)
Definition heap_partial_sort (fuel : nat) (l : list K) (num_lanes k_lanes : Z) : option (list K) :=
  match heap_select fuel l num_lanes k_lanes with
  | Some l1 => heap_sort fuel l1 k_lanes
  | None => None
  end.
End Heap.
