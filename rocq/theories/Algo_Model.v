(** hwy/contrib/algo: copy-inl.h, find-inl.h, transform-inl.h and the Safe*N
    helpers of hwy/ops/generic_ops-inl.h.  [N] is Lanes(d); [fault] is
    HWY_MEM_OPS_MIGHT_FAULT.  [count] is a size_t. *)
From Coq Require Import ZArith List Lia Bool.
From Verif Require Import Word Vec_Model.
Import ListNotations.
Local Open Scope Z_scope.

(** The loop shared by all functions (e.g. copy-inl.h 46-51):
      size_t idx = 0;
      if (count >= N) for (; idx <= count - N; idx += N) body(idx);
    [body] yields [inl] to continue or [inr] for an early return; [fuel]
    exhaustion is [None]. *)
Fixpoint vfor {S R} (fuel : nat) (N count idx : Z) (body : Z -> S -> option (S + R)) (s : S) : option (Z * S + R) :=
  match fuel with
  | O => None
  | Datatypes.S f =>
      if idx <=? wrap 64 (count - N) then
        match body idx s with
        | Some (inl s') => vfor f N count (wrap 64 (idx + N)) body s'
        | Some (inr r) => Some (inr r)
        | None => None
        end
      else Some (inl (idx, s))
  end.
Definition vloop {S R} (N count : Z) (body : Z -> S -> option (S + R)) (s : S) : option (Z * S + R) :=
  if N <=? count then vfor (Datatypes.S (Z.to_nat count)) N count 0 body s else Some (inl (0, s)).

(** for (; i < n; ++i) with single-element body *)
Fixpoint sfor {S R} (fuel : nat) (i n : Z) (body : Z -> S -> option (S + R)) (s : S) : option (S + R) :=
  match fuel with
  | O => None
  | Datatypes.S f =>
      if i <? n then
        match body i s with
        | Some (inl s') => sfor f (wrap 64 (i + 1)) n body s'
        | Some (inr r) => Some (inr r)
        | None => None
        end
      else Some (inl s)
  end.

Section Algo.
Context {A : Type}.
Variable zero : A.
Variable N : Z.
Variable fault : bool.

(** generic_ops-inl.h 187-198 SafeFillN, at pointer to + off *)
Definition safe_fill_n (num : Z) (value : A) (to : list A) (off : Z) : option (list A) :=
  if fault then
    match sfor (R := unit) (S (Z.to_nat num)) 0 num
            (fun i t => match wr t (wrap 64 (off + i)) value with Some t' => Some (inl t') | None => None end) to with
    | Some (inl t) => Some t
    | _ => None
    end
  else blended_store (set N value) (first_n N num) to off.

(** copy-inl.h 41-59 Fill *)
Definition fill (value : A) (count : Z) (to : list A) : option (list A) :=
  match vloop (R := unit) N count
          (fun idx t => match storeu t idx (set N value) with Some t' => Some (inl t') | None => None end) to with
  | Some (inl (idx, t)) =>
      if idx =? count then Some t
      else safe_fill_n (wrap 64 (count - idx)) value t idx
  | _ => None
  end.

(** generic_ops-inl.h 202-214 SafeCopyN, at from + off, to + off *)
Definition safe_copy_n (num : Z) (from to : list A) (off : Z) : option (list A) :=
  if fault then
    match sfor (R := unit) (S (Z.to_nat num)) 0 num
            (fun i t => match rd from (wrap 64 (off + i)) with
                        | Some x => match wr t (wrap 64 (off + i)) x with Some t' => Some (inl t') | None => None end
                        | None => None end) to with
    | Some (inl t) => Some t
    | _ => None
    end
  else
    match masked_load zero (first_n N num) from off with
    | Some v => blended_store v (first_n N num) to off
    | None => None
    end.

(** copy-inl.h 63-81 Copy; from and to are distinct arrays (HWY_RESTRICT) *)
Definition copy (from : list A) (count : Z) (to : list A) : option (list A) :=
  match vloop (R := unit) N count
          (fun idx t => match loadu from idx N with
                        | Some v => match storeu t idx v with Some t' => Some (inl t') | None => None end
                        | None => None end) to with
  | Some (inl (idx, t)) =>
      if idx =? count then Some t
      else safe_copy_n (wrap 64 (count - idx)) from t idx
  | _ => None
  end.

(** copy-inl.h 94-138 CopyIf.  Result: contents of [to] and the returned
    pointer minus [to].  [func] is called on whole vectors, [func1] is the same
    functor on the 1-lane tag. *)
Definition copy_if (func func1 : list A -> list bool) (from : list A) (count : Z) (to : list A) : option (list A * Z) :=
  match vloop (R := unit) N count
          (fun idx st => match loadu from idx N with
                         | Some v => match compress_blended_store fault v (func v) (fst st) (snd st) with
                                     | Some (t', c) => Some (inl (t', wrap 64 (snd st + c)))
                                     | None => None end
                         | None => None end) (to, 0) with
  | Some (inl (idx, (t, o))) =>
      if idx =? count then Some (t, o)
      else if fault then
        match sfor (R := unit) (S (Z.to_nat (count - idx))) idx count
                (fun i st => match loadu from i 1 with
                             | Some v =>
                                 if existsb (fun b => b) (func1 v) then
                                   match storeu (fst st) (snd st) v with
                                   | Some t' => Some (inl (t', wrap 64 (snd st + 1)))
                                   | None => None end
                                 else Some (inl st)
                             | None => None end) (t, o) with
        | Some (inl st) => Some st
        | _ => None
        end
      else
        let last := wrap 64 (count - N) in
        let invalid := wrap 64 (idx - last) in
        let mask := mask_not (first_n N invalid) in
        match masked_load zero mask from last with
        | Some v => match compress_blended_store false v (mask_and mask (func v)) t o with
                    | Some (t', c) => Some (t', wrap 64 (o + c))
                    | None => None end
        | None => None end
  | _ => None
  end.

(** find-inl.h 33-69 Find and 73-106 FindIf: Find is FindIf with
    func(v) = Eq(Set(d, value), v), see [find]. *)
Definition find_if (func func1 : list A -> list bool) (inp : list A) (count : Z) : option Z :=
  match vloop N count
          (fun i (_ : unit) => match loadu inp i N with
                    | Some v => let pos := find_first_true (func v) in
                                if 0 <=? pos then Some (inr (wrap 64 (i + pos))) else Some (inl tt)
                    | None => None end) tt with
  | Some (inr r) => Some r
  | Some (inl (i, _)) =>
      if negb (i =? count) then
        if fault then
          match sfor (S (Z.to_nat (count - i))) i count
                  (fun j (_ : unit) => match loadu inp j 1 with
                            | Some v => if forallb (fun b => b) (func1 v) then Some (inr j) else Some (inl tt)
                            | None => None end) tt with
          | Some (inr r) => Some r
          | Some (inl _) => Some count
          | None => None
          end
        else
          let remaining := wrap 64 (count - i) in
          let mask := first_n N remaining in
          match masked_load zero mask inp i with
          | Some v => let pos := find_first_true (mask_and (func v) mask) in
                      if 0 <=? pos then Some (wrap 64 (i + pos)) else Some count
          | None => None
          end
      else Some count
  | None => None
  end.
(** lane-wise Eq against a broadcast value *)
Definition find (eqb : A -> A -> bool) (value : A) (inp : list A) (count : Z) : option Z :=
  find_if (map (eqb value)) (map (eqb value)) inp count.

(** transform-inl.h 101-118 Transform *)
Definition transform (func : list A -> list A) (inout : list A) (count : Z) : option (list A) :=
  match vloop (R := unit) N count
          (fun idx t => match loadu t idx N with
                        | Some v => match storeu t idx (func v) with Some t' => Some (inl t') | None => None end
                        | None => None end) inout with
  | Some (inl (idx, t)) =>
      if idx =? count then Some t
      else let remaining := wrap 64 (count - idx) in
           match load_n zero N t idx remaining with
           | Some v => store_n (func v) N t idx remaining
           | None => None end
  | _ => None
  end.

(** transform-inl.h 124-145 Transform1 *)
Definition transform1 (func : list A -> list A -> list A) (inout : list A) (count : Z) (in1 : list A) : option (list A) :=
  match vloop (R := unit) N count
          (fun idx t => match loadu t idx N, loadu in1 idx N with
                        | Some v, Some v1 => match storeu t idx (func v v1) with Some t' => Some (inl t') | None => None end
                        | _, _ => None end) inout with
  | Some (inl (idx, t)) =>
      if idx =? count then Some t
      else let remaining := wrap 64 (count - idx) in
           match load_n zero N t idx remaining, load_n zero N in1 idx remaining with
           | Some v, Some v1 => store_n (func v v1) N t idx remaining
           | _, _ => None end
  | _ => None
  end.

(** transform-inl.h 150-175 Transform2 *)
Definition transform2 (func : list A -> list A -> list A -> list A) (inout : list A) (count : Z) (in1 in2 : list A) : option (list A) :=
  match vloop (R := unit) N count
          (fun idx t => match loadu t idx N, loadu in1 idx N, loadu in2 idx N with
                        | Some v, Some v1, Some v2 => match storeu t idx (func v v1 v2) with Some t' => Some (inl t') | None => None end
                        | _, _, _ => None end) inout with
  | Some (inl (idx, t)) =>
      if idx =? count then Some t
      else let remaining := wrap 64 (count - idx) in
           match load_n zero N t idx remaining, load_n zero N in1 idx remaining, load_n zero N in2 idx remaining with
           | Some v, Some v1, Some v2 => store_n (func v v1 v2) N t idx remaining
           | _, _, _ => None end
  | _ => None
  end.

(** transform-inl.h 200-220 ReplaceIf (same loop as Transform) *)
Definition replace_if (new_t : A) (func : list A -> list bool) (inout : list A) (count : Z) : option (list A) :=
  transform (fun v => if_then_else (func v) (set N new_t) v) inout count.
(** transform-inl.h 177-198 Replace: func = Eq(v, Set(d, old_t)) *)
Definition replace (eqb : A -> A -> bool) (new_t old_t : A) (inout : list A) (count : Z) : option (list A) :=
  replace_if new_t (map (fun x => eqb x old_t)) inout count.

(** transform-inl.h 52-73 Generate; [bits] is the width of the unsigned index
    lanes.  State: output and vidx. *)
Definition generate (bits : Z) (func : list Z -> list A) (out : list A) (count : Z) : option (list A) :=
  let iota := map (fun i => wrap bits (Z.of_nat i)) (seq 0 (Z.to_nat N)) in
  match vloop (R := unit) N count
          (fun idx st => match storeu (fst st) idx (func (snd st)) with
                         | Some t' => Some (inl (t', map (fun x => wrap bits (x + wrap bits N)) (snd st)))
                         | None => None end) (out, iota) with
  | Some (inl (idx, (t, vidx))) =>
      if idx =? count then Some t
      else store_n (func vidx) N t idx (wrap 64 (count - idx))
  | _ => None
  end.

(** transform-inl.h 77-97 Foreach.  Result: the vectors passed to [func], in
    order. *)
Definition foreach (no : list A) (inp : list A) (count : Z) : option (list (list A)) :=
  match vloop (R := unit) N count
          (fun idx tr => match loadu inp idx N with Some v => Some (inl (tr ++ [v])) | None => None end) [] with
  | Some (inl (idx, tr)) =>
      if idx =? count then Some tr
      else match load_n_or no N inp idx (wrap 64 (count - idx)) with
           | Some v => Some (tr ++ [v])
           | None => None end
  | _ => None
  end.
End Algo.
