(** Model of hwy/contrib/dot/dot-inl.h and hwy/contrib/matvec/matvec-inl.h.
    The arithmetic is abstract: [mul] widens and multiplies, [add] adds; the
    theorems assume that [add] is associative and commutative, so for floating
    point they speak about exact arithmetic. [N] is Lanes(d). Array accesses
    outside the arrays and failing HWY_DASSERT give [None]. *)
From Coq Require Import ZArith List Bool.
From Verif Require Import Word Vec_Model.
Import ListNotations.
Local Open Scope Z_scope.

Definition bind {A B} (x : option A) (f : A -> option B) : option B := match x with Some a => f a | None => None end.
Notation "'do' x <- a ; b" := (bind a (fun x => b)) (at level 200, x pattern, a at level 100, b at level 200).

(** for (; i + step <= num; i += step) body *)
Fixpoint wloop {S} (fuel : nat) (step num i : Z) (body : Z -> S -> option S) (s : S) : option (Z * S) :=
  match fuel with
  | O => None
  | Datatypes.S f => if wrap 64 (i + step) <=? num then do s' <- body i s; wloop f step num (wrap 64 (i + step)) body s' else Some (i, s)
  end.
Definition run_loop {S} (step num i : Z) (body : Z -> S -> option S) (s : S) : option (Z * S) := wloop (Datatypes.S (Z.to_nat num)) step num i body s.

Section Dot.
Context {A A' B : Type} (mul : A -> A' -> B) (add : B -> B -> B) (zA : A) (zA' : A') (zB : B).
(** MulAdd(a, b, s) with promotion of the operands *)
Definition mul_add (a : list A) (b : list A') (s : list B) : list B :=
  map (fun p => add (mul (fst (fst p)) (snd (fst p))) (snd p)) (combine (combine a b) s).
Definition vadd (a b : list B) : list B := map (fun p => add (fst p) (snd p)) (combine a b).
(** ReduceSum: the order is unspecified *)
Definition reduce_sum (v : list B) : B := fold_right add zB v.
Definition vzero (M : Z) : list B := repeat zB (Z.to_nat M).
Definition sums : Type := (list B * list B * list B * list B)%type.
(** IfThenElseZero / IfThenZeroElse with a FirstN mask *)
Definition keep_first {T} (z : T) (N k : Z) (v : list T) : list T := if_then_else (first_n N k) v (map (fun _ => z) v).
Definition zero_first {T} (z : T) (N k : Z) (v : list T) : list T := if_then_else (first_n N k) (map (fun _ => z) v) v.

(** 70-84 (also 176-189, 275-286, 385-396): the scalar loop, 2x unrolled *)
Definition dot_scalar (num : Z) (pa : list A) (pb : list A') : option B :=
  do (i, (s0, s1)) <- run_loop 2 num 0 (fun i s => let '(s0, s1) := s in
    do a0 <- rd pa i; do b0 <- rd pb i; do a1 <- rd pa (i + 1); do b1 <- rd pb (i + 1);
    Some (add s0 (mul a0 b0), add s1 (mul a1 b1))) (zB, zB);
  do s1 <- (if i <? num then do a <- rd pa i; do b <- rd pb i; Some (add s1 (mul a b)) else Some s1);
  Some (add s0 s1).
Definition needs_scalar (al mu pd : bool) (N num : Z) : bool := negb al && negb mu && negb pd && (num <? N).

(** the remainder: 121-143. [acc] accumulates one vector *)
Definition dot_tail {S} (mu pd : bool) (N num i : Z) (pa : list A) (pb : list A') (acc : list A -> list A' -> S -> S) (s : S) : option S :=
  if mu then Some s else
  let remaining := wrap 64 (num - i) in
  if remaining =? 0 then Some s else
  if pd then do a <- loadu pa i N; do b <- loadu pb i N; Some (acc (keep_first zA N remaining a) (keep_first zA' N remaining b) s)
  else if i <? N then None
  else let i := wrap 64 (i + (remaining - N)) in
    do a <- loadu pa i N; do b <- loadu pb i N; Some (acc (zero_first zA N (N - remaining) a) (zero_first zA' N (N - remaining) b) s).
(** 146-149 reduction tree *)
Definition dot_reduce (s : sums) : B := let '(s0, s1, s2, s3) := s in reduce_sum (vadd (vadd s0 s1) (vadd s2 s3)).
Definition acc0 (a : list A) (b : list A') (s : sums) : sums := let '(s0, s1, s2, s3) := s in (mul_add a b s0, s1, s2, s3).
Definition acc1 (a : list A) (b : list A') (s : sums) : sums := let '(s0, s1, s2, s3) := s in (s0, mul_add a b s1, s2, s3).
Definition acc2 (a : list A) (b : list A') (s : sums) : sums := let '(s0, s1, s2, s3) := s in (s0, s1, mul_add a b s2, s3).
Definition acc3 (a : list A) (b : list A') (s : sums) : sums := let '(s0, s1, s2, s3) := s in (s0, s1, s2, mul_add a b s3).

(** 53-152 Compute, both inputs of one floating-point type. [al], [mu], [pd]:
    kAtLeastOneVector, kMultipleOfVector, kPaddedToVector. *)
Definition dot_compute (al mu pd : bool) (N num : Z) (pa : list A) (pb : list A') : option B :=
  if needs_scalar al mu pd N num then dot_scalar num pa pb else
  let z := vzero N in
  do (i, s) <- run_loop (4 * N) num 0 (fun i s =>
    do a0 <- loadu pa i N; do b0 <- loadu pb i N; let i := i + N in
    let s := acc0 a0 b0 s in
    do a1 <- loadu pa i N; do b1 <- loadu pb i N; let i := i + N in
    let s := acc1 a1 b1 s in
    do a2 <- loadu pa i N; do b2 <- loadu pb i N; let i := i + N in
    let s := acc2 a2 b2 s in
    do a3 <- loadu pa i N; do b3 <- loadu pb i N;
    Some (acc3 a3 b3 s)) (z, z, z, z);
  do (i, s) <- run_loop N num i (fun i s => do a <- loadu pa i N; do b <- loadu pb i N; Some (acc0 a b s)) s;
  do s <- dot_tail mu pd N num i pa pb acc1 s;
  Some (dot_reduce s).

(** 154-255 Compute, f32 * bf16. [scalar_target]: HWY_TARGET == HWY_SCALAR, without the main loop.
    PromoteLowerTo / PromoteUpperTo: lower and upper half of the [2 * N] bf16 lanes. *)
Definition dot_compute_mixed (scalar_target al mu pd : bool) (N num : Z) (pa : list A) (pb : list A') : option B :=
  if needs_scalar al mu pd N num then dot_scalar num pa pb else
  let z := vzero N in
  let lower := firstn (Z.to_nat N) in let upper := skipn (Z.to_nat N) in
  do (i, s) <- (if scalar_target then Some (0, (z, z, z, z)) else
   run_loop (4 * N) num 0 (fun i s =>
    do a0 <- loadu pa i N; do b0 <- loadu pb i (2 * N); let i := i + N in
    let s := acc0 a0 (lower b0) s in
    do a1 <- loadu pa i N; let i := i + N in
    let s := acc1 a1 (upper b0) s in
    do a2 <- loadu pa i N; do b2 <- loadu pb i (2 * N); let i := i + N in
    let s := acc2 a2 (lower b2) s in
    do a3 <- loadu pa i N;
    Some (acc3 a3 (upper b2) s)) (z, z, z, z));
  do (i, s) <- run_loop N num i (fun i s => do a <- loadu pa i N; do b <- loadu pb i N; Some (acc0 a b s)) s;
  do s <- dot_tail mu pd N num i pa pb acc1 s;
  Some (dot_reduce s).

(** ReorderWidenMulAccumulate(d, a, b, s0, s1): an arbitrary function here; which
    lane and which of the two sums receives a product is unspecified. [M]: Lanes(df32). *)
Context (rw : list A -> list A' -> list B -> list B -> list B * list B).
Definition rw01 (a : list A) (b : list A') (s : sums) : sums := let '(s0, s1, s2, s3) := s in let '(t0, t1) := rw a b s0 s1 in (t0, t1, s2, s3).
Definition rw23 (a : list A) (b : list A') (s : sums) : sums := let '(s0, s1, s2, s3) := s in let '(t2, t3) := rw a b s2 s3 in (s0, s1, t2, t3).
(** 257-350 (bf16) and 352-453 (i16) Compute *)
Definition dot_compute_widen (al mu pd : bool) (M N num : Z) (pa : list A) (pb : list A') : option B :=
  if needs_scalar al mu pd N num then dot_scalar num pa pb else
  let z := vzero M in
  do (i, s) <- run_loop (2 * N) num 0 (fun i s =>
    do a0 <- loadu pa i N; do b0 <- loadu pb i N; let i := i + N in
    let s := rw01 a0 b0 s in
    do a1 <- loadu pa i N; do b1 <- loadu pb i N;
    Some (rw23 a1 b1 s)) (z, z, z, z);
  do (i, s) <- (if wrap 64 (i + N) <=? num then do a <- loadu pa i N; do b <- loadu pb i N; Some (wrap 64 (i + N), rw01 a b s) else Some (i, s));
  do s <- dot_tail mu pd N num i pa pb rw23 s;
  Some (dot_reduce s).

(** matvec-inl.h. One row of [mat], starting at element [row]; [inner] = kInner *)
(** 74-114: rows inside a chunk, T * T *)
Definition mv_row4 (N inner : Z) (mat : list A) (row : Z) (vec : list A') : option B :=
  let z := vzero N in
  do (i, s) <- run_loop (4 * N) inner 0 (fun i s =>
    do a0 <- loadu mat (row + i + 0 * N) N; do v0 <- loadu vec (i + 0 * N) N; let s := acc0 a0 v0 s in
    do a1 <- loadu mat (row + i + 1 * N) N; do v1 <- loadu vec (i + 1 * N) N; let s := acc1 a1 v1 s in
    do a2 <- loadu mat (row + i + 2 * N) N; do v2 <- loadu vec (i + 2 * N) N; let s := acc2 a2 v2 s in
    do a3 <- loadu mat (row + i + 3 * N) N; do v3 <- loadu vec (i + 3 * N) N; Some (acc3 a3 v3 s)) (z, z, z, z);
  do (i, s) <- run_loop N inner i (fun i s => do a <- loadu mat (row + i) N; do v <- loadu vec i N; Some (acc0 a v s)) s;
  let remainder := wrap 64 (inner - i) in
  do s <- (if remainder =? 0 then Some s else do a <- load_n zA N mat (row + i) remainder; do v <- load_n zA' N vec i remainder; Some (acc1 a v s));
  let '(s0, s1, s2, s3) := s in
  Some (reduce_sum (vadd (vadd s0 s1) (vadd s2 s3))).
(** 229-278: the same with a bf16 matrix *)
Definition mv_row4_mixed (N inner : Z) (mat : list A) (row : Z) (vec : list A') : option B :=
  let z := vzero N in
  let lower := firstn (Z.to_nat N) in let upper := skipn (Z.to_nat N) in
  do (i, s) <- run_loop (4 * N) inner 0 (fun i s =>
    do b0 <- loadu mat (row + i + 0 * N) (2 * N); do b1 <- loadu mat (row + i + 2 * N) (2 * N);
    do v0 <- loadu vec (i + 0 * N) N; let s := acc0 (lower b0) v0 s in
    do v1 <- loadu vec (i + 1 * N) N; let s := acc1 (upper b0) v1 s in
    do v2 <- loadu vec (i + 2 * N) N; let s := acc2 (lower b1) v2 s in
    do v3 <- loadu vec (i + 3 * N) N; Some (acc3 (upper b1) v3 s)) (z, z, z, z);
  do (i, s) <- run_loop N inner i (fun i s => do a <- loadu mat (row + i) N; do v <- loadu vec i N; Some (acc0 a v s)) s;
  let remainder := wrap 64 (inner - i) in
  do s <- (if remainder =? 0 then Some s else do a <- load_n zA N mat (row + i) remainder; do v <- load_n zA' N vec i remainder; Some (acc1 a v s));
  let '(s0, s1, s2, s3) := s in
  Some (reduce_sum (vadd (vadd s0 s1) (vadd s2 s3))).
(** 369-402: both bf16 *)
Definition mv_row4_widen (M N inner : Z) (mat : list A) (row : Z) (vec : list A') : option B :=
  let z := vzero M in
  do (i, s) <- run_loop (2 * N) inner 0 (fun i s =>
    do b0 <- loadu mat (row + i + 0 * N) N; do b1 <- loadu mat (row + i + 1 * N) N;
    do v0 <- loadu vec (i + 0 * N) N; do v1 <- loadu vec (i + 1 * N) N;
    Some (rw23 b1 v1 (rw01 b0 v0 s))) (z, z, z, z);
  do (i, s) <- run_loop N inner i (fun i s => do b <- loadu mat (row + i) N; do v <- loadu vec i N; Some (rw01 b v s)) s;
  let remainder := wrap 64 (inner - i) in
  do s <- (if remainder =? 0 then Some s else do b <- load_n zA N mat (row + i) remainder; do v <- load_n zA' N vec i remainder; Some (rw23 b v s));
  Some (dot_reduce s).
(** 129-146 (291-308): rows after the last chunk *)
Definition mv_row1 (N inner : Z) (mat : list A) (row : Z) (vec : list A') : option B :=
  do (i, s0) <- run_loop N inner 0 (fun i s => do a <- loadu mat (row + i) N; do v <- loadu vec i N; Some (mul_add a v s)) (vzero N);
  let remainder := wrap 64 (inner - i) in
  do s0 <- (if remainder =? 0 then Some s0 else do a <- load_n zA N mat (row + i) remainder; do v <- load_n zA' N vec i remainder; Some (mul_add a v s0));
  Some (reduce_sum s0).
(** 416-434 *)
Definition mv_row1_widen (M N inner : Z) (mat : list A) (row : Z) (vec : list A') : option B :=
  do (i, (s0, s1)) <- run_loop N inner 0 (fun i s => do a <- loadu mat (row + i) N; do v <- loadu vec i N; Some (rw a v (fst s) (snd s))) (vzero M, vzero M);
  let remainder := wrap 64 (inner - i) in
  do (s0, s1) <- (if remainder =? 0 then Some (s0, s1) else do a <- load_n zA N mat (row + i) remainder; do v <- load_n zA' N vec i remainder; Some (rw a v s0 s1));
  Some (reduce_sum (vadd s0 s1)).
End Dot.

Section MatVec.
Context {B : Type} (add_scalar : B -> B -> B).
(** how a row is computed inside a chunk and after the last chunk; argument: row number *)
Context (row_in row_out : Z -> option B).
(** AddScalar(.., add[r]) if kAdd *)
Definition mv_finish (addv : option (list B)) (r : Z) (x : B) : option B :=
  match addv with None => Some x | Some l => do y <- rd l r; Some (add_scalar x y) end.
Fixpoint mapM {X Y} (f : X -> option Y) (l : list X) : option (list Y) :=
  match l with [] => Some [] | x :: r => do y <- f x; do t <- mapM f r; Some (y :: t) end.
(** Stream(v, d, out + pos): needs an aligned address; [misalign] is the distance
    (in elements) of out from a vector-aligned address *)
Definition stream (M misalign : Z) (out : list B) (pos : Z) (v : list B) : option (list B) :=
  if (misalign + pos) mod M =? 0 then storeu out pos v else None.
(** for (i = 0; i != kChunkSize; i += M) Stream(Load(d, buf + i), d, out + begin + i) *)
Fixpoint stream_loop (fuel : nat) (M misalign chunk begin i : Z) (buf out : list B) : option (list B) :=
  match fuel with
  | O => None
  | S f => if i =? chunk then Some out else
           do v <- loadu buf i M; do out <- stream M misalign out (begin + i) v; stream_loop f M misalign chunk begin (i + M) buf out
  end.
(** 57-123: one task of pool.Run; [chunk_size] = 64 / sizeof(T) *)
Definition mv_task (M misalign chunk_size : Z) (addv : option (list B)) (out : list B) (chunk : Z) : option (list B) :=
  let begin := chunk * chunk_size in
  do buf <- mapM (fun idx => do x <- row_in (begin + Z.of_nat idx); mv_finish addv (begin + Z.of_nat idx) x) (seq 0 (Z.to_nat chunk_size));
  stream_loop (S (Z.to_nat chunk_size)) M misalign chunk_size begin 0 buf out.
Fixpoint foldM {X Y} (f : Y -> X -> option Y) (l : list X) (y : Y) : option Y :=
  match l with [] => Some y | x :: r => do y <- f y x; foldM f r y end.
(** 42-148 MatVecAddImpl. [order]: the order in which the tasks 0 .. num_chunks - 1 take
    effect (C17: each exactly once; they write disjoint parts of out). [N]: lanes checked
    against the chunk, [M]: lanes streamed. *)
Definition mat_vec (N M misalign chunk_size outer : Z) (addv : option (list B)) (order : list Z) (out : list B) : option (list B) :=
  let num_chunks := outer / chunk_size in
  if chunk_size <? N then None else
  do out <- foldM (fun out c => mv_task M misalign chunk_size addv out c) order out;
  foldM (fun out k => let r := num_chunks * chunk_size + Z.of_nat k in
    do x <- row_out r; do x <- mv_finish addv r x; wr out r x) (seq 0 (Z.to_nat (outer - num_chunks * chunk_size))) out.
End MatVec.
