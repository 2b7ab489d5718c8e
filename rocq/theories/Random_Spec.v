(** Specification vocabulary for the random generators. *)
From Coq Require Import ZArith NArith List.
From Verif Require Import Random_Model.
Local Open Scope Z_scope.

(** Four 64-bit words. *)
Definition u64 (x : Z) : Prop := 0 <= x < 2 ^ 64.
Definition wf (s : st) : Prop := let '(a, b, c, d) := s in u64 a /\ u64 b /\ u64 c /\ u64 d.

(** The state after [k] calls to the generator, and its result on call number
    [k] (counted from 0). *)
Definition after (k : N) (s : st) : st := N.iter k (fun s => snd (next s)) s.
Definition output (k : N) (s : st) : Z := fst (next (after k s)).

(** One call of VectorXoshiro::operator()() after [k] earlier calls. *)
Definition vafter (k : N) (g : vgen) : vgen := N.iter k (fun g => snd (update g)) g.
Definition vcall (k : N) (g : vgen) : list Z := fst (update (vafter k g)).
(** The state of lane [i]. *)
Definition column (g : vgen) (i : nat) : st :=
  (nth i (row0 g) 0, nth i (row1 g) 0, nth i (row2 g) 0, nth i (row3 g) 0).

(** The scalar sequence of a seed, from position [2^192 * thread + 2^128 * lane]
    on: what lane [lane] of the generator of thread [thread] is documented to
    produce. *)
Definition stream (seed thread lane : Z) (k : N) : Z :=
  output (Z.to_N (2 ^ 192 * thread + 2 ^ 128 * lane) + k) (xoshiro_seed seed).
Definition lane_results (lanes seed thread : Z) (k : N) : list Z :=
  map (fun i => stream seed thread (Z.of_nat i) k) (seq 0 (Z.to_nat lanes)).

(** [calls] consecutive calls of CachedXoshiro::operator(). *)
Fixpoint cached_calls (lanes size : Z) (calls : nat) (c : cached) : option (list Z * cached) :=
  match calls with
  | O => Some (nil, c)
  | S k =>
      match cached_calls lanes size k c with
      | Some (l, c) => match cached_next lanes size c with Some (r, c') => Some (l ++ r :: nil, c')%list | None => None end
      | None => None
      end
  end.
