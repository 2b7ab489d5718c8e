(** What sorting an array of each key type means, without reference to the code that
    compares keys; and the assumptions about the target. *)
From Coq Require Import ZArith List Bool Permutation.
From Verif Require Import Word Vec_Model Partition_Model Recurse_Model Traits_Model VQSort_Model.
Import ListNotations.
Local Open Scope Z_scope.

(** The number by which keys are ordered: the integer; the upper 32 of 64 bits; the
    128-bit integer; the upper 64 of 128 bits; for floating point the rank, which is the
    bit pattern of the magnitude with the sign (see C32_rank_order). *)
Definition value (t : ktype) : key t -> Z :=
  match t with
  | IntKey signed w => fun x => if signed then swrap (Zpos w) (bits x) else bits x
  | K32V32 => fun x => bits x / 2 ^ 32
  | U128 => fun x => bits x
  | K64V64 => fun x => bits x / 2 ^ 64
  | FloatKey e p => fun x => let z := proj1_sig x in if z <? 2 ^ (Zpos e + Zpos p) then z else - (z - 2 ^ (Zpos e + Zpos p))
  end.
(** b comes strictly before a in ascending / descending order *)
Definition before (t : ktype) (desc : bool) (b a : key t) : bool := if desc then value t a <? value t b else value t b <? value t a.
(** supported key types: 16-64 bit integers and IEEE half, single, double, key-value pairs *)
Definition key_ok (t : ktype) : Prop :=
  match t with
  | IntKey _ w => w = 16%positive \/ w = 32%positive \/ w = 64%positive
  | FloatKey e p => (e, p) = (5, 10)%positive \/ (e, p) = (8, 23)%positive \/ (e, p) = (11, 52)%positive
  | _ => True
  end.
(** vectors are a power of two of bytes, at least 16 where vqsort is enabled, at most
    HWY_MAX_BYTES; a key fits a vector *)
Definition target_ok (c : target) (t : ktype) : Prop :=
  (exists v, 0 <= v /\ vec_bytes c = 2 ^ v) /\ vec_bytes c <= max_bytes c /\ (enabled c = true -> 16 <= vec_bytes c) /\ lane_size t <= vec_bytes c.
(** CompressStore writes at most a vector; Compress keeps the other lanes if it is a
    partition (quick_reference.md 1571-1593) *)
Definition compress_ok {K} (N : Z) (tail upper : list K -> list bool -> list K) : Prop :=
  (forall v m, zlen v = N -> length m = length v -> zlen (select v m) + zlen (tail v m) <= N) /\
  (forall v m, zlen v = N -> length m = length v -> Permutation (upper v m) (select v (mask_not m))).
(** any state of the random generator: three 64-bit words *)
Definition rng_words (s : rng) : Prop := let '(a, b, c) := s in in_u 64 a /\ in_u 64 b /\ in_u 64 c.
