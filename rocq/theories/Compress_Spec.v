(** Specification of Compress, Expand and of masks stored as bits. Vectors and masks are lists, lane 0 first. *)
From Coq Require Import ZArith List Arith.
Import ListNotations.
Section S.
Context {A : Type}.
(** the lanes whose mask is true, in order *)
Definition select (m : list bool) (v : list A) : list A := map snd (filter fst (combine m v)).
Definition count (m : list bool) : nat := length (filter (fun b => b) m).
(** those whose mask is true, then the others *)
Definition partitioned (m : list bool) (v : list A) : list A := select m v ++ select (map negb m) v.
(** lane i is v[s] where s is the number of m[0, i) which are true, and zero where m[i] is false *)
Definition is_expand (zero : A) (m : list bool) (v r : list A) : Prop :=
  length r = length m /\ forall i, i < length m -> nth i r zero = if nth i m false then nth (count (firstn i m)) v zero else zero.
(** [buf'] is [buf] after storing: the selected lanes at the start, nothing changed from lane [n] on *)
Definition compress_stored (n : nat) (m : list bool) (v buf buf' : list A) (cnt : nat) : Prop :=
  cnt = count m /\ length buf' = length buf /\ firstn cnt buf' = select m v /\ skipn n buf' = skipn n buf.
End S.
(** lanes of [sz] bytes *)
Definition lane {B : Type} (sz i : nat) (bs : list B) : list B := firstn sz (skipn (i * sz) bs).
Definition to_lanes {B : Type} (sz n : nat) (bs : list B) : list (list B) := map (fun i => lane sz i bs) (seq 0 n).
(** bit i of the bytes [bs] (little-endian bit and byte order) *)
Definition bit_at (bs : list Z) (i : nat) : bool := Z.testbit (nth (i / 8) bs 0%Z) (Z.of_nat (i mod 8)).
Definition bytes_ok (bs : list Z) : Prop := forall b, In b bs -> (0 <= b < 256)%Z.
(** first and last true lane *)
Definition is_first (m : list bool) (i : nat) : Prop := nth i m false = true /\ forall j, j < i -> nth j m false = false.
Definition is_last (m : list bool) (i : nat) : Prop := nth i m false = true /\ forall j, i < j -> nth j m false = false.
(** the mask of [n] lanes given by bits in memory: unused bits are ignored *)
Definition mask_of (n : nat) (bits : list Z) : list bool := map (bit_at bits) (seq 0 n).
(** bytes [out] hold the mask [m]: lane i in bit i, all other bits zero *)
Definition stored_bits (m : list bool) (out : list Z) : Prop := length out = ((length m + 7) / 8)%nat /\ bytes_ok out /\ forall i, bit_at out i = nth i m false.
Definition all_false (m : list bool) : Prop := forall i, (i < length m)%nat -> nth i m false = false.
Definition all_true (m : list bool) : Prop := forall i, (i < length m)%nat -> nth i m false = true.
(** index of a lane satisfying [p], or -1 if no lane is true *)
Definition found (p : list bool -> nat -> Prop) (m : list bool) (r : Z) : Prop := (exists i, p m i /\ r = Z.of_nat i)%Z \/ (r = (-1)%Z /\ all_false m).
(** bytes per lane and lanes of a vector of up to 128 bits with lanes of more than one byte; lanes of a vector of bytes *)
Definition lane_config (sz n : nat) : Prop := In (sz, n) [(2, 1); (2, 2); (2, 4); (2, 8); (4, 1); (4, 2); (4, 4); (8, 1); (8, 2)]%nat.
Definition byte_lanes (n : nat) : Prop := In n [1; 2; 4; 8; 16]%nat.
