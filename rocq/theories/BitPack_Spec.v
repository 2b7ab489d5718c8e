(** What packing means.  [pack src dst] and [unpack src dst] return the new
    contents of the destination array, or [None] on an access outside an array.
    One call handles [n] vectors of [N] values and [kBits] vectors of codes. *)
From Coq Require Import ZArith List.
Import ListNotations.
Local Open Scope Z_scope.

Definition len (l : list Z) : Z := Z.of_nat (length l).
Definition take (k : Z) (l : list Z) : list Z := firstn (Z.to_nat k) l.
Definition drop (k : Z) (l : list Z) : list Z := skipn (Z.to_nat k) l.

(** Packing in-range values writes exactly the first kBits * N elements of the
    destination; unpacking those elements (wherever they are) writes exactly
    the original n * N values and nothing else. *)
Definition lossless (elem n kBits N : Z) (ok : Z -> Prop) (pack unpack : list Z -> list Z -> option (list Z)) : Prop :=
  forall raw packed0, n * N <= len raw -> Forall ok (take (n * N) raw) -> kBits * N <= len packed0 ->
  exists code,
    len code = kBits * N /\ Forall (fun x => 0 <= x < 2 ^ elem) code /\
    pack raw packed0 = Some (code ++ drop (kBits * N) packed0) /\
    forall rest out0, n * N <= len out0 ->
      unpack (code ++ rest) out0 = Some (take (n * N) raw ++ drop (n * N) out0).

(** Unpacking any code whatsoever yields in-range values, and packing them
    yields the same code: every code is used exactly once. *)
Definition onto (elem n kBits N : Z) (ok : Z -> Prop) (pack unpack : list Z -> list Z -> option (list Z)) : Prop :=
  forall code out0, kBits * N <= len code -> Forall (fun x => 0 <= x < 2 ^ elem) (take (kBits * N) code) ->
  n * N <= len out0 ->
  exists vals,
    len vals = n * N /\ Forall ok vals /\
    unpack code out0 = Some (vals ++ drop (n * N) out0) /\
    forall rest packed0, kBits * N <= len packed0 ->
      pack (vals ++ rest) packed0 = Some (take (kBits * N) code ++ drop (kBits * N) packed0).

(** Values that fit in kBits bits; values that do so relative to a frame of
    reference, in [elem]-bit wrap-around arithmetic. *)
Definition fits (kBits x : Z) : Prop := 0 <= x < 2 ^ kBits.
Definition fits_frame (elem kBits frame x : Z) : Prop :=
  0 <= x < 2 ^ elem /\ (x - frame) mod 2 ^ elem < 2 ^ kBits.

(** a, a + 1, .., b *)
Definition zrange (a b : Z) : list Z := map (fun i => a + Z.of_nat i) (seq 0 (Z.to_nat (b - a + 1))).

(** Weaker: only the vectors whose index is in [ks] are restored. *)
Definition restores (n kBits N : Z) (ok : Z -> Prop) (ks : list Z) (pack unpack : list Z -> list Z -> option (list Z)) : Prop :=
  forall raw packed0 out0, n * N <= len raw -> Forall ok (take (n * N) raw) -> kBits * N <= len packed0 -> n * N <= len out0 ->
  exists packed out, pack raw packed0 = Some packed /\ unpack packed out0 = Some out /\ len out = len out0 /\
    forall k, List.In k ks -> take N (drop (k * N) out) = take N (drop (k * N) raw).
