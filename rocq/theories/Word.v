(** Machine words.  C++ unsigned integers of [w] bits are [Z] in [0, 2^w);
    signed ones are [Z] in [-2^(w-1), 2^(w-1)).  Every operation that may wrap
    is written with an explicit [wrap] / [swrap]. *)
From Coq Require Import ZArith List Lia Bool.
Import ListNotations.
Local Open Scope Z_scope.

(** Conversion of any mathematical integer to an unsigned w-bit type. *)
Definition wrap (w x : Z) : Z := x mod 2 ^ w.

(** Conversion to a signed w-bit two's-complement type (C++20 semantics,
    implementation-defined but universal before). *)
Definition swrap (w x : Z) : Z :=
  let y := x mod 2 ^ w in if y <? 2 ^ (w - 1) then y else y - 2 ^ w.

Definition in_u (w x : Z) : Prop := 0 <= x < 2 ^ w.
Definition in_s (w x : Z) : Prop := - 2 ^ (w - 1) <= x < 2 ^ (w - 1).

(** Bit-scan intrinsics.  [bsr x] models [_BitScanReverse] (index of the
    highest one bit); [bsf x] models [_BitScanForward] (index of the lowest).
    Both are only called with x <> 0. *)
Definition bsr (x : Z) : Z := Z.log2 x.

Fixpoint bsf_pos (p : positive) : Z :=
  match p with
  | xO q => 1 + bsf_pos q
  | _ => 0
  end.
Definition bsf (x : Z) : Z := match x with Zpos p => bsf_pos p | _ => 0 end.
