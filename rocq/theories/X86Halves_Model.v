(** Model of interleaving, halves of vectors and their concatenation in hwy/ops/x86_128-inl.h (3201-3243 InterleaveLower; 6286-6295 LowerHalf; 6351-6374 UpperHalf; 7307-7345 InterleaveUpper;
    7367-7384 ZipLower, ZipUpper; 8168-8212 Combine, ZeroExtendVector; 8214-8299 ConcatLowerLower, UpperUpper, LowerUpper, UpperLower) and generic_ops-inl.h (476-488 InterleaveWhole* of up to 16 bytes) on SSE2, SSSE3, SSE4 (and AVX2 for 128-bit vectors).
    Registers, targets and instructions as in X86Int_Model and X86Mul_Model; a vector of [n] lanes of [s] bytes is the first n * s bytes, the others are arbitrary. Lanes of float and double are their bit patterns.
    Zip* are BitCasts of Interleave* and not modelled separately; LowerHalf keeps the register. *)
From Coq Require Import ZArith List Bool.
From Verif Require Import Word X86Int_Model X86Mul_Model X86Slide_Model.
Import ListNotations.
Open Scope Z_scope.
Definition interleave_lower (s : nat) (a b : reg) : reg := unpacklo s a b.
Definition lower_half (v : reg) : reg := v.
(** the result has [h] bytes. MOVHLPS of v and v is the same as PUNPCKHQDQ *)
Definition upper_half (h : nat) (v : reg) : reg := if (h =? 8)%nat then unpackhi 8 v v else shift_right_bytes (2 * h) h v.
Definition interleave_upper (s n : nat) (a b : reg) : reg :=
  if (n * s =? 16)%nat then unpackhi s a b else interleave_lower s (upper_half (n * s / 2) a) (upper_half (n * s / 2) b).
(** [h] bytes are kept. MOVQ; FirstN and IfThenElseZero *)
Definition zero_extend (h : nat) (lo : reg) : reg := clear_upper h lo.
(** vectors of [nb] bytes *)
Definition concat_lower_lower (nb : nat) (hi lo : reg) : reg :=
  if (nb =? 16)%nat then unpacklo 8 lo hi else combine_halves (nb / 2) (lower_half hi) (lower_half lo).
Definition concat_upper_upper (nb : nat) (hi lo : reg) : reg :=
  if (nb =? 16)%nat then unpackhi 8 lo hi else combine_halves (nb / 2) (upper_half (nb / 2) hi) (upper_half (nb / 2) lo).
Definition concat_lower_upper (t : target) (nb : nat) (hi lo : reg) : reg :=
  if (nb =? 16)%nat then combine_shift_right t 16 8 hi lo else combine_halves (nb / 2) (lower_half hi) (upper_half (nb / 2) lo).
(** [f32]: SHUFPS instead of SHUFPD *)
Definition concat_upper_lower (t : target) (f32 : bool) (nb : nat) (hi lo : reg) : reg :=
  if (nb =? 16)%nat then
    match t with SSE4 => blend_imm 8 1 hi lo | _ => if f32 then shuffle_ps 0 1 2 3 lo hi else select 8 [0]%nat lo ++ select 8 [1]%nat hi end
  else combine_halves (nb / 2) (upper_half (nb / 2) hi) (lower_half lo).
