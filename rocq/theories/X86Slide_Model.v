(** Model of slides, shifts by whole lanes, Reverse and Broadcast of hwy/ops/x86_128-inl.h (6274-6350 ShiftLeft/RightBytes and Lanes; 6792-6829 CombineShiftRightBytes; 6832-6871, 7347-7363 Broadcast;
    7131-7202 Reverse; 7707-8038 SlideUpLanes, SlideDownLanes) and generic_ops-inl.h (7538-7567 Slide1Up, Slide1Down) on SSE2, SSSE3, SSE4 (and AVX2 for 128-bit vectors).
    Registers, targets and instructions as in X86Int_Model and X86Mul_Model; a vector of [n] lanes of [s] bytes is the first n * s bytes, the others are arbitrary. *)
From Coq Require Import ZArith List Bool.
From Verif Require Import Word X86Int_Model X86Mul_Model.
Import ListNotations.
Open Scope Z_scope.
(** PSLLDQ; PSRLDQ is srl_bytes *)
Definition sll_bytes (k : nat) (r : reg) : reg := firstn 16 (repeat 0 k ++ r).
(** PALIGNR *)
Definition palignr (k : nat) (hi lo : reg) : reg := firstn 16 (skipn k (lo ++ hi)).
(** FirstN and IfThenElseZero: the upper bytes of a partial vector are cleared *)
Definition clear_upper (nb : nat) (r : reg) : reg := load nb r.
(** 6289-6298, 6316-6331: vectors of [nb] bytes *)
Definition shift_left_bytes (k : nat) (v : reg) : reg := sll_bytes k v.
Definition shift_right_bytes (nb k : nat) (v : reg) : reg := srl_bytes k (if (nb =? 16)%nat then v else clear_upper nb v).
(** 6304-6315, 6333-6350 *)
Definition shift_left_lanes (s k : nat) (v : reg) : reg := shift_left_bytes (k * s) v.
Definition shift_right_lanes (s n k : nat) (v : reg) : reg := shift_right_bytes (n * s) (k * s) v.
(** 7538-7567 *)
Definition slide1_up (s n : nat) (v : reg) : reg := if (n =? 1)%nat then zero else shift_left_lanes s 1 v.
Definition slide1_down (s n : nat) (v : reg) : reg := if (n =? 1)%nat then zero else shift_right_lanes s n 1 v.
(** 7711-7758 *)
Definition iota8 (first : Z) : list Z := map (fun i => wrap 8 (first + Z.of_nat i)) (seq 0 16).
Definition slide_up_impl (t : target) (s n amt : nat) (v : reg) : reg :=
  if (n * s <=? 8)%nat then map1 8 (shl 64 (Z.of_nat (amt * s * 8))) v
  else match t with
  | SSE2 => let v_hi := if (8 / s <=? amt)%nat then sll_bytes 8 v else v in
            let v_lo := sll_bytes 8 v_hi in
            let shl_amt := Z.land (Z.of_nat (amt * s * 8)) 63 in
            map2 8 Z.lor (map1 8 (shl 64 shl_amt) v_hi) (map1 8 (shr_u (64 - shl_amt)) v_lo)
  | _ => pshufb v (iota8 (wrap 8 (0 - Z.of_nat (amt * s))))
  end.
(** 7760-7869; [const]: the compiler knows [amt] *)
Definition slide_up (t : target) (const : bool) (s n amt : nat) (v : reg) : reg :=
  if (n =? 1)%nat then v
  else if const && (amt <? n)%nat then (if (amt =? 0)%nat then v else shift_left_lanes s amt v)
  else slide_up_impl t s n amt v.
(** 7875-7924 *)
Definition slide_down_impl (t : target) (s n amt : nat) (v : reg) : reg :=
  if (n * s <=? 8)%nat then map1 (n * s) (shr_u (Z.of_nat (amt * s * 8))) v
  else match t with
  | SSE2 => let v_lo := if (8 / s <=? amt)%nat then srl_bytes 8 v else v in
            let v_hi := srl_bytes 8 v_lo in
            let shr_amt := Z.land (Z.of_nat (amt * s * 8)) 63 in
            map2 8 Z.lor (map1 8 (shr_u shr_amt) v_lo) (map1 8 (shl 64 (64 - shr_amt)) v_hi)
  | _ => let idx := iota8 (wrap 8 (Z.of_nat (amt * s))) in
         pshufb v (map (fun i => if 15 <? swrap 8 i then Z.lor i 255 else i) idx)
  end.
(** 7928-8037 *)
Definition slide_down (t : target) (const : bool) (s n amt : nat) (v : reg) : reg :=
  if (n =? 1)%nat then v
  else if const && (amt <? n)%nat then (if (amt =? 0)%nat then v else shift_right_lanes s n amt v)
  else slide_down_impl t s n amt v.
(** 6794-6829 CombineShiftRightBytes of vectors of [nb] bytes *)
Definition combine_shift_right (t : target) (nb k : nat) (hi lo : reg) : reg :=
  match t with
  | SSE2 => if (nb =? 16)%nat then or_bytes (shift_right_bytes 16 k lo) (shift_left_bytes (16 - k) hi)
            else shift_right_bytes (2 * nb) k (combine_halves nb hi lo)
  | _ => if (nb =? 16)%nat then palignr k hi lo
         else let lo8 := shift_left_bytes (16 - nb) lo in palignr (16 - nb + k) hi lo8
  end.
(** the immediate of PSHUFD, PSHUFLW, PSHUFHW: two bits per lane, lowest first *)
Definition imm_lanes (imm : nat) : list nat := map (fun j => imm / 4 ^ j mod 4)%nat [0; 1; 2; 3]%nat.
(** 6834-6871: lanes of 16, 32, 64 bits; 7349-7363: of 8 bits *)
Definition broadcast16 (k : nat) (v : reg) : reg :=
  if (k <? 4)%nat then let lo := shufflelo16 (imm_lanes (Nat.land (85 * k) 255)) v in unpacklo 8 lo lo
  else let hi := shufflehi16 (imm_lanes (Nat.land (85 * (k - 4)) 255)) v in unpackhi 8 hi hi.
Definition broadcast (t : target) (s k : nat) (v : reg) : reg :=
  match s with
  | 1 => match t with
         | SSE2 => broadcast16 (Nat.land k 7) (if (k <? 8)%nat then unpacklo 1 v v else unpackhi 1 v v)
         | _ => pshufb v (repeat (Z.of_nat k) 16)
         end
  | 2 => broadcast16 k v
  | 4 => select 4 (imm_lanes (85 * k)) v
  | _ => select 4 (imm_lanes (if (k =? 0)%nat then 68 else 238)) v
  end%nat.
(** 7133-7202 Reverse of [n] lanes *)
Definition rotate8 (x : Z) : Z := Z.lor (shr_u 8 x) (shl 16 8 x).
Definition reverse16 (t : target) (n : nat) (v : reg) : reg :=
  match n with
  | 1 => v
  | 2 => shufflelo16 [1; 0; 1; 0]%nat v
  | 4 => shufflelo16 [3; 2; 1; 0]%nat v
  | _ => match t with
         | SSE2 => select 4 [2; 3; 0; 1]%nat (shufflehi16 [3; 2; 1; 0]%nat (shufflelo16 [3; 2; 1; 0]%nat v))
         | _ => pshufb v (u16s [0x0F0E; 0x0D0C; 0x0B0A; 0x0908; 0x0706; 0x0504; 0x0302; 0x0100]%Z)
         end
  end%nat.
Definition reverse (t : target) (s n : nat) (v : reg) : reg :=
  if (n =? 1)%nat then v
  else match s with
  | 1 => match t with
         | SSE2 => reverse16 t (n / 2) (map1 2 rotate8 v)
         | _ => pshufb v (load n (map (fun i => wrap 8 (Z.of_nat n - 1 - Z.of_nat i)) (seq 0 16)))
         end
  | 2 => reverse16 t n v
  | 4 => if (n =? 2)%nat then select 4 [1; 0; 3; 2]%nat v else select 4 [3; 2; 1; 0]%nat v
  | _ => select 4 [2; 3; 0; 1]%nat v
  end%nat.
