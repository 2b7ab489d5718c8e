(** Model of integer multiplication and of the operations on odd and even lanes of hwy/ops/x86_128-inl.h (4286-4460 operators, MulHigh, MulEven, MulOdd; 8526-8650 DupEven, DupOdd;
    8845-8912 OddEven; 8914-9000 InterleaveEven, InterleaveOdd; 9596-9670 64-bit MulEven, MulOdd, MulHigh; 9776-9790 WidenMulPairwiseAdd; 10828-10864 MulFixedPoint15; 4275-4284 AverageRound)
    and generic_ops-inl.h (4567-4635: 8 and 64 bit operator times) on SSE2, SSSE3 and SSE4. Registers, targets and instructions as in X86Int_Model; native instructions are used by SSE4 and above.
    Load of a full table for partial vectors only differs in the unused bytes. *)
From Coq Require Import ZArith List Bool.
From Verif Require Import Word X86Int_Model.
Import ListNotations.
Open Scope Z_scope.
(** ** instructions *)
Definition map2 (s : nat) (f : Z -> Z -> Z) (a b : reg) : reg := of_lanes s (map (fun p => f (fst p) (snd p)) (combine (lanes s a) (lanes s b))).
Definition add (s : nat) : reg -> reg -> reg := map2 s Z.add.
Definition sub (s : nat) : reg -> reg -> reg := map2 s Z.sub.
(** PMULLW, PMULLD *)
Definition mullo (s : nat) : reg -> reg -> reg := map2 s Z.mul.
(** PMULHUW, PMULHW *)
Definition mulhi16 (sg : bool) : reg -> reg -> reg := map2 2 (fun x y => if sg then Z.shiftr (swrap 16 x * swrap 16 y) 16 else Z.shiftr (x * y) 16).
(** PMULUDQ, PMULDQ: the lower halves of 64-bit lanes *)
Definition mul_epu32 : reg -> reg -> reg := map2 8 (fun x y => wrap 32 x * wrap 32 y).
Definition mul_epi32 : reg -> reg -> reg := map2 8 (fun x y => swrap 32 x * swrap 32 y).
(** PMULHRSW *)
Definition mulhrs : reg -> reg -> reg := map2 2 (fun x y => Z.shiftr (Z.shiftr (swrap 16 x * swrap 16 y) 14 + 1) 1).
(** PMADDWD *)
Definition madd : reg -> reg -> reg := map2 4 (fun x y => swrap 16 x * swrap 16 y + swrap 16 (Z.shiftr x 16) * swrap 16 (Z.shiftr y 16)).
(** PAVGB, PAVGW *)
Definition avg (s : nat) : reg -> reg -> reg := map2 s (fun x y => Z.shiftr (x + y + 1) 1).
(** IfThenElse with a constant mask of bytes; PBLENDW, BLENDPS, BLENDPD with an immediate: the lanes of [yes] whose bit is set *)
Definition blend (mask : list bool) (yes no : reg) : reg := map (fun p => if fst p : bool then fst (snd p) else snd (snd p)) (combine mask (combine yes no)).
Definition blend_imm (s : nat) (imm : Z) (a b : reg) : reg := flat_map (fun i => lane_bytes s i (if Z.testbit imm (Z.of_nat i) then b else a)) (seq 0 (16 / s)).
Definition rep8 (l : list bool) : list bool := flat_map (fun _ => l) (seq 0 (16 / length l)).
Definition shufflehi16 (idx : list nat) (r : reg) : reg := select 2 ([0; 1; 2; 3] ++ map (fun i => i + 4) idx)%nat r.

(** ** odd and even lanes *)
(** 8845-8897 *)
Definition odd_even (t : target) (s : nat) (a b : reg) : reg :=
  match s with
  | 1 => blend (rep8 [true; false]) b a
  | 2 => match t with SSE4 => blend_imm 2 0x55 a b | _ => blend (rep8 [true; true; false; false]) b a end
  | 4 => match t with SSE4 => blend_imm 4 5 a b | _ => unpacklo 4 (select 4 [0; 2; 0; 2]%nat b) (select 4 [1; 3; 1; 3]%nat a) end
  | _ => match t with SSE4 => blend_imm 8 1 a b | _ => select 8 [0]%nat b ++ select 8 [1]%nat a end
  end%nat.
(** 8526-8583, [n] lanes. 64-bit lanes: two lanes *)
Definition dup_even (t : target) (s n : nat) (v : reg) : reg :=
  match n, s with
  | 1, _ => v
  | 2, _ => unpacklo s v v
  | _, 1 => match t with
            | SSE2 => blend (rep8 [false; true]) (map1 2 (shl 16 8) v) v
            | _ => pshufb v [0; 0; 2; 2; 4; 4; 6; 6; 8; 8; 10; 10; 12; 12; 14; 14]%Z
            end
  | 4, 2 => shufflelo16 [0; 0; 2; 2]%nat v
  | _, 2 => match t with
            | SSE2 => shufflehi16 [0; 0; 2; 2]%nat (shufflelo16 [0; 0; 2; 2]%nat v)
            | _ => pshufb v (u16s [0x0100; 0x0100; 0x0504; 0x0504; 0x0908; 0x0908; 0x0d0c; 0x0d0c]%Z)
            end
  | _, _ => select 4 [0; 0; 2; 2]%nat v
  end%nat.
(** 8590-8650 *)
Definition dup_odd (t : target) (s n : nat) (v : reg) : reg :=
  match s with
  | 1 => match t with
         | SSE2 => blend (rep8 [true; false]) (map1 2 (shr_u 8) v) v
         | _ => pshufb v [1; 1; 3; 3; 5; 5; 7; 7; 9; 9; 11; 11; 13; 13; 15; 15]%Z
         end
  | 2 => if (n <=? 4)%nat then shufflelo16 [1; 1; 3; 3]%nat v
         else match t with
              | SSE2 => shufflehi16 [1; 1; 3; 3]%nat (shufflelo16 [1; 1; 3; 3]%nat v)
              | _ => pshufb v (u16s [0x0302; 0x0302; 0x0706; 0x0706; 0x0b0a; 0x0b0a; 0x0f0e; 0x0f0e]%Z)
              end
  | 4 => select 4 [1; 1; 3; 3]%nat v
  | _ => unpackhi 8 v v
  end%nat.
(** 8914-8956 InterleaveEven *)
Definition interleave_even (t : target) (s n : nat) (a b : reg) : reg :=
  if (n <=? 2)%nat then concat_even t (n * s) s b a
  else match s with
  | 1 => odd_even t 1 (map1 2 (shl 16 8) b) a
  | 2 => odd_even t 2 (map1 4 (shl 32 16) b) a
  | _ => let c := concat_even t 16 4 b a in shuffle_ps 0 2 1 3 c c
  end%nat.
(** 8958-9000 InterleaveOdd *)
Definition interleave_odd (t : target) (s n : nat) (a b : reg) : reg :=
  if (n <=? 2)%nat then concat_odd t (n * s) s b a
  else match s with
  | 1 => odd_even t 1 b (map1 2 (shr_u 8) a)
  | 2 => odd_even t 2 b (map1 4 (shr_u 16) a)
  | _ => let c := concat_odd t 16 4 b a in shuffle_ps 0 2 1 3 c c
  end%nat.

(** ** multiplication *)
(** 4337-4404 MulEven *)
Definition sext8 (x : Z) : Z := shr_s 16 8 (shl 16 8 x).
Definition mul_even (t : target) (sg : bool) (s : nat) (a b : reg) : reg :=
  match s with
  | 1 => if sg then mullo 2 (map1 2 sext8 a) (map1 2 sext8 b) else mullo 2 (map1 2 (Z.land 0xFF) a) (map1 2 (Z.land 0xFF) b)
  | 2 => let lo := mullo 2 a b in let hi := map1 4 (shl 32 16) (mulhi16 sg a b) in odd_even t 2 hi lo
  | _ => if sg then match t with
                    | SSE4 => mul_epi32 a b
                    | _ => let neg_p_hi := map1 8 (shl 64 32) (add 4 (map2 4 Z.land (map1 4 (shr_s 32 31) a) b) (map2 4 Z.land (map1 4 (shr_s 32 31) b) a)) in
                           sub 8 (mul_epu32 a b) neg_p_hi
                    end
         else mul_epu32 a b
  end%nat.
(** 4406-4422 MulOdd; DupOdd of 32-bit lanes is the same for all lane counts *)
Definition mul_odd (t : target) (sg : bool) (s : nat) (a b : reg) : reg :=
  match s with
  | 1 => let sh := if sg then shr_s 16 8 else shr_u 8 in mullo 2 (map1 2 sh a) (map1 2 sh b)
  | 2 => let lo := map1 4 (shr_u 16) (mullo 2 a b) in let hi := mulhi16 sg a b in odd_even t 2 hi lo
  | _ => mul_even t sg 4 (dup_odd t 4 4 a) (dup_odd t 4 4 b)
  end%nat.
(** 4424-4455 32-bit operator times; generic_ops-inl.h 4567-4594: 8-bit, [n] lanes; 4619-4635: 64-bit *)
Definition mul32 (t : target) (a b : reg) : reg :=
  match t with
  | SSE4 => mullo 4 a b
  | _ => let mullo_x2x0 := mul_epu32 a b in let mullo_x3x1 := mul_epu32 (select 4 [1; 1; 3; 3]%nat a) (select 4 [1; 1; 3; 3]%nat b) in
         unpacklo 4 (select 4 [0; 2; 0; 2]%nat mullo_x2x0) (select 4 [0; 2; 0; 2]%nat mullo_x3x1)
  end.
Definition upper8 (v : reg) : reg := srl_bytes 8 v.
Definition mul8 (t : target) (sg : bool) (n : nat) (a b : reg) : reg :=
  if (n <=? 8)%nat then truncate_to t 2 1 n (mullo 2 (promote_to t sg 1 2 a) (promote_to t sg 1 2 b))
  else concat_even t 16 1 (mullo 2 (promote_to t sg 1 2 (upper8 a)) (promote_to t sg 1 2 (upper8 b))) (mullo 2 (promote_to t sg 1 2 a) (promote_to t sg 1 2 b)).
Definition mul64 (x y : reg) : reg :=
  let lolo := mul_epu32 x y in let lohi := mul_epu32 x (map1 8 (shr_u 32) y) in let hilo := mul_epu32 (map1 8 (shr_u 32) x) y in
  let hi := map1 8 (shl 64 32) (add 4 lohi hilo) in add 4 lolo hi.
Definition times (t : target) (sg : bool) (s n : nat) (a b : reg) : reg := match s with 1 => mul8 t sg n a b | 2 => mullo 2 a b | 4 => mul32 t a b | _ => mul64 a b end%nat.
(** 9599-9625 SSE2Mul128: low and high halves; 9627-9640: signed *)
Definition maskL : Z -> Z := Z.land 0xFFFFFFFF.
Definition mul128_u (a b : reg) : reg * reg :=
  let aH := select 4 [1; 0; 3; 2]%nat a in let bH := select 4 [1; 0; 3; 2]%nat b in
  let aLbL := mul_epu32 a b in let w3 := map1 8 maskL aLbL in
  let t2 := add 8 (mul_epu32 aH b) (map1 8 (shr_u 32) aLbL) in let w2 := map1 8 maskL t2 in let w1 := map1 8 (shr_u 32) t2 in
  let t := add 8 (mul_epu32 a bH) w2 in let k := map1 8 (shr_u 32) t in
  (add 8 (map1 8 (shl 64 32) t) w3, add 8 (add 8 (mul_epu32 aH bH) w1) k).
Definition mul128 (sg : bool) (a b : reg) : reg * reg :=
  let (l, h) := mul128_u a b in
  if sg then (l, sub 8 (sub 8 h (map2 8 Z.land (map1 8 sign64 a) b)) (map2 8 Z.land a (map1 8 sign64 b))) else (l, h).
(** 9646-9662 *)
Definition mul_even64 (sg : bool) (a b : reg) : reg := let (l, h) := mul128 sg a b in unpacklo 8 l h.
Definition mul_odd64 (sg : bool) (a b : reg) : reg := let (l, h) := mul128 sg a b in unpackhi 8 l h.
(** 4301-4333, 9664-9670 MulHigh of [n] lanes *)
Definition mul_high (t : target) (sg : bool) (s n : nat) (a b : reg) : reg :=
  match s with
  | 2 => mulhi16 sg a b
  | 8 => snd (mul128 sg a b)
  | _ => if (n =? 1)%nat then srl_bytes s (mul_even t sg s a b) else interleave_odd t s n (mul_even t sg s a b) (mul_odd t sg s a b)
  end%nat.
(** 10828-10864 *)
Definition round15 : Z -> Z := fun x => shr_s 32 15 (wrap 32 (x + 0x4000)).
Definition mul_fixed15 (t : target) (n : nat) (a b : reg) : reg :=
  match t with
  | SSE2 => let lo := mullo 2 a b in let hi := mulhi16 true a b in
            if (n =? 8)%nat then demote2_to t true 4 true 4 (map1 4 round15 (unpacklo 2 lo hi)) (map1 4 round15 (unpackhi 2 lo hi))
            else demote_to t true 4 true 2 n (map1 4 round15 (unpacklo 2 lo hi))
  | _ => mulhrs a b
  end.
(** 9771-9790 *)
Definition widen_mul_pairwise_add (t : target) (sg : bool) (a b : reg) : reg :=
  if sg then madd a b
  else let p_lo := mullo 2 a b in let p_hi := mulhi16 false a b in
       add 4 (odd_even t 2 p_hi p_lo) (map2 4 Z.lor (map1 4 (shl 32 16) p_hi) (map1 4 (shr_u 16) p_lo)).
(** 4257-4284 AverageRound *)
Definition average (sg : bool) (s : nat) (a b : reg) : reg :=
  if sg then let flip := map1 s (Z.lxor (2 ^ (bits s - 1))) in flip (avg s (flip a) (flip b)) else avg s a b.
