(** Model of table lookups of hwy/ops/x86_128-inl.h (2284-2340 TableLookupBytes, TableLookupBytesOr0; 6874-7120 IndicesFromVec, TableLookupLanes; 8652-8840 TwoTablesLookupLanes) on SSE2, SSSE3, SSE4 and AVX2 ([avx2]; then the
    target is SSE4), for 128-bit vectors. Registers, targets and instructions as in X86Int_Model and X86Mul_Model; a vector of [n] lanes of [s] bytes is the first n * s bytes, the others are arbitrary.
    Indices are lanes of the same size as the table's. Lanes of float and double are their bit patterns. *)
From Coq Require Import ZArith List Bool.
From Verif Require Import Word X86Int_Model X86Mul_Model.
Import ListNotations.
Open Scope Z_scope.
(** 2286-2322; __builtin_shuffle takes the index modulo 16, too *)
Definition table_bytes (t : target) (v from : reg) : reg :=
  match t with SSE2 => map (fun i => nth (Z.to_nat (Z.land i 15)) v 0) from | _ => pshufb v from end.
(** 2326-2340 TableLookupBytesOr0; IfThenZeroElse is AndNot *)
Definition table_bytes_or0 (t : target) (v from : reg) : reg :=
  match t with SSE2 => map2 1 andnot (map1 1 (fun x => gt 8 0 x) from) (table_bytes t v from) | _ => table_bytes t v from end.
(** 6880-6983. 16-bit shifts of byte vectors: BitCast *)
Definition broadcast_bytes (s : nat) : list Z := map (fun p => Z.of_nat (p / s * s)) (seq 0 16).
Definition byte_offsets (s : nat) : list Z := map (fun p => Z.of_nat (p mod s)) (seq 0 16).
Definition to_byte_indices (t : target) (s n : nat) (vec : reg) : reg :=
  let lane_indices := table_bytes t vec (load (n * s) (broadcast_bytes s)) in
  let byte_indices := map1 2 (shl 16 (if (s =? 2)%nat then 1 else 2)) lane_indices in
  add 1 byte_indices (load (n * s) (byte_offsets s)).
Definition indices_from_vec (t : target) (avx2 : bool) (s n : nat) (vec : reg) : reg :=
  match s with
  | 2 => match t with SSE2 => vec | _ => to_byte_indices t 2 n vec end
  | 4 => match t with SSE2 => vec | _ => if avx2 then vec else to_byte_indices t 4 n vec end
  | _ => vec
  end%nat.
(** the loops at 7005-7011, 7047-7052; VPERMILPS: the index modulo the number of lanes of the register *)
Definition gather (s : nat) (v idx : reg) : reg :=
  of_lanes s (map (fun x => nth (Z.to_nat (Z.land x (Z.of_nat (16 / s) - 1))) (lanes s v) 0) (lanes s idx)).
(** VPERMILPD: bit 1 of the index selects *)
Definition permutevar_pd (v idx : reg) : reg := of_lanes 8 (map (fun x => nth (if Z.testbit x 1 then 1 else 0)%nat (lanes 8 v) 0) (lanes 8 idx)).
(** IfThenElse: PBLENDVB, BLENDVPS, BLENDVPD select by the sign bit of lanes of [k] bytes; before SSE4 by Or, And, AndNot *)
Definition blendv (k : nat) (mask yes no : reg) : reg :=
  of_lanes k (map (fun p => if Z.testbit (fst p) (bits k - 1) then fst (snd p) else snd (snd p)) (combine (lanes k mask) (combine (lanes k yes) (lanes k no)))).
Definition if_then_else (t : target) (k : nat) (mask yes no : reg) : reg :=
  match t with SSE4 => blendv k mask yes no | _ => or_bytes (map2 1 Z.land mask yes) (map2 1 andnot mask no) end.
(** 6985-7120 *)
Definition table_lookup (t : target) (avx2 : bool) (s n : nat) (v idx : reg) : reg :=
  if (n =? 1)%nat then v
  else match s with
  | 1 => table_bytes t v idx
  | 2 => match t with SSE2 => gather 2 v idx | _ => table_bytes t v idx end
  | 4 => match t with SSE2 => gather 4 v idx | _ => if avx2 then gather 4 v idx else table_bytes t v idx end
  | _ => if avx2 then permutevar_pd v (add 8 idx idx)
         else let same := sub 8 (map2 8 Z.lxor idx (of_lanes 8 [0; 1]%Z)) (of_lanes 8 [1; 1]%Z) in
              if_then_else t 1 same v (select 4 [2; 3; 0; 1]%nat v)
  end%nat.
(** 8670-8697: tables of 16 bytes *)
Definition two_tables8 (t : target) (a b idx : reg) : reg :=
  let sel_hi_mask := match t with SSE4 => map1 2 (shl 16 3) idx | _ => map1 1 (fun x => gt 8 x 15) idx end in
  if_then_else t 1 sel_hi_mask (table_bytes t b idx) (table_bytes t a idx).
(** 8654-8668: up to 8 bytes; 8699-8840 *)
Definition two_tables (t : target) (avx2 : bool) (s n : nat) (a b idx : reg) : reg :=
  if (n * s <=? 8)%nat then table_lookup t avx2 s (2 * n) (combine_halves (n * s) b a) idx
  else
    let select_table k mask i := if_then_else t k mask (table_lookup t avx2 s n b i) (table_lookup t avx2 s n a i) in
    match s with
    | 1 => two_tables8 t a b idx
    | 2 => match t with SSE2 => select_table 1 (map1 2 (fun x => gt 16 x 7)%Z idx) idx | _ => two_tables8 t a b idx end
    | 4 => match t with
           | SSE2 => select_table 1 (map1 4 (fun x => gt 32 x 3)%Z idx) idx
           | _ => if avx2 then select_table 4 (map1 4 (shl 32 29)%Z idx) idx else two_tables8 t a b idx
           end
    | _ => let idx_mod := map1 8 (fun x => Z.land x 1)%Z idx in
           match t with
           | SSE4 => select_table 8 (map1 8 (shl 64 62)%Z idx) idx_mod
           | _ => select_table 1 (map1 4 (fun x => gt 32 x 1)%Z (select 4 [0; 0; 2; 2] idx)) idx_mod
           end
    end%nat.
