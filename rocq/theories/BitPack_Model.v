(** hwy/contrib/bit_pack/bit_pack-inl.h.  The functions there are straight-line
    vector code over two arrays; this file gives the statements a syntax
    ([expr], [stmt], [prog]), the documented meaning of each operation, and the
    template recursion that generates the code of Pack32 / Pack64.  The bodies
    of Pack8 / Pack16 are transcribed in BitPack_Code.v. *)
From Coq Require Import ZArith List String Bool.
From Verif Require Import Word Vec_Model.
Import ListNotations.
Local Open Scope string_scope.
Local Open Scope Z_scope.

(** Vector expressions.  [V x]: local variable; [LoadU k]: LoadU(d, src + k * N);
    [Set_ c]: Set(d, c); [Zero_]: Zero(d); the others are the Highway operations
    of the same name. *)
Inductive expr :=
| V (x : string)
| LoadU (k : Z)
| Set_ (c : Z)
| Zero_
| ShiftLeft (k : Z) (e : expr)
| ShiftRight (k : Z) (e : expr)
| And (a b : expr)
| Or (a b : expr)
| AndNot (a b : expr)
| Xor3 (a b c : expr)
| OrAnd (o a b : expr)
| Add (a b : expr)
| Sub (a b : expr).

(** [Let x e]: T x = e;  or  x = e;   [StoreU e k]: StoreU(e, d, dst + k * N); *)
Inductive stmt := Let (x : string) (e : expr) | StoreU (e : expr) (k : Z).
Notation "x <- e" := (Let x e) (at level 60).

(** [cast]: every load is BitCast(d16, LoadU(d8, ..)) and every store is
    StoreU(BitCast(d8, ..), d8, ..) with d16 = RepartitionToWide<d8>. *)
Record prog := { cast : bool; body : list stmt }.

Definition vec := list Z.

(** One lane of width [W] bits.  g3doc/quick_reference.md: ShiftLeft<int>(a)
    1046 (bits shifted out are dropped), ShiftRight<int> on unsigned lanes 1050,
    AndNot(a, b) = ~a & b (1263), Xor3 = x1 ^ x2 ^ x3 (1271), OrAnd(o, a1, a2) =
    o | (a1 & a2) (1277); unsigned Add / Sub wrap around. *)
Definition lane_shl (W k x : Z) : Z := wrap W (Z.shiftl x k).
Definition lane_shr (k x : Z) : Z := Z.shiftr x k.
Definition lane_andnot (W a b : Z) : Z := Z.land (Z.lxor a (2 ^ W - 1)) b.
Definition lane_add (W a b : Z) : Z := wrap W (a + b).
Definition lane_sub (W a b : Z) : Z := wrap W (a - b).

(** Lane-wise application of a binary operation. *)
Definition vmap2 (f : Z -> Z -> Z) (a b : vec) : vec := map (fun p => f (fst p) (snd p)) (combine a b).

(** BitCast from u8 to u16 lanes and back: pairs of adjacent bytes in memory
    order; [le] = little-endian (HWY_IS_LITTLE_ENDIAN). *)
Fixpoint bitcast16 (le : bool) (v : list Z) : list Z :=
  match v with
  | a :: b :: t => (if le then a + 2 ^ 8 * b else b + 2 ^ 8 * a) :: bitcast16 le t
  | _ => []
  end.
Fixpoint bitcast8 (le : bool) (v : list Z) : list Z :=
  match v with
  | x :: t => (if le then [x mod 2 ^ 8; x / 2 ^ 8] else [x / 2 ^ 8; x mod 2 ^ 8]) ++ bitcast8 le t
  | [] => []
  end.

Section Run.
Variable le : bool.   (** byte order *)
Variable W : Z.       (** lane width of the vector operations *)
Variable N : Z.       (** Lanes(d) of the array's element type *)
Variable c : bool.    (** the program's [cast] flag *)

Definition lanes : Z := if c then N / 2 else N.
Definition load_vec (src : list Z) (k : Z) : option vec :=
  match loadu src (k * N) N with
  | Some v => Some (if c then bitcast16 le v else v)
  | None => None
  end.
Definition store_vec (dst : list Z) (k : Z) (v : vec) : option (list Z) :=
  storeu dst (k * N) (if c then bitcast8 le v else v).

Definition env := list (string * vec).
Fixpoint lookup {A} (e : list (string * A)) (x : string) : option A :=
  match e with
  | (y, v) :: t => if String.eqb x y then Some v else lookup t x
  | [] => None
  end.

Definition o2 (f : vec -> vec -> vec) (a b : option vec) : option vec :=
  match a, b with Some x, Some y => Some (f x y) | _, _ => None end.

(** Value of an expression; [None]: undefined variable, load outside the array,
    or shift amount not in [0, W) (static_assert in the ShiftLeft / ShiftRight
    implementations, e.g. hwy/ops/emu128-inl.h). *)
Fixpoint eval (src : list Z) (e : env) (x : expr) : option vec :=
  match x with
  | V y => lookup e y
  | LoadU k => load_vec src k
  | Set_ z => Some (set lanes z)
  | Zero_ => Some (set lanes 0)
  | ShiftLeft k a =>
      if (0 <=? k) && (k <? W) then option_map (map (lane_shl W k)) (eval src e a) else None
  | ShiftRight k a =>
      if (0 <=? k) && (k <? W) then option_map (map (lane_shr k)) (eval src e a) else None
  | And a b => o2 (vmap2 Z.land) (eval src e a) (eval src e b)
  | Or a b => o2 (vmap2 Z.lor) (eval src e a) (eval src e b)
  | AndNot a b => o2 (vmap2 (lane_andnot W)) (eval src e a) (eval src e b)
  | Xor3 a b d => o2 (vmap2 Z.lxor) (eval src e a) (o2 (vmap2 Z.lxor) (eval src e b) (eval src e d))
  | OrAnd o a b => o2 (vmap2 Z.lor) (eval src e o) (o2 (vmap2 Z.land) (eval src e a) (eval src e b))
  | Add a b => o2 (vmap2 (lane_add W)) (eval src e a) (eval src e b)
  | Sub a b => o2 (vmap2 (lane_sub W)) (eval src e a) (eval src e b)
  end.

Fixpoint exec (src : list Z) (ss : list stmt) (e : env) (dst : list Z) : option (list Z) :=
  match ss with
  | [] => Some dst
  | Let x a :: t =>
      match eval src e a with Some v => exec src t ((x, v) :: e) dst | None => None end
  | StoreU a k :: t =>
      match eval src e a with
      | Some v => match store_vec dst k v with Some d' => exec src t e d' | None => None end
      | None => None
      end
  end.
End Run.

(** Run program [p] from array [src] to array [dst], whose elements have [elem]
    bits, with vectors of [N] elements; [frame] is the argument
    frame_of_reference_value (bit_pack-inl.h:2763-2766, Set(d, ..)); the result
    is the new contents of [dst], or [None] on a fault. *)
Definition run (le : bool) (elem N : Z) (p : prog) (frame : Z) (src dst : list Z) : option (list Z) :=
  exec le (if cast p then 2 * elem else elem) N (cast p) src (body p)
    [("frame_of_reference", set (lanes N (cast p)) frame)] dst.

(* ------------------------------------------------------------------ *)
(** ** Pack32 / Pack64: code generated by template recursion *)

(** detail::BitPackUnroller<T, kBits, S, kLoadPos, kStorePos, type>::Pack,
    bit_pack-inl.h:2620-2668.  B = sizeof(T) * 8; [for_] = (type ==
    kFoRBitPacked).  [lb], [sb] are the displacements of the loop of Pack32::Pack
    (raw += .., packed_out += ..) in vectors.  Each instantiation contributes its
    statements and then those of NextUnroller; [fuel] bounds the instantiation
    depth ([None] when exhausted). *)
Fixpoint unroll_pack (fuel : nat) (B kBits : Z) (for_ : bool) (lb sb : Z) (S kLoadPos kStorePos : Z) : option (list stmt) :=
  match fuel with
  | O => None
  | Datatypes.S fuel' =>
    let next_S := if S <=? B then S + (if S <? B then kBits else 0) else S mod B in
    let next := unroll_pack fuel' B kBits for_ lb sb next_S
                  (kLoadPos + (if S <? B then 1 else 0))
                  (kStorePos + (if B <? S then 1 else 0)) in
    if B <=? S then
      if S =? B then Some [StoreU (V "out") (sb + kStorePos)]
      else
        let shr_amount := wrap 64 (kBits - S mod B) mod B in
        option_map (fun t => StoreU (V "out") (sb + kStorePos) :: ("out" <- ShiftRight shr_amount (V "in")) :: t) next
    else
      let load := LoadU (lb + kLoadPos) in
      option_map (fun t =>
        ("in" <- (if for_ then Sub load (V "frame_of_reference") else load)) ::
        ("out" <- (if S =? 0 then V "in" else Or (V "out") (ShiftLeft (S mod B) (V "in")))) :: t) next
  end.

(** BitPackUnroller::Unpack, bit_pack-inl.h:2670-2723. *)
Fixpoint unroll_unpack (fuel : nat) (B kBits : Z) (for_ : bool) (lb sb : Z) (S kLoadPos kStorePos : Z) : option (list stmt) :=
  match fuel with
  | O => None
  | Datatypes.S fuel' =>
    let next_S := if S <=? B then S + (if S <? B then kBits else 0) else S mod B in
    let next := unroll_unpack fuel' B kBits for_ lb sb next_S
                  (kLoadPos + (if B <? S then 1 else 0))
                  (kStorePos + (if S <? B then 1 else 0)) in
    let bitpacked_output := if for_ then Add (V "out") (V "frame_of_reference") else V "out" in
    if B <=? S then
      if S =? B then Some [StoreU bitpacked_output (sb + kStorePos)]
      else
        let shl_amount := wrap 64 (kBits - S mod B) mod B in
        option_map (fun t =>
          ("in" <- LoadU (lb + kLoadPos)) ::
          ("out" <- And (Or (V "out") (ShiftLeft shl_amount (V "in"))) (V "mask")) :: t) next
    else
      let out :=
        if S + kBits <? B
        then (if S =? 0 then And (V "in") (V "mask") else And (ShiftRight (S mod B) (V "in")) (V "mask"))
        else ShiftRight (S mod B) (V "in") in
      option_map (fun t => StoreU bitpacked_output (sb + kStorePos) :: ("out" <- out) :: t) next
  end.

(** detail::NumLoops, PackedIncr, UnpackedIncr, bit_pack-inl.h:2726-2739
    (size_t: ~(kBits - 1) is the 64-bit complement). *)
Definition num_loops (kBits : Z) : Z := Z.land kBits (2 ^ 64 - 1 - (kBits - 1)).
Definition packed_incr (kBits : Z) : Z := kBits / num_loops kBits.
Definition unpacked_incr (B kBits : Z) : Z := B / num_loops kBits.
(** 1ull << k; undefined unless k < 64. *)
Definition shl1_u64 (k : Z) : option Z := if (0 <=? k) && (k <? 64) then Some (wrap 64 (2 ^ k)) else None.
(** detail::MaskBits32 / MaskBits64, bit_pack-inl.h:2741-2753: 1ull << kBits is
    computed in 64 bits; MaskBits64<64> is specialized. *)
Definition mask_bits32 (kBits : Z) : option Z := option_map (fun x => wrap 32 (wrap 64 (x - 1))) (shl1_u64 kBits).
Definition mask_bits64 (kBits : Z) : option Z :=
  if kBits =? 64 then Some (2 ^ 64 - 1) else option_map (fun x => wrap 64 (x - 1)) (shl1_u64 kBits).

Fixpoint seq_stmts (l : list (option (list stmt))) : option (list stmt) :=
  match l with
  | [] => Some []
  | x :: t => match x, seq_stmts t with Some a, Some b => Some (a ++ b)%list | _, _ => None end
  end.

Definition loop_indices (n : Z) : list Z := map Z.of_nat (seq 0 (Z.to_nat n)).
Definition unroll_fuel : nat := 300.

(** Pack32::Pack 2757-2776 and Pack64::Pack 2802-2821 (B = 32 or 64). *)
Definition pack_unrolled (B : Z) (mask : option Z) (kBits : Z) (for_ : bool) : option (list stmt) :=
  match mask with
  | None => None
  | Some mask => option_map (cons ("mask" <- Set_ mask))
    (seq_stmts (map (fun i =>
       option_map (fun t => ("in" <- Zero_) :: ("out" <- Zero_) :: t)
         (unroll_pack unroll_fuel B kBits for_ (i * unpacked_incr B kBits) (i * packed_incr kBits) 0 0 0))
       (loop_indices (num_loops kBits))))
  end.
(** Pack32::Unpack 2778-2798 and Pack64::Unpack 2823-2843. *)
Definition unpack_unrolled (B : Z) (mask : option Z) (kBits : Z) (for_ : bool) : option (list stmt) :=
  match mask with
  | None => None
  | Some mask => option_map (cons ("mask" <- Set_ mask))
    (seq_stmts (map (fun i =>
       option_map (fun t => ("in" <- LoadU (i * packed_incr kBits)) :: ("out" <- And (V "in") (V "mask")) :: t)
         (unroll_unpack unroll_fuel B kBits for_ (i * packed_incr kBits) (i * unpacked_incr B kBits) kBits 1 0))
       (loop_indices (num_loops kBits))))
  end.

Definition mk (o : option (list stmt)) : option prog := option_map (fun s => {| cast := false; body := s |}) o.
Definition pack32 (for_ : bool) (kBits : Z) : option prog := mk (pack_unrolled 32 (mask_bits32 kBits) kBits for_).
Definition unpack32 (for_ : bool) (kBits : Z) : option prog := mk (unpack_unrolled 32 (mask_bits32 kBits) kBits for_).
Definition pack64 (for_ : bool) (kBits : Z) : option prog := mk (pack_unrolled 64 (mask_bits64 kBits) kBits for_).
Definition unpack64 (for_ : bool) (kBits : Z) : option prog := mk (unpack_unrolled 64 (mask_bits64 kBits) kBits for_).
