(** hwy/aligned_allocator.{h,cc} and hwy/contrib/image/image.{h,cc}. *)
From Coq Require Import ZArith List Lia Bool.
From Verif Require Import Word Arith_Model.
Import ListNotations.
Local Open Scope Z_scope.

(** ** Byte memory, little endian words *)
Definition mem := Z -> Z.
Definition upd (m : mem) (a b : Z) : mem := fun x => if x =? a then b else m x.
Fixpoint store_bytes (n : nat) (m : mem) (a v : Z) : mem :=
  match n with O => m | S k => store_bytes k (upd m a (v mod 256)) (a + 1) (v / 256) end.
Fixpoint load_bytes (n : nat) (m : mem) (a : Z) : Z :=
  match n with O => 0 | S k => m a + 256 * load_bytes k m (a + 1) end.
Definition store64 := store_bytes 8.
Definition load64 := load_bytes 8.

Section Alloc.
(** aligned_allocator.cc 30-48 kAlignment, kAlias: parameters (128 / 1024 on
    x86, 128 / 128 elsewhere, 4096 / 4096 on RVV). *)
Variables kAlignment kAlias : Z.
(** aligned_allocator.cc 51-56 sizeof(AllocationHeader), packed, 64-bit *)
Definition header_size : Z := 16.

(** aligned_allocator.cc 59-67 NextAlignedOffset: (offset, new counter) *)
Definition next_aligned_offset (next : Z) : Z * Z :=
  (kAlignment * (next mod (kAlias / kAlignment)), wrap 64 (next + 1)).

Inductive alloc_request := Abort | Null | Request (offset allocated_size : Z).

(** aligned_allocator.cc 71-97 AllocateAlignedBytes up to the underlying
    allocation; [offset0] is the value NextAlignedOffset returned. *)
Definition alloc_begin (payload_size offset0 : Z) : alloc_request :=
  if payload_size =? 0 then Abort
  else if (2 ^ 64 - 1) / 2 <=? payload_size then Null
  else
    match (if offset0 =? 0 then RoundUpTo header_size kAlignment else Some offset0) with
    | Some offset => Request offset (wrap 64 (kAlias + offset + payload_size))
    | None => Abort
    end.

(** aligned_allocator.cc 98-123: block [allocated] (non-null) to payload
    address, and the header stores. *)
Definition alloc_payload (allocated offset : Z) : Z :=
  let aligned := wrap 64 (allocated + kAlias) in
  let aligned := Z.land aligned (wrap 64 (Z.lnot (kAlias - 1))) in
  wrap 64 (aligned + offset).
Definition alloc_header (m : mem) (allocated payload payload_size : Z) : mem :=
  let header := wrap 64 (payload - header_size) in
  store64 (store64 m header allocated) (header + 8) payload_size.

(** aligned_allocator.cc 126-142 FreeAlignedBytes and 146-166
    DeleteAlignedArray: the pointer passed to free() and the payload size
    passed to the array deleter; [None] for a null argument. *)
Definition free_bytes (m : mem) (aligned_pointer : Z) : option (Z * Z) :=
  if aligned_pointer =? 0 then None
  else let header := wrap 64 (aligned_pointer - header_size) in
       Some (load64 m header, load64 m (header + 8)).
End Alloc.

(** aligned_allocator.h 85-92 TypedArrayDeleter: addresses of the destroyed
    elements, in order *)
Definition typed_array_deleter (kSize ptr size_in_bytes : Z) : list Z :=
  map (fun i => ptr + Z.of_nat i * kSize) (seq 0 (Z.to_nat (size_in_bytes / kSize))).

(** aligned_allocator.h 182-196 AllocateAlignedItems: the byte count passed to
    AllocateAlignedBytes, [None] = nullptr (overflow) *)
Definition alloc_items (kSize items : Z) : option Z :=
  let kIsPow2 := Z.land kSize (kSize - 1) =? 0 in
  match ShiftCount kSize with
  | Some kBits =>
      let bytes := if kIsPow2 then wrap 64 (Z.shiftl items kBits) else wrap 64 (items * kSize) in
      let check := if kIsPow2 then Z.shiftr bytes kBits else bytes / kSize in
      if check =? items then Some bytes else None
  | None => None
  end.

(** aligned_allocator.h 142-150 AlignedAllocator<T>::allocate(n): byte count
    passed to AllocateAlignedBytes *)
Definition aligned_allocator_allocate (kSize n : Z) : Z := wrap 64 (n * kSize).

(** ** AlignedNDArray, aligned_allocator.h 302-424 *)
(** ComputeSizes, 409-423 *)
Fixpoint compute_sizes (shape : list Z) : list Z :=
  match shape with
  | [] => [1]
  | s :: r => let t := compute_sizes r in wrap 64 (hd 0 t * s) :: t
  end.
(** 318-321: the last extent rounded up to VectorBytes() elements *)
Fixpoint memory_shape (vb : Z) (shape : list Z) : option (list Z) :=
  match shape with
  | [] => None
  | [s] => option_map (fun r => [r]) (RoundUpTo s vb)
  | s :: r => option_map (cons s) (memory_shape vb r)
  end.
Record ndarray := { nd_shape : list Z; nd_memory_shape : list Z; nd_sizes : list Z; nd_memory_sizes : list Z }.
(** constructor, 313-325; the buffer holds [hd 0 memory_sizes] elements *)
Definition nd_ctor (vb : Z) (shape : list Z) : option ndarray :=
  match memory_shape vb shape with
  | Some ms => Some {| nd_shape := shape; nd_memory_shape := ms; nd_sizes := compute_sizes shape; nd_memory_sizes := compute_sizes ms |}
  | None => None
  end.
Definition nd_memory_size (a : ndarray) : Z := hd 0 (nd_memory_sizes a).
(** Offset, 394-402: offset += memory_sizes_[shape_index + 1] * axis_index *)
Fixpoint nd_offset_loop (sizes indices : list Z) (offset : Z) : Z :=
  match indices, sizes with
  | i :: is, _ :: rest => nd_offset_loop rest is (wrap 64 (offset + wrap 64 (hd 0 rest * i)))
  | _, _ => offset
  end.
(** operator[], 328-336: (offset from the buffer start, span size) *)
Definition nd_index (a : ndarray) (indices : list Z) : Z * Z :=
  (nd_offset_loop (nd_memory_sizes a) indices 0, nth (length indices) (nd_sizes a) 0).
(** truncate, 374-382 *)
Definition nd_truncate (a : ndarray) (new_shape : list Z) : ndarray :=
  {| nd_shape := new_shape; nd_memory_shape := nd_memory_shape a; nd_sizes := compute_sizes new_shape; nd_memory_sizes := nd_memory_sizes a |}.

(** ** Image *)
(** image.cc 35-62 ImageBase::BytesPerRow; [vec] = VectorSize() *)
Definition bytes_per_row (vec xsize sizeof_t : Z) : option Z :=
  let valid := wrap 64 (xsize * sizeof_t) in
  let valid := if vec =? 1 then valid else wrap 64 (valid + wrap 64 (vec - sizeof_t)) in
  let align := Z.max vec 128 in
  match RoundUpTo valid align with
  | Some b => Some (if b mod 128 =? 0 then wrap 64 (b + align) else b)
  | None => None
  end.
Record image := { im_xsize : Z; im_ysize : Z; im_bytes_per_row : Z; im_bytes : Z; im_alloc : Z }.
(** image.cc 64-81 constructor; [base] is the pointer AllocateAligned returned
    for the requested [im_alloc] bytes *)
Definition image_request (vec xsize ysize sizeof_t : Z) : option Z :=
  match bytes_per_row vec xsize sizeof_t with Some b => Some (wrap 64 (b * ysize)) | None => None end.
Definition image_ctor (vec xsize ysize sizeof_t base : Z) : option image :=
  if (xsize =? 0) || (ysize =? 0) then Some {| im_xsize := wrap 32 xsize; im_ysize := wrap 32 ysize; im_bytes_per_row := 0; im_bytes := 0; im_alloc := 0 |}
  else match bytes_per_row vec xsize sizeof_t with
       | Some b => Some {| im_xsize := wrap 32 xsize; im_ysize := wrap 32 ysize; im_bytes_per_row := b; im_bytes := base; im_alloc := wrap 64 (b * ysize) |}
       | None => None
       end.
(** image.cc 83-94 constructor for external memory *)
Definition image_external (vec xsize ysize bpr aligned : Z) : option image :=
  if (bpr mod vec =? 0) && (aligned mod vec =? 0)
  then Some {| im_xsize := wrap 32 xsize; im_ysize := wrap 32 ysize; im_bytes_per_row := bpr; im_bytes := aligned; im_alloc := 0 |}
  else None.
(** image.h 72-77 ShrinkTo *)
Definition image_shrink (im : image) (xsize ysize : Z) : image :=
  {| im_xsize := wrap 32 xsize; im_ysize := wrap 32 ysize; im_bytes_per_row := im_bytes_per_row im; im_bytes := im_bytes im; im_alloc := im_alloc im |}.
(** image.h 99-108 VoidRow (release build) *)
Definition image_row (im : image) (y : Z) : Z := wrap 64 (im_bytes im + wrap 64 (y * im_bytes_per_row im)).
(** image.h 224-236 Image3(ImageT&&, ImageT&&, ImageT&&): aborts unless SameSize *)
Definition image3_of_planes (p0 p1 p2 : image) : option (image * image * image) :=
  let same a b := (im_xsize a =? im_xsize b) && (im_ysize a =? im_ysize b) in
  if negb (same p0 p1) || negb (same p0 p2) then None else Some (p0, p1, p2).
(** image.h 298-312 VoidPlaneRow: stride of plane 0 for every plane *)
Definition image3_plane (i3 : image * image * image) (c : Z) : image :=
  if c =? 0 then fst (fst i3) else if c =? 1 then snd (fst i3) else snd i3.
Definition image3_row (i3 : image * image * image) (c y : Z) : Z :=
  wrap 64 (im_bytes (image3_plane i3 c) + wrap 64 (y * im_bytes_per_row (fst (fst i3)))).

(** image.h 374-378 Rect::ClampedSize *)
Definition clamped_size (begin size_max end_ : Z) : Z :=
  if wrap 64 (begin + size_max) <=? end_ then size_max else if begin <? end_ then wrap 64 (end_ - begin) else 0.
Record rect := { r_x0 : Z; r_y0 : Z; r_xsize : Z; r_ysize : Z }.
(** image.h 318-323 *)
Definition rect_clamped (xbegin ybegin xsize_max ysize_max xend yend : Z) : rect :=
  {| r_x0 := xbegin; r_y0 := ybegin; r_xsize := clamped_size xbegin xsize_max xend; r_ysize := clamped_size ybegin ysize_max yend |}.
(** image.h 335-339 Subrect *)
Definition rect_subrect (r : rect) (xbegin ybegin xsize_max ysize_max : Z) : rect :=
  rect_clamped (wrap 64 (r_x0 r + xbegin)) (wrap 64 (r_y0 r + ybegin)) xsize_max ysize_max
    (wrap 64 (r_x0 r + r_xsize r)) (wrap 64 (r_y0 r + r_ysize r)).

(** image.h 398-411 Mirror; int64 overflow is UB ([None]), so is running out of
    fuel *)
Fixpoint mirror (fuel : nat) (x xsize : Z) : option Z :=
  match fuel with
  | O => None
  | S f =>
      if (x <? 0) || (xsize <=? x) then
        let x' := if x <? 0 then - x - 1 else 2 * xsize - 1 - x in
        if (- 2 ^ 63 <=? x') && (x' <? 2 ^ 63) && (- x <? 2 ^ 63) && (2 * xsize <? 2 ^ 63) then mirror f x' xsize else None
      else Some x
  end.
(** image.h 437-461 WrapRowMirror::operator(); pointers in units of floats *)
Definition wrap_row_mirror (first_row last_row row stride : Z) : Z :=
  if row <? first_row then first_row + (first_row - row) - stride
  else if last_row <? row then last_row - (row - last_row) + stride
  else row.
