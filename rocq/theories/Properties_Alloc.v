(** Property theorems C10-C12, C38-C45: aligned allocator, AlignedNDArray and
    contrib/image. *)
From Coq Require Import ZArith List Lia Bool.
From Verif Require Import Word Word_Proofs Arith_Model Arith_Proofs Alloc_Model Alloc_Spec Alloc_Proofs.
Import ListNotations.
Local Open Scope Z_scope.

(** C10.  kAl = 2^i (>= 16) is the alignment, kAlias = 2^j the alias distance;
    [reach] is every history of allocations, user stores inside live payloads
    and frees. *)
Theorem C10_alloc : forall i j s size block o req, 4 <= i <= j -> j <= 32 ->
  let kAl := 2 ^ i in let kAlias := 2 ^ j in
  reach kAl kAlias s -> contract kAl kAlias (HAlloc size block) s -> block <> 0 ->
  alloc_begin kAl kAlias size (fst (next_aligned_offset kAl kAlias (h_next s))) = Request o req ->
  exists p, h_live (hstep kAl kAlias (HAlloc size block) s) = {| lv_payload := p; lv_size := size; lv_block := block; lv_block_size := req |} :: h_live s /\
    (kAl | p) /\ block <= p - header_size /\ p + size <= block + req.
Proof.
  intros i j s size block o req H1 H2 kAl kAlias HR HC NB EB.
  pose proof (alloc_facts i j H1 H2 s size block o req HR HC NB EB) as H. cbn zeta in H. destruct H as (A & B & C & D).
  eexists. split; [exact D|]. split; [exact A|]. split; [exact B|exact C].
Qed.
Print Assumptions C10_alloc.
Theorem C10_free : forall i j s l, 4 <= i <= j -> j <= 32 ->
  reach (2 ^ i) (2 ^ j) s -> In l (h_live s) -> free_bytes (h_mem s) (lv_payload l) = Some (lv_block l, lv_size l).
Proof. intros i j s l H1 H2. apply (free_facts i j H1 H2). Qed.
Print Assumptions C10_free.
Theorem C10_disjoint : forall i j s, 4 <= i <= j -> j <= 32 -> reach (2 ^ i) (2 ^ j) s ->
  ForallOrdPairs (fun a b => disjoint (lv_payload a) (lv_size a) (lv_payload b) (lv_size b)) (h_live s).
Proof. intros i j s H1 H2. apply (live_disjoint i j H1 H2). Qed.
Print Assumptions C10_disjoint.
(** when is null returned / when does it abort (the documentation allows a zero
    size) *)
Theorem C10_null_or_abort : forall kAl kAlias size off0, 0 < kAl < 2 ^ 63 -> 0 <= size < 2 ^ 64 ->
  (alloc_begin kAl kAlias size off0 = Abort <-> size = 0) /\ (alloc_begin kAl kAlias size off0 = Null <-> 2 ^ 63 - 1 <= size).
Proof. intros. now apply begin_cases. Qed.
Print Assumptions C10_null_or_abort.
(** two allocations with x86 constants, second reuses no address of the first;
    the user overwrites its payload, then frees *)
Definition C10_s0 : hstate := {| h_mem := fun _ => 0; h_next := 7; h_live := [] |}.
Definition C10_s1 := hstep 128 1024 (HAlloc 10 5000) C10_s0.
Definition C10_s2 := hstep 128 1024 (HAlloc 100 9000) C10_s1.
Definition C10_s3 := hstep 128 1024 (HWrite (lv_payload (hd {| lv_payload := 0; lv_size := 0; lv_block := 0; lv_block_size := 0 |} (h_live C10_s1))) 77) C10_s2.
Example C10_ex : reach (2 ^ 7) (2 ^ 10) C10_s3 /\
  h_live C10_s3 = [{| lv_payload := 9216 + 128; lv_size := 100; lv_block := 9000; lv_block_size := 1252 |};
                   {| lv_payload := 5120 + 896; lv_size := 10; lv_block := 5000; lv_block_size := 1930 |}] /\
  free_bytes (h_mem C10_s3) 6016 = Some (5000, 10) /\ free_bytes (h_mem C10_s3) 9344 = Some (9000, 100).
Proof.
  split; [|vm_compute; repeat split; reflexivity].
  unfold C10_s3. apply r_step; [unfold C10_s2; apply r_step; [unfold C10_s1; apply r_step; [apply r_init; lia|]|]|].
  - cbn [contract]. split; [lia|]. right. split; [lia|]. split; [vm_compute; reflexivity|]. intros l [].
  - cbn [contract]. split; [lia|]. right. split; [lia|]. split; [vm_compute; reflexivity|]. vm_compute. intros l [<-|[]]. right. discriminate.
  - split; [lia|]. eexists. split; [right; left; reflexivity|]. vm_compute. split; congruence.
Qed.

(** C11: null exactly on multiplication overflow, else exactly items*sizeof(T)
    bytes; deletion destroys element 0, 1, ..., items-1 once each. *)
Theorem C11_items : forall kSize items, 0 < kSize < 2 ^ 64 -> 0 <= items < 2 ^ 64 ->
  alloc_items kSize items = if items * kSize <? 2 ^ 64 then Some (items * kSize) else None.
Proof. intros. now apply alloc_items_ok. Qed.
Print Assumptions C11_items.
Theorem C11_deleter : forall kSize items bytes ptr, 0 < kSize < 2 ^ 64 -> 0 <= items < 2 ^ 64 ->
  alloc_items kSize items = Some bytes ->
  typed_array_deleter kSize ptr bytes = map (fun i => ptr + Z.of_nat i * kSize) (seq 0 (Z.to_nat items)).
Proof.
  intros kSize items bytes ptr HK HI E. rewrite (alloc_items_ok kSize items HK HI) in E. destruct (items * kSize <? 2 ^ 64); [|discriminate].
  injection E as <-. unfold typed_array_deleter. now rewrite Z.div_mul by lia.
Qed.
Print Assumptions C11_deleter.
Example C11_ex : alloc_items 24 (2 ^ 61) = None /\ alloc_items 8 (2 ^ 61) = None /\ alloc_items 24 5 = Some 120 /\
  typed_array_deleter 24 1000 120 = [1000; 1024; 1048; 1072; 1096].
Proof. repeat split; vm_compute; reflexivity. Qed.

(** C12: spans returned by operator[] before and after truncate (take
    [new_shape = shape] for no truncation). Offsets are in elements. *)
Theorem C12_ndarray : forall vb shape new_shape idx,
  0 < vb -> shape <> [] -> Forall (fun x => 1 <= x) shape -> last shape 0 + vb - 1 < 2 ^ 64 ->
  fold_right Z.mul 1 (removelast shape) * (last shape 0 + vb) < 2 ^ 64 ->
  Forall2 Z.le new_shape shape -> Forall (fun x => 0 <= x) new_shape ->
  length shape = S (length idx) -> Forall2 (fun i m => 0 <= i < m) idx (firstn (length idx) new_shape) ->
  exists a, nd_ctor vb shape = Some a /\
  let (off, size) := nd_index (nd_truncate a new_shape) idx in
  size = last new_shape 0 /\ 0 <= off /\ off + size <= nd_memory_size a /\ (vb | off) /\
  forall idx', length idx' = length idx -> Forall2 (fun i m => 0 <= i < m) idx' (firstn (length idx) new_shape) -> idx' <> idx ->
    let (off', size') := nd_index (nd_truncate a new_shape) idx' in off + size <= off' \/ off' + size' <= off.
Proof. intros. now apply nd_ok. Qed.
Print Assumptions C12_ndarray.
Example C12_ex : exists a, nd_ctor 16 [3; 4; 5] = Some a /\ nd_index a [2; 3] = (176, 5) /\ nd_memory_size a = 192 /\
  nd_index (nd_truncate a [2; 3; 4]) [1; 2] = (96, 4).
Proof. eexists. split; [vm_compute; reflexivity|]. repeat split; vm_compute; reflexivity. Qed.

(** C38 is false of AlignedAllocator<T>::allocate: the byte count wraps. *)
Theorem C38_allocate_refuted : exists kSize n, 0 < kSize /\ 0 <= n < 2 ^ 64 /\ 2 ^ 64 <= n * kSize /\
  aligned_allocator_allocate kSize n = 16.
Proof. exists 16, (2 ^ 60 + 1). vm_compute. intuition congruence. Qed.
Print Assumptions C38_allocate_refuted.
Theorem C38_allocate_partial : forall kSize n, 0 <= kSize -> 0 <= n -> n * kSize < 2 ^ 64 -> aligned_allocator_allocate kSize n = n * kSize.
Proof. intros. unfold aligned_allocator_allocate. apply wrap_small. nia. Qed.
Print Assumptions C38_allocate_partial.

(** C39 is false: extents whose product exceeds 2^64 are accepted, the buffer
    is too small and an in-range index lies outside it. *)
Theorem C39_ndarray_oversize_refuted : exists vb shape a, Forall (fun x => 1 <= x < 2 ^ 64) shape /\
  nd_ctor vb shape = Some a /\ nd_memory_size a = 16 /\ nd_index a [1] = (16, 16).
Proof.
  exists 16, [2 ^ 60 + 1; 16]. eexists. split; [repeat constructor; lia|]. split; [vm_compute; reflexivity|]. split; vm_compute; reflexivity.
Qed.
Print Assumptions C39_ndarray_oversize_refuted.

(** C40: rows of an image, also after ShrinkTo. [base] is what AllocateAligned
    returned for the requested number of bytes (C10: 128-byte aligned and
    inside the address space). *)
Theorem C40_rows : forall vec xsize ysize sizeof_t base req xs ys y,
  (vec = 1 \/ sizeof_t <= vec) -> (128 | Z.max vec 128) -> 1 <= vec -> 1 <= sizeof_t ->
  1 <= xsize < 2 ^ 32 -> 1 <= ysize < 2 ^ 32 ->
  xsize * sizeof_t + 3 * vec + 256 < 2 ^ 31 ->
  image_request vec xsize ysize sizeof_t = Some req -> (128 | base) -> 0 < base -> base + req < 2 ^ 64 ->
  1 <= xs <= xsize -> 1 <= ys <= ysize -> 0 <= y < ys ->
  exists im, image_ctor vec xsize ysize sizeof_t base = Some im /\
  let im := image_shrink im xs ys in
  im_xsize im = xs /\ im_ysize im = ys /\
  let row := image_row im y in
  (128 | row) /\ base <= row /\
  (* a full vector starting at the last pixel stays inside the allocation *)
  row + (xs - 1) * sizeof_t + (if vec =? 1 then sizeof_t else vec) <= base + req /\
  (* and inside this row *)
  forall y', 0 <= y' < ys -> y < y' -> row + (xs - 1) * sizeof_t + (if vec =? 1 then sizeof_t else vec) <= image_row im y'.
Proof.
  intros vec xsize ysize sizeof_t base req xs ys y Hv HD Hv1 Hs Hx Hy HB HQ DB B0 BR Hxs Hys HY.
  destruct (bpr_ok vec xsize sizeof_t Hv Hv1 Hs ltac:(lia) ltac:(lia)) as (b & E & D & L & U).
  unfold image_request in HQ. rewrite E in HQ. injection HQ as HQ. assert (B31 : b < 2 ^ 31) by (destruct Hv; lia).
  assert (Hb : 0 <= b) by (destruct (Z.eqb_spec vec 1); nia).
  rewrite (wrap_small 64 (b * ysize)) in HQ by nia. subst req.
  unfold image_ctor. rewrite E. destruct (Z.eqb_spec xsize 0); [lia|]. destruct (Z.eqb_spec ysize 0); [lia|]. cbn [orb].
  eexists. split; [reflexivity|]. cbn [image_shrink im_xsize im_ysize im_bytes im_bytes_per_row].
  split; [apply wrap_small; lia|]. split; [apply wrap_small; lia|].
  assert (RW : forall z, 0 <= z < ys -> image_row {| im_xsize := wrap 32 xs; im_ysize := wrap 32 ys; im_bytes_per_row := b; im_bytes := base; im_alloc := wrap 64 (b * ysize) |} z = base + z * b).
  { intros z Hz. unfold image_row. cbn [im_bytes im_bytes_per_row]. rewrite (wrap_small 64 (z * b)) by nia. apply wrap_small. nia. }
  unfold image_shrink. cbn [im_bytes im_bytes_per_row im_alloc]. rewrite (RW y HY). cbn zeta.
  assert (EX : (xs - 1) * sizeof_t + (if vec =? 1 then sizeof_t else vec) <= b) by (destruct (vec =? 1); nia).
  split; [apply Z.divide_add_r; [exact DB|]; apply Z.divide_mul_r; etransitivity; [exact HD|exact D]|].
  split; [nia|]. split; [nia|]. intros y' Hy' Hlt. rewrite (RW y' Hy'). nia.
Qed.
Print Assumptions C40_rows.
Example C40_ex : image_request 32 100 3 4 = Some 1920 /\
  exists im, image_ctor 32 100 3 4 4096 = Some im /\ image_row im 2 = 4096 + 1280 /\ 4096 + 1280 + 99 * 4 + 32 <= 4096 + 1920.
Proof. split; [vm_compute; reflexivity|]. eexists. split; [vm_compute; reflexivity|]. split; [vm_compute; reflexivity|lia]. Qed.

(** C41 is false: a 1905-pixel byte image has 2048-byte rows. *)
Theorem C41_row_2k_refuted : exists vec xsize sizeof_t, bytes_per_row vec xsize sizeof_t = Some 2048.
Proof. exists 16, 1905, 1. vm_compute. reflexivity. Qed.
Print Assumptions C41_row_2k_refuted.

(** Exactly when it fails: the code always adds one alignment unit (it tests
    for a multiple of HWY_ALIGNMENT, which every rounded size is), so a row is a
    multiple of 2 KiB iff the rounded size is one unit short of one; row sizes
    that were a multiple of 2 KiB are moved away as intended unless the unit
    itself is a multiple of 2 KiB. *)
Theorem C41_row_2k_partial : forall vec xsize sizeof_t b rounded,
  1 <= vec -> (128 | Z.max vec 128) -> 1 <= xsize -> 1 <= sizeof_t -> (vec = 1 \/ sizeof_t <= vec) ->
  xsize * sizeof_t + 3 * vec + 256 < 2 ^ 62 ->
  rounded = ((xsize * sizeof_t + (if vec =? 1 then 0 else vec - sizeof_t) + Z.max vec 128 - 1) / Z.max vec 128) * Z.max vec 128 ->
  bytes_per_row vec xsize sizeof_t = Some b ->
  b = rounded + Z.max vec 128 /\
  ((2048 | b) <-> (2048 | rounded + Z.max vec 128)) /\
  ((2048 | rounded) -> ~ (2048 | Z.max vec 128) -> ~ (2048 | b)).
Proof.
  intros vec xsize sizeof_t b rounded Hv HD Hx Hs Hvs HB -> E.
  set (al := Z.max vec 128) in *.
  assert (Ev : (if vec =? 1 then wrap 64 (xsize * sizeof_t) else wrap 64 (wrap 64 (xsize * sizeof_t) + wrap 64 (vec - sizeof_t)))
     = xsize * sizeof_t + (if vec =? 1 then 0 else vec - sizeof_t)).
  { rewrite (wrap_small 64 (xsize * sizeof_t)) by nia. destruct (Z.eqb_spec vec 1); [lia|]. rewrite (wrap_small 64 (vec - sizeof_t)) by lia. apply wrap_small. nia. }
  unfold bytes_per_row in E. rewrite Ev in E. fold al in E. set (v := xsize * sizeof_t + (if vec =? 1 then 0 else vec - sizeof_t)) in *.
  assert (V : 0 <= v < 2 ^ 62 - 256) by (unfold v; destruct (Z.eqb_spec vec 1); nia).
  assert (AL : 128 <= al) by lia.
  assert (AL2 : al < 2 ^ 62) by lia.
  assert (R : RoundUpTo v al = Some ((v + al - 1) / al * al)).
  { unfold RoundUpTo, DivCeil. destruct (Z.eqb_spec al 0); [lia|]. f_equal.
    rewrite (wrap_small 64 (v + al)) by lia. rewrite (wrap_small 64 (v + al - 1)) by lia.
    apply wrap_small. pose proof (Z.mul_div_le (v + al - 1) al). pose proof (Z.div_pos (v + al - 1) al). nia. }
  rewrite R in E. set (q := (v + al - 1) / al) in *.
  assert (Q : 0 <= q * al < 2 ^ 63) by (unfold q; pose proof (Z.mul_div_le (v + al - 1) al); pose proof (Z.div_pos (v + al - 1) al); nia).
  replace (q * al mod 128 =? 0) with true in E.
  2:{ symmetry. apply Z.eqb_eq. apply Z.mod_divide; [lia|]. apply Z.divide_mul_r. exact HD. }
  injection E as <-. rewrite (wrap_small 64 (q * al + al)) by lia.
  split; [reflexivity|]. split; [reflexivity|]. intros D ND D2. apply ND. replace al with ((q * al + al) - q * al) by lia. now apply Z.divide_sub_r.
Qed.
Print Assumptions C41_row_2k_partial.
Example C41_ex : bytes_per_row 16 2033 1 = Some (2048 + 128) /\ bytes_per_row 16 1905 1 = Some 2048.
Proof. split; vm_compute; reflexivity. Qed.

(** C42 is false for Image3 built from planes of equal size but different
    strides: plane 1's row 1 is computed with plane 0's stride. *)
Theorem C42_image3_refuted : exists p0 p1 p2 i3,
  image_external 16 4 4 64 4096 = Some p0 /\ image_external 16 4 4 32 8192 = Some p1 /\ image_external 16 4 4 32 12288 = Some p2 /\
  image3_of_planes p0 p1 p2 = Some i3 /\ image3_row i3 1 1 <> image_row p1 1 /\
  (* plane 1 owns 4*32 bytes, row 3 is outside them *) 8192 + 4 * 32 <= image3_row i3 1 3.
Proof. do 4 eexists. repeat (split; [vm_compute; reflexivity|]). split; vm_compute; discriminate. Qed.
Print Assumptions C42_image3_refuted.
Theorem C42_image3_partial : forall p0 p1 p2 i3 c y, image3_of_planes p0 p1 p2 = Some i3 -> c = 0 \/ c = 1 \/ c = 2 ->
  im_bytes_per_row p0 = im_bytes_per_row p1 -> im_bytes_per_row p0 = im_bytes_per_row p2 ->
  image3_row i3 c y = image_row (if c =? 0 then p0 else if c =? 1 then p1 else p2) y.
Proof.
  intros p0 p1 p2 i3 c y H HC E1 E2. unfold image3_of_planes in H. destruct (negb _ || negb _); [discriminate|]. injection H as <-.
  destruct HC as [->|[->| ->]]; cbn; unfold image3_row, image_row; cbn; congruence.
Qed.
Print Assumptions C42_image3_partial.

(** C43: the reflected coordinate: r is in range and congruent to x or to
    -1-x modulo 2*xsize (mirror outside the last column, edge repeated);
    terminates for every x (here within 2|x|+2 steps). *)
Theorem C43_mirror : forall xsize x, 1 <= xsize < 2 ^ 61 -> - 2 ^ 62 <= x < 2 ^ 62 ->
  exists r fuel, mirror fuel x xsize = Some r /\ 0 <= r < xsize /\ ((2 * xsize | r - x) \/ (2 * xsize | r + x + 1)) /\ (0 <= x < xsize -> r = x).
Proof.
  intros xsize x Hx HR. destruct (mirror_ok xsize Hx (Z.to_nat (2 * Z.abs x + 2)) x HR) as (r & E & B & D); [destruct (Z.ltb_spec x 0); lia|].
  exists r, (Z.to_nat (2 * Z.abs x + 2)). split; [exact E|]. split; [exact B|]. split; [exact D|].
  intros HI. destruct (Z.to_nat (2 * Z.abs x + 2)) eqn:EF; [lia|]. cbn [mirror] in E. destruct (Z.ltb_spec x 0); [lia|]. destruct (Z.leb_spec xsize x); [lia|]. cbn [orb] in E. congruence.
Qed.
Print Assumptions C43_mirror.
(** row pointers: for at most ysize rows outside, WrapRowMirror returns the row
    of the mirrored coordinate *)
Theorem C43_wrap_row : forall first stride ysize y r fuel, 1 <= ysize < 2 ^ 61 -> 1 <= stride -> - ysize <= y < 2 * ysize ->
  mirror fuel y ysize = Some r ->
  wrap_row_mirror first (first + (ysize - 1) * stride) (first + y * stride) stride = first + r * stride.
Proof.
  intros first stride ysize y r fuel HY HS HR E.
  assert (ER : r = if y <? 0 then - y - 1 else if ysize <=? y then 2 * ysize - 1 - y else y).
  { destruct fuel as [|f]; [discriminate|]. cbn [mirror] in E. destruct (Z.ltb_spec y 0) as [H|H]; cbn [orb] in E.
    - destruct (_ && _); [|discriminate]. destruct f as [|f]; [discriminate|]. cbn [mirror] in E.
      destruct (Z.ltb_spec (- y - 1) 0); [lia|]. destruct (Z.leb_spec ysize (- y - 1)); [lia|]. cbn [orb] in E. congruence.
    - destruct (Z.leb_spec ysize y).
      + destruct (_ && _); [|discriminate]. destruct f as [|f]; [discriminate|]. cbn [mirror] in E.
        destruct (Z.ltb_spec (2 * ysize - 1 - y) 0); [lia|]. destruct (Z.leb_spec ysize (2 * ysize - 1 - y)); [lia|]. cbn [orb] in E. congruence.
      + congruence. }
  subst r. unfold wrap_row_mirror. destruct (Z.ltb_spec (first + y * stride) first); destruct (Z.ltb_spec y 0); try nia.
  destruct (Z.ltb_spec (first + (ysize - 1) * stride) (first + y * stride)); destruct (Z.leb_spec ysize y); nia.
Qed.
Print Assumptions C43_wrap_row.
Example C43_ex : mirror 9 (-1) 5 = Some 0 /\ mirror 9 5 5 = Some 4 /\ mirror 99 (-13) 5 = Some 2 /\
  wrap_row_mirror 1000 (1000 + 4 * 16) (1000 - 2 * 16) 16 = 1000 + 16.
Proof. repeat split; vm_compute; reflexivity. Qed.

(** C44: a clamped Rect, and Subrect, stay inside. Proved without overflow;
    false when begin + size_max wraps (e.g. size_max = SIZE_MAX for "all"). *)
Theorem C44_clamp_partial : forall xb yb xm ym xe ye, 0 <= xb < 2 ^ 64 -> 0 <= yb < 2 ^ 64 -> 0 <= xm -> 0 <= ym -> 0 <= xe < 2 ^ 64 -> 0 <= ye < 2 ^ 64 ->
  xb + xm < 2 ^ 64 -> yb + ym < 2 ^ 64 ->
  let r := rect_clamped xb yb xm ym xe ye in
  r_x0 r = xb /\ r_y0 r = yb /\
  forall x y, (xb <= x < xb + r_xsize r /\ yb <= y < yb + r_ysize r) <-> (xb <= x < Z.min (xb + xm) xe /\ yb <= y < Z.min (yb + ym) ye).
Proof. intros. subst r. cbn [rect_clamped r_x0 r_y0 r_xsize r_ysize]. rewrite !clamped_ok by lia. split; [reflexivity|]. split; [reflexivity|]. intros. lia. Qed.
Print Assumptions C44_clamp_partial.
Theorem C44_subrect_partial : forall R xb yb xm ym, 0 <= r_x0 R -> 0 <= r_y0 R -> 0 <= xb -> 0 <= yb -> 0 <= xm -> 0 <= ym -> 0 <= r_xsize R -> 0 <= r_ysize R ->
  r_x0 R + r_xsize R < 2 ^ 64 -> r_y0 R + r_ysize R < 2 ^ 64 -> r_x0 R + xb + xm < 2 ^ 64 -> r_y0 R + yb + ym < 2 ^ 64 ->
  let r := rect_subrect R xb yb xm ym in
  forall x y, (r_x0 r <= x < r_x0 r + r_xsize r /\ r_y0 r <= y < r_y0 r + r_ysize r) <->
    (r_x0 R + xb <= x < Z.min (r_x0 R + xb + xm) (r_x0 R + r_xsize R) /\ r_y0 R + yb <= y < Z.min (r_y0 R + yb + ym) (r_y0 R + r_ysize R)).
Proof.
  intros. subst r. unfold rect_subrect. rewrite (wrap_small 64 (r_x0 R + xb)), (wrap_small 64 (r_y0 R + yb)), (wrap_small 64 (r_x0 R + r_xsize R)), (wrap_small 64 (r_y0 R + r_ysize R)) by lia.
  cbn [rect_clamped r_x0 r_y0 r_xsize r_ysize]. rewrite !clamped_ok by lia. lia.
Qed.
Print Assumptions C44_subrect_partial.
Theorem C44_clamp_refuted : exists xb xm xe, 0 <= xb < 2 ^ 64 /\ 0 <= xm < 2 ^ 64 /\ 0 <= xe < 2 ^ 64 /\
  let r := rect_clamped xb 0 xm 1 xe 1 in xe < r_x0 r + r_xsize r.
Proof. exists 1, (2 ^ 64 - 1), 10. vm_compute. intuition congruence. Qed.
Print Assumptions C44_clamp_refuted.
Example C44_ex : rect_subrect {| r_x0 := 10; r_y0 := 20; r_xsize := 100; r_ysize := 50 |} 90 10 64 64 = {| r_x0 := 100; r_y0 := 30; r_xsize := 10; r_ysize := 40 |}.
Proof. vm_compute. reflexivity. Qed.

(** C45 is false: the external-memory constructor accepts memory aligned only
    to the vector size, but row pointers are annotated as 64-byte aligned. *)
Theorem C45_external_alignment_refuted : exists im, image_external 16 4 4 16 4112 = Some im /\ image_row im 0 mod 64 <> 0.
Proof. eexists. split; [vm_compute; reflexivity|]. vm_compute. discriminate. Qed.
Print Assumptions C45_external_alignment_refuted.

(** It holds where the vector size is a multiple of 64, or the caller's memory
    and stride are. *)
Theorem C45_external_alignment_partial : forall vec xsize ysize bpr aligned im y,
  0 < vec -> (64 | vec) \/ ((64 | bpr) /\ (64 | aligned)) ->
  image_external vec xsize ysize bpr aligned = Some im -> (64 | image_row im y).
Proof.
  intros vec xsize ysize bpr aligned im y Hv HA E. unfold image_external in E.
  destruct (Z.eqb_spec (bpr mod vec) 0) as [E1|]; [|discriminate]. destruct (Z.eqb_spec (aligned mod vec) 0) as [E2|]; [|discriminate].
  injection E as <-.
  assert (D : (64 | bpr) /\ (64 | aligned)).
  { destruct HA as [D|D]; [|exact D]. apply Z.mod_divide in E1, E2; try lia. split; etransitivity; eassumption. }
  destruct D as (D1 & D2). unfold image_row, wrap. cbn [im_bytes im_bytes_per_row].
  rewrite Z.add_mod_idemp_r by lia. apply Z.mod_divide; [lia|].
  change (2 ^ 64) with (64 * 2 ^ 58). rewrite Z.rem_mul_r by lia.
  rewrite Z.add_mod by lia. rewrite (Z.mul_comm 64), Z.mod_mul, Z.add_0_r, !Z.mod_mod by lia.
  apply Z.mod_divide; [lia|]. apply Z.divide_add_r; [exact D2|]. now apply Z.divide_mul_r.
Qed.
Print Assumptions C45_external_alignment_partial.
Example C45_ex : exists im, image_external 64 100 4 128 4096 = Some im /\ image_row im 3 = 4480.
Proof. eexists. split; [vm_compute; reflexivity|]. vm_compute. reflexivity. Qed.
