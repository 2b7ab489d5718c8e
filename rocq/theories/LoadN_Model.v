(** Model of LoadN, LoadNOr and StoreN: hwy/ops/generic_ops-inl.h 2405-2760 and 2760-2905 (targets whose masked operations might fault: SSE2-SSE4, NEON,
    PPC, and sanitizer builds), hwy/ops/x86_128-inl.h 3386-3633 and 8042-8166 (AVX2), hwy/ops/emu128-inl.h 1416-1434, 1462-1468.
    Vectors are lists of lanes of any type [A] (bfloat16 overloads only reinterpret the lanes); memory is a list of lanes, offsets are in lanes. None: an access outside it. *)
From Coq Require Import List Arith Bool Lia.
Import ListNotations.

Section LoadN.
Context {A : Type} (zero : A) (J : nat -> nat -> A). (* J: contents of undefined register lanes, per place in the code *)
Definition bind {X Y} (o : option X) (f : X -> option Y) : option Y := match o with Some x => f x | None => None end.
Notation "'do' x <- e ; f" := (bind e (fun x => f)) (at level 200, x pattern, e at level 100, f at level 200).

(** LoadU, a scalar read, StoreU *)
Definition loadu (mem : list A) (p k : nat) : option (list A) := if p + k <=? length mem then Some (firstn k (skipn p mem)) else None.
Definition elem (mem : list A) (p : nat) : option A := nth_error mem p.
Definition storeu (mem : list A) (p : nat) (v : list A) : option (list A) := if p + length v <=? length mem then Some (firstn p mem ++ v ++ skipn (p + length v) mem) else None.
(** Zero; zero extension (LoadNResizeBitCast 2416-2430, ZeroExtendVector); ResizeBitCast to a wider vector, whose upper lanes are undefined, or to a narrower one *)
Definition zeros (k : nat) : list A := repeat zero k.
Definition zext (k : nat) (v : list A) : list A := v ++ zeros (k - length v).
Definition resize (site k : nat) (v : list A) : list A := firstn k (v ++ map (J site) (seq 0 k)).
Definition insert_lane (v : list A) (i : nat) (x : A) : list A := firstn i v ++ x :: skipn (S i) v.
(** for vectors of n lanes *)
Definition concat_upper_lower (n : nat) (hi lo : list A) : list A := firstn (n / 2) lo ++ skipn (n / 2) hi.
Definition interleave_lower (n : nat) (a b : list A) : list A := flat_map (fun x => [fst x; snd x]) (combine (firstn (n / 2) a) (firstn (n / 2) b)).
Definition combine_halves (hi lo : list A) : list A := lo ++ hi.
Definition lower (n : nat) (v : list A) : list A := firstn (n / 2) v.
Definition upper (n : nat) (v : list A) : list A := skipn (n / 2) v.
Definition land (a b : nat) : nat := Nat.land a b.

(** ** generic LoadN *)
(** one lane 2435-2440 *)
Definition loadn1 (mem : list A) (p num : nat) : option (list A) := if 0 <? num then loadu mem p 1 else Some (zeros 1).
(** two lanes 2449-2459 *)
Definition loadn2 (mem : list A) (p num : nat) : option (list A) :=
  if 2 <=? num then loadu mem p 2 else if num =? 0 then Some (zeros 2) else do v <- loadu mem p 1; Some (zext 2 v).
(** four lanes 2471-2485 *)
Definition loadn4 (mem : list A) (p num : nat) : option (list A) :=
  if 4 <=? num then loadu mem p 4 else if num =? 0 then Some (zeros 4) else
  if num =? 1 then do v <- loadu mem p 1; Some (zext 4 v) else
  do v <- loadu mem p 2; let v_lo := zext 4 v in if num =? 2 then Some v_lo else do x <- elem mem (p + 2); Some (insert_lane v_lo 2 x).
(** the last up to three lanes, used by eight and sixteen lanes: 2515-2529, 2590-2604 *)
Definition trailing4 (mem : list A) (p num leading : nat) : option (list A) :=
  if negb (land num 2 =? 0) then
    do v2 <- loadu mem (p + leading) 2;
    if negb (land num 1 =? 0) then do v1 <- loadu mem (p + leading + 2) 1; Some (combine_halves (zext 2 v1) v2) else Some (zext 4 v2)
  else if negb (land num 1 =? 0) then do v1 <- loadu mem (p + leading) 1; Some (zext 4 v1)
  else Some (zeros 4).
(** eight lanes 2503-2536 *)
Definition loadn8 (mem : list A) (p num : nat) : option (list A) :=
  if 8 <=? num then loadu mem p 8 else if num =? 0 then Some (zeros 8) else
  if num =? 1 then do v <- loadu mem p 1; Some (zext 8 v) else
  let leading := land num 4 in do t <- trailing4 mem p num leading;
  if negb (leading =? 0) then do v <- loadu mem p 4; Some (combine_halves t v) else Some (zext 8 t).
(** sixteen lanes 2577-2620 *)
Definition loadn16 (mem : list A) (p num : nat) : option (list A) :=
  if 16 <=? num then loadu mem p 16 else if num =? 0 then Some (zeros 16) else
  if num =? 1 then do v <- loadu mem p 1; Some (zext 16 v) else
  let leading := land num 12 in do t <- trailing4 mem p num leading;
  if negb (leading =? 0) then
    if 8 <=? leading then
      do hi7 <- (if negb (land leading 4 =? 0) then do v <- loadu mem (p + 8) 4; Some (combine_halves t v) else Some (zext 8 t));
      do v <- loadu mem p 8; Some (combine_halves hi7 v)
    else do v <- loadu mem p 4; Some (zext 16 (combine_halves t v))
  else Some (zext 16 t).
Definition loadn_128 (L : nat) (mem : list A) (p num : nat) : option (list A) :=
  match L with 1 => loadn1 mem p num | 2 => loadn2 mem p num | 4 => loadn4 mem p num | 8 => loadn8 mem p num | _ => loadn16 mem p num end.
(** more than 16 bytes, 2678-2695: L * 2^k lanes *)
Fixpoint loadn (k L : nat) (mem : list A) (p num : nat) : option (list A) :=
  match k with
  | O => loadn_128 L mem p num
  | S k' =>
      let N := L * 2 ^ k in let half_N := L * 2 ^ k' in
      if N <=? num then loadu mem p N else
      if num <=? half_N then do v <- loadn k' L mem p num; Some (zext N v)
      else do v_lo <- loadu mem p half_N; do v_hi <- loadn k' L mem (p + half_N) (num - half_N); Some (combine_halves v_hi v_lo)
  end.

(** ** generic LoadNOr *)
(** one lane 2442-2447, two lanes 2460-2469 *)
Definition loadnor1 (no : list A) (mem : list A) (p num : nat) : option (list A) := if 0 <? num then loadu mem p 1 else Some no.
Definition loadnor2 (no : list A) (mem : list A) (p num : nat) : option (list A) :=
  if 2 <=? num then loadu mem p 2 else if num =? 0 then Some no else do v <- loadu mem p 1; Some (interleave_lower 2 (resize 0 2 v) no).
(** four lanes 2487-2501 *)
Definition loadnor4 (no : list A) (mem : list A) (p num : nat) : option (list A) :=
  if 4 <=? num then loadu mem p 4 else if num =? 0 then Some no else
  if num =? 1 then do x <- elem mem p; Some (insert_lane no 0 x) else
  do v <- loadu mem p 2; let v_lo := concat_upper_lower 4 no (resize 1 4 v) in if num =? 2 then Some v_lo else do x <- elem mem (p + 2); Some (insert_lane v_lo 2 x).
(** 2552-2567, 2636-2651 *)
Definition trailing4_or (no : list A) (mem : list A) (p num leading : nat) : option (list A) :=
  if negb (land num 2 =? 0) then
    do v2 <- loadu mem (p + leading) 2;
    if negb (land num 1 =? 0) then do v1 <- loadu mem (p + leading + 2) 1; Some (combine_halves (interleave_lower 2 (resize 2 2 v1) (resize 3 2 no)) v2)
    else Some (concat_upper_lower 4 (resize 4 4 no) (resize 5 4 v2))
  else if negb (land num 1 =? 0) then do x <- elem mem (p + leading); Some (insert_lane (resize 6 4 no) 0 x)
  else Some (resize 7 4 no).
(** eight lanes 2539-2574 *)
Definition loadnor8 (no : list A) (mem : list A) (p num : nat) : option (list A) :=
  if 8 <=? num then loadu mem p 8 else if num =? 0 then Some no else
  if num =? 1 then do x <- elem mem p; Some (insert_lane no 0 x) else
  let leading := land num 4 in do t <- trailing4_or no mem p num leading;
  if negb (leading =? 0) then do v <- loadu mem p 4; Some (combine_halves t v) else Some (concat_upper_lower 8 no (resize 8 8 t)).
(** sixteen lanes (bytes) 2623-2674; InterleaveLower of 32-bit lanes: the lowest four bytes of each operand *)
Definition loadnor16 (no : list A) (mem : list A) (p num : nat) : option (list A) :=
  if 16 <=? num then loadu mem p 16 else if num =? 0 then Some no else
  if num =? 1 then do x <- elem mem p; Some (insert_lane no 0 x) else
  let leading := land num 12 in do t <- trailing4_or no mem p num leading;
  if negb (leading =? 0) then
    if 8 <=? leading then
      do hi7 <- (if negb (land leading 4 =? 0) then do v <- loadu mem (p + 8) 4; Some (combine_halves t v) else Some (concat_upper_lower 8 (resize 9 8 no) (resize 10 8 t)));
      do v <- loadu mem p 8; Some (combine_halves hi7 v)
    else do v <- loadu mem p 4; Some (concat_upper_lower 16 no (resize 11 16 (combine_halves t v)))
  else Some (concat_upper_lower 16 no (resize 12 16 (firstn 4 t ++ firstn 4 no))).
Definition loadnor_128 (L : nat) (no mem : list A) (p num : nat) : option (list A) :=
  match L with 1 => loadnor1 no mem p num | 2 => loadnor2 no mem p num | 4 => loadnor4 no mem p num | 8 => loadnor8 no mem p num | _ => loadnor16 no mem p num end.
(** 2696-2713 *)
Fixpoint loadnor (k L : nat) (no mem : list A) (p num : nat) : option (list A) :=
  match k with
  | O => loadnor_128 L no mem p num
  | S k' =>
      let N := L * 2 ^ k in let half_N := L * 2 ^ k' in let no_h := lower N no in
      if N <=? num then loadu mem p N else
      if num <=? half_N then do v <- loadnor k' L no_h mem p num; Some (concat_upper_lower N no (resize 13 N v))
      else do v_lo <- loadu mem p half_N; do v_hi <- loadnor k' L no_h mem (p + half_N) (num - half_N); Some (combine_halves v_hi v_lo)
  end.

(** ** generic StoreN *)
(** one lane 2784-2790, two 2793-2802, four 2805-2824; StoreNGetUpperHalf is [upper] *)
Definition storen1 (v mem : list A) (p num : nat) : option (list A) := if 0 <? num then storeu mem p v else Some mem.
Definition storen2 (v mem : list A) (p num : nat) : option (list A) := if 1 <? num then storeu mem p v else if num =? 1 then storeu mem p (lower 2 v) else Some mem.
Definition storen4 (v mem : list A) (p num : nat) : option (list A) :=
  if 1 <? num then
    if 4 <=? num then storeu mem p v else
    do mem <- storeu mem p (resize 0 2 v); if num =? 3 then storeu mem (p + 2) (resize 1 1 (upper 4 v)) else Some mem
  else if num =? 1 then storeu mem p (resize 2 1 v) else Some mem.
(** eight 2826-2848, sixteen 2850-2872 *)
Definition storen8 (v mem : list A) (p num : nat) : option (list A) :=
  if num <=? 1 then if num =? 1 then storeu mem p (resize 3 1 v) else Some mem
  else if 8 <=? num then storeu mem p v
  else if 4 <=? num then do mem <- storeu mem p (lower 8 v); storen4 (upper 8 v) mem (p + 4) (num - 4)
  else storen4 (lower 8 v) mem p num.
Definition storen16 (v mem : list A) (p num : nat) : option (list A) :=
  if num <=? 1 then if num =? 1 then storeu mem p (resize 4 1 v) else Some mem
  else if 16 <=? num then storeu mem p v
  else if 8 <=? num then do mem <- storeu mem p (lower 16 v); storen8 (upper 16 v) mem (p + 8) (num - 8)
  else storen8 (lower 16 v) mem p num.
Definition storen_128 (L : nat) (v mem : list A) (p num : nat) : option (list A) :=
  match L with 1 => storen1 v mem p num | 2 => storen2 v mem p num | 4 => storen4 v mem p num | 8 => storen8 v mem p num | _ => storen16 v mem p num end.
(** 2875-2892 *)
Fixpoint storen (k L : nat) (v mem : list A) (p num : nat) : option (list A) :=
  match k with
  | O => storen_128 L v mem p num
  | S k' =>
      let N := L * 2 ^ k in let half_N := L * 2 ^ k' in
      if N <=? num then storeu mem p v else
      if num <=? half_N then storen k' L (lower N v) mem p num
      else do mem <- storeu mem p (lower N v); storen k' L (upper N v) mem (p + half_N) (num - half_N)
  end.

(** ** AVX2. R: lanes of the whole register *)
Definition first_n (R num : nat) : list bool := map (fun i => i <? num) (seq 0 R).
Definition flag (m : list bool) (i : nat) : bool := nth i m false.
(** MaskedLoad: only lanes with a true mask are read, the others are zero; MaskedLoadOr 3378-3383: from [no] *)
Fixpoint masked_load (m : list bool) (mem : list A) (p : nat) : option (list A) :=
  match m with
  | [] => Some []
  | b :: m => do x <- (if b then elem mem p else Some zero); do r <- masked_load m mem (p + 1); Some (x :: r)
  end.
Definition pick (m : list bool) (a b : list A) : list A := map (fun x : bool * (A * A) => if fst x then fst (snd x) else snd (snd x)) (combine m (combine a b)).
(** BlendedStore: only lanes with a true mask are written *)
Fixpoint blended_store (m : list bool) (v mem : list A) (p : nat) : option (list A) :=
  match m, v with
  | b :: m, x :: v => do mem <- (if b then storeu mem p [x] else Some mem); blended_store m v mem (p + 1)
  | _, _ => Some mem
  end.
(** the mask reinterpreted with lanes [g] times as wide: the sign bit is that of the last narrow lane *)
Definition widen (g : nat) (m : list bool) : list bool := map (fun i => flag m (i / g * g + g - 1)) (seq 0 (length m)).
(** 32- and 64-bit lanes: 3396-3421; a vector of N lanes in a register of R *)
Definition avx2_loadn_wide (N R : nat) (mem : list A) (p num : nat) : option (list A) := do v <- masked_load (first_n R num) mem p; Some (firstn N v).
Definition avx2_loadnor_wide (N R : nat) (no mem : list A) (p num : nat) : option (list A) :=
  let m := first_n R num in do v <- masked_load m mem p; Some (firstn N (pick m v (resize 20 R no))).
(** 8- and 16-bit lanes, g = lanes per 32 bits. Trailing part: 3481-3486, 3501-3512 and 3530-3551 for bytes, 3576-3586 for 16 bits. All lanes of Set(d, x) are x *)
Definition avx2_trailing (N R g : nat) (m : list bool) (mem : list A) (p num : nat) : option (list A) :=
  if N =? 1 then if 0 <? num then do v <- loadu mem p 1; Some (zext R v) else Some (zeros R)
  else if g =? 4 then
    if N =? 2 then if 1 <? num then do v <- loadu mem p 2; Some (zext R v) else if num =? 1 then do v <- loadu mem p 1; Some (zext R v) else Some (zeros R)
    else
      let trailing_n := land num 3 in
      if trailing_n =? 0 then Some (zeros R) else
      do x <- elem mem (p + num - 1); let t := pick m (repeat x R) (zeros R) in
      if negb (land trailing_n 2 =? 0) then
        do b <- loadu mem (p + num - trailing_n) 2; Some (pick (widen 2 m) (map (fun i => nth (i mod 2) b zero) (seq 0 R)) t)
      else Some t
  else if negb (land num 1 =? 0) then do x <- elem mem (p + num - 1); Some (pick m (repeat x R) (zeros R)) else Some (zeros R).
(** 3588-3609 with the leading part 3428-3433, 3441-3458; [cst]: num_lanes is a compile-time constant below g *)
Definition avx2_loadn (cst : bool) (N R g : nat) (mem : list A) (p max_lanes : nat) : option (list A) :=
  let m := first_n R max_lanes in let num := Nat.min max_lanes N in
  do t <- avx2_trailing N R g m mem p num;
  if cst && (num <? g) then Some (firstn N t) else
  if N * (4 / g) <=? 2 then Some (firstn N t) else
  do v <- masked_load (widen g m) mem p; Some (firstn N (pick (widen g m) v t)).
(** LoadNOr, 8- and 16-bit lanes: 3488-3494, 3514-3528, 3553-3574, 3588-3598, 3611-3633 *)
Definition avx2_trailing_or (N R g : nat) (no : list A) (m : list bool) (mem : list A) (p num : nat) : option (list A) :=
  if N =? 1 then if 0 <? num then do v <- loadu mem p 1; Some (zext R v) else Some no
  else if g =? 4 then
    if N =? 2 then if 1 <? num then do v <- loadu mem p 2; Some (zext R v) else if num =? 0 then Some no else do v <- loadu mem p 1; Some (interleave_lower R (zext R v) no)
    else
      let trailing_n := land num 3 in
      if trailing_n =? 0 then Some no else
      do x <- elem mem (p + num - 1); let t := pick m (repeat x R) no in
      if negb (land trailing_n 2 =? 0) then
        do b <- loadu mem (p + num - trailing_n) 2; Some (pick (widen 2 m) (map (fun i => nth (i mod 2) b zero) (seq 0 R)) t)
      else Some t
  else if negb (land num 1 =? 0) then do x <- elem mem (p + num - 1); Some (pick m (repeat x R) no) else Some no.
Definition avx2_loadnor (cst : bool) (N R g : nat) (no mem : list A) (p max_lanes : nat) : option (list A) :=
  let m := first_n R max_lanes in let num := Nat.min max_lanes N in let no := resize 21 R no in
  do t <- avx2_trailing_or N R g no m mem p num;
  if cst && (num <? g) then Some (firstn N t) else
  if N * (4 / g) <=? 2 then Some (firstn N t) else
  do v <- masked_load (widen g m) mem p; Some (firstn N (pick (widen g m) (pick (widen g m) v no) t)).
(** StoreN, 32- and 64-bit lanes 8050-8071 *)
Definition avx2_storen_wide (N : nat) (v mem : list A) (p num : nat) : option (list A) := blended_store (first_n N (Nat.min num N)) v mem p.
(** 8- and 16-bit lanes: one lane 8073-8080, two 8082-8090, more 8094-8164 *)
Definition avx2_storen (N R g : nat) (v mem : list A) (p max_lanes : nat) : option (list A) :=
  if N =? 1 then if 0 <? max_lanes then storeu mem p v else Some mem
  else if N =? 2 then
    if 1 <=? max_lanes then do mem <- storeu mem (p + (if 1 <? max_lanes then 1 else 0)) [nth 1 v zero]; storeu mem p [nth 0 v zero] else Some mem
  else
    let num := Nat.min max_lanes N in let m := first_n R num in let vi := resize 22 R v in
    do mem <- blended_store (widen g m) vi mem p;
    let trailing_n := land num (g - 1) in
    if trailing_n =? 0 then Some mem else
    (* SlideDownLanes of 32-bit lanes *)
    let t := zext R (skipn (num / g * g) vi) in
    if g =? 4 then
      if negb (land num 2 =? 0) then do mem <- storeu mem (p + num - 1) [nth 2 t zero]; storeu mem (p + num / 4 * 4) (firstn 2 t)
      else storeu mem (p + num - 1) [nth 0 t zero]
    else storeu mem (p + num - 1) [nth 0 t zero].
(** ** targets with native masked operations (AVX-512, SVE): generic_ops-inl.h 2737-2756, 2894-2908 *)
Definition masked_loadn (N : nat) (mem : list A) (p num : nat) : option (list A) := masked_load (first_n N num) mem p.
Definition masked_loadnor (N : nat) (no mem : list A) (p num : nat) : option (list A) := do v <- masked_load (first_n N num) mem p; Some (pick (first_n N num) v no).
Definition masked_storen (N : nat) (v mem : list A) (p num : nat) : option (list A) := blended_store (first_n N (Nat.min num N)) v mem p.
(** ** EMU128: 1416-1434, 1462-1468 *)
Definition emu_loadn (N : nat) (mem : list A) (p num : nat) : option (list A) := do v <- loadu mem p (Nat.min num N); Some (v ++ skipn (Nat.min num N) (zeros N)).
Definition emu_loadnor (N : nat) (no mem : list A) (p num : nat) : option (list A) := do v <- loadu mem p (Nat.min num N); Some (v ++ skipn (Nat.min num N) no).
Definition emu_storen (N : nat) (v mem : list A) (p num : nat) : option (list A) := storeu mem p (firstn (Nat.min num N) v).
End LoadN.
