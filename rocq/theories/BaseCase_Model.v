(** hwy/contrib/sort/vqsort-inl.h 240-607: BaseCase and the functions it
    dispatches to, in units of keys: lanes are grouped into keys of kLPK lanes, so
    lane offsets, counts and masks below are the C++ ones divided by kLPK (num_lanes
    is always a multiple of kLPK).  [keys] is the array of exactly num_lanes keys
    passed in, [buf] the caller's buffer. *)
From Coq Require Import ZArith List Bool.
From Verif Require Import Word Vec_Model Arith_Model Network_Model.
Import ListNotations.
Local Open Scope Z_scope.

Section BaseCase.
Context {K : Type}.
(** st.Compare on one key; pad = st.LastValue() *)
Variables (lt : K -> K -> bool) (pad : K).

(** Sort2 on one key: TraitsLane::Sort2 (traits-inl.h 547-553: First = Min/Max,
    Last = Max/Min for the order) and Traits128::Sort2 (traits128-inl.h: IfThenElse
    of the comparison); for a total order on bit patterns both are this. *)
Definition First (a b : K) : K := if lt a b then a else b.
Definition Last (a b : K) : K := if lt a b then b else a.
Notation net := (run First Last).

(** v_r = LoadU(d, p + r * stride) for each r in rs; w = Lanes(d) *)
Fixpoint load_rows (rs : list Z) (stride w : Z) (p : list K) : option (list (list K)) :=
  match rs with
  | [] => Some []
  | r :: rs => match loadu p (r * stride) w, load_rows rs stride w p with Some v, Some vs => Some (v :: vs) | _, _ => None end
  end.
(** StoreU(v_r, d, p + r * stride) for each r *)
Fixpoint store_rows (rs : list Z) (stride : Z) (vs : list (list K)) (p : list K) : option (list K) :=
  match rs, vs with
  | r :: rs, v :: vs => match storeu p (r * stride) v with Some p => store_rows rs stride vs p | None => None end
  | _, _ => Some p
  end.
(** MaskedLoadOr(kPadding, m_r, d, p + r * stride) / BlendedStore(v_r, m_r, d, p + r * stride) *)
Fixpoint load_rows_masked (rs : list Z) (ms : list (list bool)) (stride w : Z) (p : list K) : option (list (list K)) :=
  match rs, ms with
  | r :: rs, m :: ms =>
      match masked_load_or (set w pad) m p (r * stride), load_rows_masked rs ms stride w p with Some v, Some vs => Some (v :: vs) | _, _ => None end
  | _, _ => Some []
  end.
Fixpoint store_rows_masked (rs : list Z) (ms : list (list bool)) (stride : Z) (vs : list (list K)) (p : list K) : option (list K) :=
  match rs, ms, vs with
  | r :: rs, m :: ms, v :: vs => match blended_store v m p (r * stride) with Some p => store_rows_masked rs ms stride vs p | None => None end
  | _, _, _ => Some p
  end.
(** Gt(vnum_lanes, Add(kIota, o)): lane i true iff num > kMin + o + i *)
Definition gt_iota (w num start : Z) : list bool := map (fun i => start + Z.of_nat i <? num) (seq 0 (Z.to_nat w)).

(** 241-262; d = CappedTag<T, kLPK>: one key per vector *)
Definition sort_2_to_2 (keys buf : list K) : option (list K * list K) :=
  match load_rows [0; 1] 1 1 keys with
  | Some m => match store_rows [0; 1] 1 (net Sort2 m) keys with Some keys => Some (keys, buf) | None => None end
  | None => None
  end.

(** 264-298.  in_out3 is buf (3 keys) or keys + 3. *)
Definition sort_3_to_4 (keys : list K) (num : Z) (buf : list K) : option (list K * list K) :=
  match storeu buf 0 [pad] with
  | None => None
  | Some buf =>
      match load_rows [0; 1; 2] 1 1 keys, (if num =? 3 then loadu buf 0 1 else loadu keys 3 1) with
      | Some m, Some v3 =>
          let m := net Sort4 (m ++ [v3]) in
          match store_rows [0; 1; 2] 1 m keys with
          | None => None
          | Some keys =>
              if num =? 3 then match storeu buf 0 (nth 3 m []) with Some buf => Some (keys, buf) | None => None end
              else match storeu keys 3 (nth 3 m []) with Some keys => Some (keys, buf) | None => None end
          end
      | _, _ => None
      end
  end.

Section Rows.
(** [N]: keys in a full vector (Lanes(ScalableTag)); [R] = kRows, [w] = kKeysPerRow *)
Variables (N : Z) (R : nat) (w : Z).
Definition kMin : Z := Z.of_nat (R / 2) * w.
(** Lanes(CappedTag<T, kLanesPerRow>) *)
Definition vw : Z := Z.min N w.
Definition lower : list Z := map Z.of_nat (seq 0 (R / 2)).
Definition upper : list Z := map Z.of_nat (seq (R / 2) (R / 2)).

(** 302-335 CopyHalfToPaddedBuf: the padding loop 317-324 ... *)
Fixpoint pad_loop (fuel : nat) (Nmax : Z) (buf : list K) (i : Z) : option (list K) :=
  match fuel with
  | O => None
  | S f =>
      match storeu buf i (set Nmax pad) with
      | None => None
      | Some buf => let i := i + Nmax in if i <? (Z.of_nat R - 1) * w + vw then pad_loop f Nmax buf i else Some buf
      end
  end.
(** ... and the copy loop 326-331 *)
Fixpoint copy_loop (fuel : nat) (Nmax : Z) (keys buf : list K) (end_ : Z) : option (list K) :=
  match fuel with
  | O => None
  | S f =>
      let end_ := end_ - Nmax in
      match loadu keys end_ Nmax with
      | None => None
      | Some v =>
          match storeu buf end_ v with
          | None => None
          | Some buf => if kMin <? end_ then copy_loop f Nmax keys buf end_ else Some buf
          end
      end
  end.
Definition copy_half_to_padded_buf (keys : list K) (num : Z) (buf : list K) : option (list K) :=
  let Nmax := Z.min N kMin in
  match pad_loop (S (length buf)) Nmax buf (Z.land num (wrap 64 (Z.lnot (Nmax - 1)))) with
  | None => None
  | Some buf => copy_loop (S (length keys)) Nmax keys buf num
  end.
(** 409-415 / 536-542: for (; i + Nmax <= num_lanes; i += Nmax) *)
Fixpoint copy_back (fuel : nat) (buf keys : list K) (num i : Z) : option (list K * Z) :=
  match fuel with
  | O => None
  | S f =>
      if i + N <=? num then
        match loadu buf i N with
        | None => None
        | Some v => match storeu keys i v with None => None | Some keys => copy_back f buf keys num (i + N) end
        end
      else Some (keys, i)
  end.
(** SafeCopyN(remaining, dmax, buf + i, keys + i), generic_ops-inl.h 203-209:
    element by element *)
Fixpoint safe_copy_n (n : nat) (from to : list K) (i : Z) : option (list K) :=
  match n with
  | O => Some to
  | S n => match rd from i with Some x => match wr to i x with Some to => safe_copy_n n from to (i + 1) | None => None end | None => None end
  end.

(** 337-428 (R = 8) and 430-558 (R = 16) with HWY_MEM_OPS_MIGHT_FAULT; the two
    functions have the same text up to the number of rows *)
Definition sort_rows_fault (prog : list instr) (keys : list K) (num : Z) (buf : list K) : option (list K * list K) :=
  match load_rows lower w vw keys, copy_half_to_padded_buf keys num buf with
  | Some lo, Some buf =>
      match load_rows upper w vw buf with
      | None => None
      | Some hi =>
          let m := net prog (lo ++ hi) in
          match store_rows lower w (firstn (R / 2) m) keys, store_rows upper w (skipn (R / 2) m) buf with
          | Some keys, Some buf =>
              match copy_back (S (length keys)) buf keys num kMin with
              | None => None
              | Some (keys, i) => match safe_copy_n (Z.to_nat (num - i)) buf keys i with Some keys => Some (keys, buf) | None => None end
              end
          | _, _ => None
          end
      end
  | _, _ => None
  end.
(** the same without HWY_MEM_OPS_MIGHT_FAULT; [offs]: the multiples of
    kLanesPerRow added to kIota for each upper row *)
Definition sort_rows_masked (offs : list Z) (prog : list instr) (keys : list K) (num : Z) (buf : list K) : option (list K * list K) :=
  let ms := map (fun o => gt_iota vw num (kMin + o * w)) offs in
  match load_rows lower w vw keys, load_rows_masked upper ms w vw keys with
  | Some lo, Some hi =>
      let m := net prog (lo ++ hi) in
      match store_rows lower w (firstn (R / 2) m) keys with
      | None => None
      | Some keys => match store_rows_masked upper ms w (skipn (R / 2) m) keys with Some keys => Some (keys, buf) | None => None end
      end
  | _, _ => None
  end.
End Rows.

(** 377-380: 0, k1, k2, k2 + k1 *)
Definition offs8 : list Z := [0; 1; 2; 2 + 1].
(** 482-489: 0, k1, k2, k4 - k1, k4, k4 + k1, k4 + k2, k8 - k1 *)
Definition offs16 : list Z := [0; 1; 2; 4 - 1; 4; 4 + 1; 4 + 2; 8 - 1].

(** [fault] = HWY_MEM_OPS_MIGHT_FAULT; N = Lanes(d) / kLPK, maxN = MaxLanes(d) / kLPK *)
Variables (fault : bool) (N maxN : Z).
Definition sort_8_rows (w : nat) (keys : list K) (num : Z) (buf : list K) : option (list K * list K) :=
  if fault then sort_rows_fault N 8 (Z.of_nat w) (net8 w) keys num buf else sort_rows_masked N 8 (Z.of_nat w) offs8 (net8 w) keys num buf.
Definition sort_16_rows (w : nat) (keys : list K) (num : Z) (buf : list K) : option (list K * list K) :=
  if fault then sort_rows_fault N 16 (Z.of_nat w) (net16 w) keys num buf else sort_rows_masked N 16 (Z.of_nat w) offs16 (net16 w) keys num buf.

(** [big] = !HWY_COMPILER_MSVC && !HWY_IS_DEBUG_BUILD; shared-inl.h 46-54 kMaxCols *)
Variable big : bool.
Definition kMaxCols : Z := if big then 16 else 8.
(** 571-607: funcs[ceil_log2]; None in the table = nullptr *)
Definition funcs : list (option (list K -> Z -> list K -> option (list K * list K))) :=
  [ None;
    Some (fun keys _ buf => sort_2_to_2 keys buf);
    Some sort_3_to_4;
    Some (sort_8_rows 1);
    (if 2 <=? maxN then Some (sort_8_rows 2) else None);
    (if 4 <=? maxN then Some (sort_8_rows 4) else None);
    (if 4 <=? maxN then Some (sort_16_rows 4) else None);
    (if 8 <=? maxN then Some (sort_16_rows 8) else None);
    (if big && (16 <=? maxN) then Some (sort_16_rows 16) else None) ].
Definition base_case (keys : list K) (num : Z) (buf : list K) : option (list K * list K) :=
  if num <=? 1 then Some (keys, buf) else
  match Num0BitsAboveMS1Bit_Nonzero32 (wrap 32 (num - 1)) with
  | None => None
  | Some z => match nth_error funcs (Z.to_nat (32 - z)) with Some (Some f) => f keys num buf | _ => None end
  end.
End BaseCase.

(** shared-inl.h 64-69 BaseCaseNumLanes<kLPK>(Lanes(d)), in keys: N keys per
    vector of [lpk] lanes each *)
Definition base_case_num (big : bool) (lpk N : Z) : Z :=
  (if 4 <=? N then 16 else 8) * Z.min (N * lpk) (kMaxCols big) / lpk.
(** shared-inl.h 102-109 BufNum<T, kLPK>(Lanes(d)), in keys; samples =
    SampleLanes<T>() / kLPK = 2 * 64 / sizeof(key) *)
Definition buf_num (big : bool) (lpk N samples : Z) : Z :=
  Z.max (samples + base_case_num big lpk N + N) (2 * (3 * 4 + 1) * N).
