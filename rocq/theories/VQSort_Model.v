(** hwy/contrib/sort/vqsort-inl.h 1966-2205: Sort, PartialSort and Select for every key
    type (KeyAdapter 2142-2170), with the compile-time constants they derive from the
    target.  The recursion itself is in Recurse_Model. *)
From Coq Require Import ZArith List Bool.
From Verif Require Import Word Vec_Model BaseCase_Model Recurse_Model Traits_Model.
Import ListNotations.
Local Open Scope Z_scope.

(** Key types of VQSort, and the traits KeyAdapter picks for them.  [via_cmp] see [sort2]. *)
Inductive ktype := IntKey (signed : bool) (w : positive) | K32V32 | U128 | K64V64 | FloatKey (e p : positive).
Definition key (t : ktype) : Type := match t with IntKey _ w => word w | K32V32 => word 64 | U128 | K64V64 => word 128 | FloatKey e p => fkey e p end.
Definition key_traits (t : ktype) (desc via_cmp : bool) : traits (key t) :=
  match t with
  | IntKey signed w => int_traits signed w desc via_cmp
  | K32V32 => kv64_traits desc via_cmp
  | U128 => u128_traits desc
  | K64V64 => kv128_traits desc
  | FloatKey e p => float_traits e p desc via_cmp
  end.
(** Zero(d) *)
Definition key_zero (t : ktype) : key t :=
  match t with IntKey _ w => word_of w 0 | K32V32 => word_of 64 0 | U128 | K64V64 => word_of 128 0 | FloatKey e p => fk e p 0 end.
Definition is_float (t : ktype) : bool := match t with FloatKey _ _ => true | _ => false end.
(** sizeof(LaneType), LanesPerKey() *)
Definition lane_size (t : ktype) : Z := match t with IntKey _ w => Zpos w / 8 | FloatKey e p => (1 + Zpos e + Zpos p) / 8 | _ => 8 end.
Definition lanes_per_key (t : ktype) : Z := match t with U128 | K64V64 => 2 | _ => 1 end.
Definition key_size (t : ktype) : Z := lane_size t * lanes_per_key t.

(** Target and build: size of a vector of tag SortTag<T>, HWY_MAX_BYTES, !MSVC && !debug,
    HWY_MEM_OPS_MIGHT_FAULT, HWY_DASSERT enabled, VQSORT_ENABLED, [part] of Partition_Model *)
Record target : Type := { vec_bytes : Z; max_bytes : Z; big : bool; fault : bool; debug : bool; enabled : bool; part : bool }.

Section Consts.
Variables (c : target) (t : ktype).
(** keys per vector; Sort 1978-1983 caps vectors at 64 bytes *)
Definition vec_keys : Z := Z.min (vec_bytes c) 64 / key_size t.
(** MaxLanes(d) / LanesPerKey *)
Definition max_vec_keys : Z := (if 64 <? vec_bytes c then 64 else max_bytes c) / key_size t.
(** LanesPerChunk / LanesPerKey *)
Definition chunk_keys : Z := 64 / key_size t.
(** 2106: the local buffer, SortConstants::BufBytes<T, kLPK>(HWY_MAX_BYTES), in keys *)
Definition buf_keys : Z := buf_num (big c) (lanes_per_key t) (max_bytes c / key_size t) (2 * chunk_keys).
(** kPotentiallyHuge 1909 *)
Definition pot_huge : bool := 16 * kMaxCols (big c) <? max_bytes c / lane_size t.
End Consts.

(** 2103-2138.  [addr]: address of keys / key size; [buf]: uninitialized; [s]:
    GetGeneratorStateStatic().  Without NaN (no-op CountAndReplaceNaN). *)
Section API.
Variables (c : target) (t : ktype) (desc via_cmp : bool) (tail upper : list (key t) -> list bool -> list (key t)).
Notation N := (vec_keys c t).
Definition vq_sort (addr : Z) (keys buf : list (key t)) (s : rng) : option (list (key t) * rng) :=
  match sort_body (key_traits t desc via_cmp) N (max_vec_keys c t) (chunk_keys t) (lanes_per_key t) (big c) (fault c) (is_float t) (debug c) (key_zero t) tail upper (part c) (pot_huge c t) (enabled c) addr keys buf s with
  | Some (keys, _, s) => Some (keys, s)
  | None => None
  end.
Definition vq_partial_sort (addr : Z) (keys buf : list (key t)) (s : rng) (k : Z) : option (list (key t) * rng) :=
  match partial_sort_body (key_traits t desc via_cmp) N (max_vec_keys c t) (chunk_keys t) (lanes_per_key t) (big c) (fault c) (is_float t) (debug c) (key_zero t) tail upper (part c) (pot_huge c t) (enabled c) addr keys buf s k with
  | Some (keys, _, s) => Some (keys, s)
  | None => None
  end.
Definition vq_select (addr : Z) (keys buf : list (key t)) (s : rng) (k : Z) : option (list (key t) * rng) :=
  match select_body (key_traits t desc via_cmp) N (max_vec_keys c t) (chunk_keys t) (lanes_per_key t) (big c) (fault c) (is_float t) (debug c) (key_zero t) tail upper (part c) (pot_huge c t) (enabled c) addr keys buf s k with
  | Some (keys, _, s) => Some (keys, s)
  | None => None
  end.
End API.

(** Floating-point arrays of any bit patterns: 1985 CountAndReplaceNaN before and
    1997-1999 Fill with NaN(d) after.  [raw] are bit patterns; after replacement of NaN
    they are keys. *)
Section Float.
Variables (c : target) (e p : positive) (desc via_cmp : bool).
Notation t := (FloatKey e p).
Variables (tail upper : list (key t) -> list bool -> list (key t)).
(** NaN(d): all bits but the sign (generic_ops-inl.h 82-88) *)
Definition canonical_nan : Z := fsign e p - 1.
Definition sentinel : Z := if desc then fneg e p (finf e p) else finf e p.
Definition with_nan (body : list (key t) -> option (list (key t) * rng)) (raw : list Z) : option (list Z * rng) :=
  match count_and_replace_nan (is_nan e p) sentinel 0 (vec_keys c t) raw with
  | None => None
  | Some (raw, num_nan) =>
      match body (map (fk e p) raw) with
      | None => None
      | Some (keys, s) =>
          match fill_nan canonical_nan (map (@proj1_sig _ _) keys) num_nan with
          | None => None
          | Some raw => Some (raw, s)
          end
      end
  end.
Definition vq_sort_float (addr : Z) (raw : list Z) (buf : list (key t)) (s : rng) : option (list Z * rng) :=
  with_nan (fun keys => vq_sort c t desc via_cmp tail upper addr keys buf s) raw.
Definition vq_partial_sort_float (addr : Z) (raw : list Z) (buf : list (key t)) (s : rng) (k : Z) : option (list Z * rng) :=
  with_nan (fun keys => vq_partial_sort c t desc via_cmp tail upper addr keys buf s k) raw.
Definition vq_select_float (addr : Z) (raw : list Z) (buf : list (key t)) (s : rng) (k : Z) : option (list Z * rng) :=
  with_nan (fun keys => vq_select c t desc via_cmp tail upper addr keys buf s k) raw.
End Float.
