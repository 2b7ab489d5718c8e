(** Arrays and the vector memory operations the algorithms are written in.
    An array is a [list A]; vectors are lists of [N] lanes; an access outside
    the array yields [None] (a fault).  Indices are size_t values; an access at
    p + i uses the address (p + i) mod 2^64, in units of elements.
    The per-ISA implementations of these operations are not modelled: they are
    the semantics documented in g3doc/quick_reference.md (lines cited). *)
From Coq Require Import ZArith List Lia Bool.
From Verif Require Import Word.
Import ListNotations.
Local Open Scope Z_scope.

Section Arrays.
Context {A : Type}.

Definition zlen (l : list A) : Z := Z.of_nat (length l).

(** single element access: T x = p[i];  p[i] = x; *)
Definition rd (l : list A) (i : Z) : option A := if i <? 0 then None else nth_error l (Z.to_nat i).
Definition wr (l : list A) (i : Z) (x : A) : option (list A) :=
  if (0 <=? i) && (i <? zlen l) then Some (firstn (Z.to_nat i) l ++ x :: skipn (S (Z.to_nat i)) l) else None.

(** LoadU(d, p + off), quick_reference.md 1752-1758: [n] lanes, all accessed. *)
Definition loadu (l : list A) (off n : Z) : option (list A) :=
  if (0 <=? off) && (off + n <=? zlen l) then Some (firstn (Z.to_nat n) (skipn (Z.to_nat off) l)) else None.
(** StoreU(v, d, p + off), quick_reference.md 1790-1796. *)
Definition storeu (l : list A) (off : Z) (v : list A) : option (list A) :=
  if (0 <=? off) && (off + zlen v <=? zlen l)
  then Some (firstn (Z.to_nat off) l ++ v ++ skipn (Z.to_nat off + length v) l) else None.

(** FirstN(d, k), quick_reference.md: lane i true iff i < k. *)
Definition first_n (N k : Z) : list bool := map (fun i => Z.of_nat i <? k) (seq 0 (Z.to_nat N)).
Definition mask_not (m : list bool) : list bool := map negb m.
Definition mask_and (a b : list bool) : list bool := map (fun p : bool * bool => fst p && snd p) (combine a b).

(** MaskedLoadOr(no, m, d, p + off), quick_reference.md 1760-1768: lanes whose
    mask is false are not accessed and come from [no]. *)
Fixpoint masked_load_or (no : list A) (m : list bool) (l : list A) (off : Z) : option (list A) :=
  match m, no with
  | b :: m', x :: no' =>
      match (if b then rd l (wrap 64 off) else Some x), masked_load_or no' m' l (off + 1) with
      | Some y, Some t => Some (y :: t)
      | _, _ => None
      end
  | _, _ => Some []
  end.
Definition masked_load (zero : A) (m : list bool) (l : list A) (off : Z) : option (list A) :=
  masked_load_or (map (fun _ => zero) m) m l off.
(** LoadN / LoadNOr(no, d, p, k), quick_reference.md 1770-1782. *)
Definition load_n_or (no : list A) (N : Z) (l : list A) (off k : Z) : option (list A) :=
  masked_load_or no (first_n N k) l off.
Definition load_n (zero : A) (N : Z) (l : list A) (off k : Z) : option (list A) :=
  masked_load zero (first_n N k) l off.

(** BlendedStore(v, m, d, p + off), quick_reference.md 1798-1803: writes only
    the lanes whose mask is true. *)
Fixpoint blended_store (v : list A) (m : list bool) (l : list A) (off : Z) : option (list A) :=
  match v, m with
  | x :: v', b :: m' =>
      match (if b then wr l (wrap 64 off) x else Some l) with
      | Some l' => blended_store v' m' l' (off + 1)
      | None => None
      end
  | _, _ => Some l
  end.
(** StoreN(v, d, p, k), quick_reference.md 1820-1826. *)
Definition store_n (v : list A) (N : Z) (l : list A) (off k : Z) : option (list A) :=
  blended_store v (first_n N k) l off.

(** Lanes of [v] whose mask is true, in order (Compress). *)
Fixpoint select (v : list A) (m : list bool) : list A :=
  match v, m with
  | x :: v', b :: m' => if b then x :: select v' m' else select v' m'
  | _, _ => []
  end.
(** CompressBlendedStore(v, m, d, p + off), quick_reference.md 1595-1601:
    stores the selected lanes contiguously and returns their number.  Where
    [fault] (HWY_MEM_OPS_MIGHT_FAULT) the implementation may touch a whole
    vector at p (e.g. generic BlendedStore = load, blend, store), so all lanes
    must be inside the array. *)
Definition compress_blended_store (fault : bool) (v : list A) (m : list bool) (l : list A) (off : Z) : option (list A * Z) :=
  if fault && negb ((0 <=? off) && (off + zlen v <=? zlen l)) then None
  else match storeu l off (select v m) with
       | Some l' => Some (l', zlen (select v m))
       | None => None
       end.

(** FindFirstTrue(d, m), quick_reference.md 1494-1497: index or -1. *)
Fixpoint find_first_true_from (m : list bool) (i : Z) : Z :=
  match m with [] => -1 | b :: m' => if b then i else find_first_true_from m' (i + 1) end.
Definition find_first_true (m : list bool) : Z := find_first_true_from m 0.

Definition set (N : Z) (x : A) : list A := repeat x (Z.to_nat N).

(** IfThenElse(m, yes, no) *)
Definition if_then_else (m : list bool) (yes no : list A) : list A :=
  map (fun p : bool * (A * A) => if fst p then fst (snd p) else snd (snd p)) (combine m (combine yes no)).

End Arrays.
