(** Model of hwy/bit_set.h. [None] = undefined behaviour (shift count >= 64,
    out-of-bounds access of bits_, or bit scan of zero). *)
From Coq Require Import ZArith List Bool.
From Verif Require Import Word Arith_Model.
Import ListNotations.
Local Open Scope Z_scope.

Definition bind {A B} (x : option A) (f : A -> option B) : option B :=
  match x with Some a => f a | None => None end.

(* ------------------------- BitSet64, bit_set.h:28-79 ------------------ *)
(** The state is the uint64_t bits_ (line 78, initially 0). *)
Definition bs64_init : Z := 0.

(** 1ULL << i; undefined for i >= 64. *)
Definition bit (i : Z) : option Z :=
  if (0 <=? i) && (i <? 64) then Some (wrap 64 (Z.shiftl 1 i)) else None.

(** bit_set.h:31-35 *)
Definition bs64_Set (b i : Z) : option Z := bind (bit i) (fun m => Some (Z.lor b m)).
(** bit_set.h:39 *)
Definition bs64_SetNonzeroBitsFrom64 (b bits : Z) : Z := Z.lor b bits.
(** bit_set.h:41-44; ~ on uint64_t. *)
Definition bs64_Clear (b i : Z) : option Z :=
  bind (bit i) (fun m => Some (Z.land b (wrap 64 (Z.lnot m)))).
(** bit_set.h:46-49 *)
Definition bs64_Get (b i : Z) : option bool :=
  bind (bit i) (fun m => Some (negb (Z.land b m =? 0))).
(** bit_set.h:52 *)
Definition bs64_Any (b : Z) : bool := negb (b =? 0).
(** bit_set.h:55-58 (fallback branch of the bit scan, see C04). *)
Definition bs64_First (b : Z) : option Z := Num0BitsBelowLS1Bit_Nonzero64_fallback b.
(** bit_set.h:61 *)
Definition bs64_Get64 (b : Z) : Z := b.
(** bit_set.h:66-73: the sequence of arguments passed to func.  [fuel] bounds
    the while loop; [None] when exhausted. *)
Fixpoint bs64_Foreach_loop (fuel : nat) (remaining : Z) : option (list Z) :=
  match fuel with
  | O => None
  | S f =>
    if negb (remaining =? 0) then
      bind (Num0BitsBelowLS1Bit_Nonzero64_fallback remaining) (fun i =>
      bind (bs64_Foreach_loop f (Z.land remaining (wrap 64 (remaining - 1)))) (fun rest =>
      Some (i :: rest)))
    else Some []
  end.
Definition bs64_Foreach (b : Z) : option (list Z) := bs64_Foreach_loop 65 b.
(** bit_set.h:75 *)
Definition bs64_Count (b : Z) : Z := PopCount64 b.

(* ------------------------- BitSet4096, bit_set.h:82-154 --------------- *)
Record bs4096 := { nonzero : Z; words : list Z }.

(** bit_set.h:152-153: nonzero_ and the array bits_[kMaxSize / 64]. *)
Definition bs4096_init (kMaxSize : Z) : bs4096 :=
  {| nonzero := 0; words := repeat 0 (Z.to_nat (kMaxSize / 64)) |}.

(** bits_[idx]: undefined if idx is not below the array length. *)
Definition word_at (s : bs4096) (idx : Z) : option Z :=
  if 0 <=? idx then nth_error (words s) (Z.to_nat idx) else None.

Fixpoint upd (l : list Z) (n : nat) (x : Z) : list Z :=
  match l, n with
  | [], _ => []
  | _ :: l', O => x :: l'
  | y :: l', S n' => y :: upd l' n' x
  end.

(** bit_set.h:86-93 *)
Definition bs4096_Set (s : bs4096) (i : Z) : option bs4096 :=
  let idx := i / 64 in let m := i mod 64 in
  bind (word_at s idx) (fun w =>
  bind (bs64_Set w m) (fun w' =>
  bind (bs64_Set (nonzero s) idx) (fun nz =>
  Some {| nonzero := nz; words := upd (words s) (Z.to_nat idx) w' |}))).

(** bit_set.h:97-100 *)
Definition bs4096_SetNonzeroBitsFrom64 (s : bs4096) (bits : Z) : option bs4096 :=
  bind (word_at s 0) (fun w =>
  let ws := upd (words s) 0 (bs64_SetNonzeroBitsFrom64 w bits) in
  if negb (bits =? 0)
  then bind (bs64_Set (nonzero s) 0) (fun nz => Some {| nonzero := nz; words := ws |})
  else Some {| nonzero := nonzero s; words := ws |}).

(** bit_set.h:102-111 *)
Definition bs4096_Clear (s : bs4096) (i : Z) : option bs4096 :=
  let idx := i / 64 in let m := i mod 64 in
  bind (word_at s idx) (fun w =>
  bind (bs64_Clear w m) (fun w' =>
  let ws := upd (words s) (Z.to_nat idx) w' in
  if negb (bs64_Any w')
  then bind (bs64_Clear (nonzero s) idx) (fun nz => Some {| nonzero := nz; words := ws |})
  else Some {| nonzero := nonzero s; words := ws |})).

(** bit_set.h:113-118 *)
Definition bs4096_Get (s : bs4096) (i : Z) : option bool :=
  bind (word_at s (i / 64)) (fun w => bs64_Get w (i mod 64)).

(** bit_set.h:121 *)
Definition bs4096_Any (s : bs4096) : bool := bs64_Any (nonzero s).

(** bit_set.h:124-128 *)
Definition bs4096_First (s : bs4096) : option Z :=
  bind (bs64_First (nonzero s)) (fun idx =>
  bind (word_at s idx) (fun w =>
  bind (bs64_First w) (fun r => Some (wrap 64 (idx * 64 + r))))).

(** bit_set.h:131 *)
Definition bs4096_Get64 (s : bs4096) : option Z := word_at s 0.

(** body of the outer Foreach lambda over the summary indices *)
Fixpoint bs4096_Foreach_over (s : bs4096) (idxs : list Z) : option (list Z) :=
  match idxs with
  | [] => Some []
  | idx :: rest =>
    bind (word_at s idx) (fun w =>
    bind (bs64_Foreach w) (fun ms =>
    bind (bs4096_Foreach_over s rest) (fun tl =>
    Some (map (fun m => wrap 64 (idx * 64 + m)) ms ++ tl))))
  end.

(** bit_set.h:137-141 (func does not modify the set). *)
Definition bs4096_Foreach (s : bs4096) : option (list Z) :=
  bind (bs64_Foreach (nonzero s)) (bs4096_Foreach_over s).

Fixpoint bs4096_Count_over (s : bs4096) (total : Z) (idxs : list Z) : option Z :=
  match idxs with
  | [] => Some total
  | idx :: rest =>
    bind (word_at s idx) (fun w => bs4096_Count_over s (wrap 64 (total + bs64_Count w)) rest)
  end.

(** bit_set.h:143-148 *)
Definition bs4096_Count (s : bs4096) : option Z :=
  bind (bs64_Foreach (nonzero s)) (bs4096_Count_over s 0).

(* ------------------------- operation histories ------------------------ *)
Inductive op := OSet (i : Z) | OClear (i : Z) | OSetNZ (bits : Z).

Definition bs64_step (b : Z) (o : op) : option Z :=
  match o with
  | OSet i => bs64_Set b i
  | OClear i => bs64_Clear b i
  | OSetNZ bits => Some (bs64_SetNonzeroBitsFrom64 b bits)
  end.
Fixpoint bs64_run (b : Z) (ops : list op) : option Z :=
  match ops with [] => Some b | o :: os => bind (bs64_step b o) (fun b' => bs64_run b' os) end.

Definition bs4096_step (s : bs4096) (o : op) : option bs4096 :=
  match o with
  | OSet i => bs4096_Set s i
  | OClear i => bs4096_Clear s i
  | OSetNZ bits => bs4096_SetNonzeroBitsFrom64 s bits
  end.
Fixpoint bs4096_run (s : bs4096) (ops : list op) : option bs4096 :=
  match ops with [] => Some s | o :: os => bind (bs4096_step s o) (fun s' => bs4096_run s' os) end.
