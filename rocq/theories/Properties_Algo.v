(** Property theorems C13-C16 (contrib/algo).  Arrays may be exactly [count]
    long: any access outside them would make the model return [None]. *)
From Coq Require Import ZArith List Lia Bool.
From Verif Require Import Word Word_Proofs Vec_Model Vec_Proofs Algo_Model Algo_Proofs.
Import ListNotations.
Local Open Scope Z_scope.

(** C13: for every lane count N, both tail variants. *)
Theorem C13_fill : forall (A : Type) (N : Z) (fault : bool) (value : A) count to,
  1 <= N < 2 ^ 64 -> 0 <= count <= zlen to -> zlen to < 2 ^ 64 ->
  fill N fault value count to = Some (repeat value (Z.to_nat count) ++ skipn (Z.to_nat count) to).
Proof. intros. now apply fill_ok. Qed.
Print Assumptions C13_fill.
Theorem C13_copy : forall (A : Type) (zero : A) (N : Z) (fault : bool) from count to,
  1 <= N < 2 ^ 64 -> 0 <= count <= zlen to -> count <= zlen from -> zlen to < 2 ^ 64 -> zlen from < 2 ^ 64 ->
  copy zero N fault from count to = Some (firstn (Z.to_nat count) from ++ skipn (Z.to_nat count) to).
Proof. intros. now apply copy_ok. Qed.
Print Assumptions C13_copy.
Example C13_ex : fill 4 false 7 6 [0;1;2;3;4;5;6;8] = Some [7;7;7;7;7;7;6;8] /\
  copy 0 4 true [1;2;3;4;5;6] 6 [0;0;0;0;0;0;9] = Some [1;2;3;4;5;6;9].
Proof. split; vm_compute; reflexivity. Qed.

(** C14: the kept elements in order, nothing else in [to] changed, end pointer
    = number kept.  On targets where masked memory operations do not fault [to]
    only needs room for the kept elements; otherwise room for [count]. *)
Theorem C14_copy_if : forall (A : Type) (zero : A) (N : Z) (fault : bool) (p : A -> bool) (func func1 : list A -> list bool) from count to,
  1 <= N < 2 ^ 64 ->
  (forall v, zlen v = N -> func v = map p v) -> (forall y, func1 [y] = [p y]) ->
  0 <= count <= zlen from -> zlen from < 2 ^ 64 ->
  (if fault then count <= zlen to else zlen (filter p (firstn (Z.to_nat count) from)) <= zlen to) ->
  copy_if zero N fault func func1 from count to =
    let kept := filter p (firstn (Z.to_nat count) from) in Some (kept ++ skipn (length kept) to, zlen kept).
Proof. intros. now apply copy_if_ok. Qed.
Print Assumptions C14_copy_if.
Example C14_ex : let even v := map Z.even v in
  copy_if 0 4 false even even [2;4;1] 3 [9;9;9] = Some ([2;4;9], 2) /\       (* count < N: last wraps *)
  copy_if 0 4 false even even [1;2;3;4;5;6] 6 [9;9;9] = Some ([2;4;6], 3) /\ (* exact room *)
  copy_if 0 4 true even even [1;2;3;4;5;6] 6 [9;9;9;8;8;8] = Some ([2;4;6;8;8;8], 3).
Proof. repeat split; vm_compute; reflexivity. Qed.

(** C15: the least index whose element satisfies the predicate, else count;
    elements at or beyond [count] and padding are ignored. *)
Definition is_first_match {A} (p : A -> bool) (inp : list A) (count r : Z) : Prop :=
  0 <= r <= count /\ (forall j x, 0 <= j < r -> nth_error inp (Z.to_nat j) = Some x -> p x = false) /\
  (r < count -> exists x, nth_error inp (Z.to_nat r) = Some x /\ p x = true).
Theorem C15_find_if : forall (A : Type) (zero : A) (N : Z) (fault : bool) (p : A -> bool) (func func1 : list A -> list bool) inp count,
  1 <= N < 2 ^ 64 -> (forall v, zlen v = N -> func v = map p v) -> (forall y, func1 [y] = [p y]) ->
  0 <= count <= zlen inp -> zlen inp < 2 ^ 64 ->
  exists r, find_if zero N fault func func1 inp count = Some r /\ is_first_match p inp count r.
Proof. intros. now apply find_if_ok. Qed.
Print Assumptions C15_find_if.
Theorem C15_find : forall (A : Type) (zero : A) (N : Z) (fault : bool) (eqb : A -> A -> bool) value inp count,
  1 <= N < 2 ^ 64 -> 0 <= count <= zlen inp -> zlen inp < 2 ^ 64 ->
  exists r, find zero N fault eqb value inp count = Some r /\ is_first_match (eqb value) inp count r.
Proof. intros. unfold find. now apply find_if_ok. Qed.
Print Assumptions C15_find.
Example C15_ex : find 0 4 false Z.eqb 0 [5;6;7;8;9] 5 = Some 5 /\ find 0 4 false Z.eqb 0 [5;6;7;8;0;0] 6 = Some 4 /\
  find 0 4 true Z.eqb 0 [5;6;7;8;0] 4 = Some 4.
Proof. repeat split; vm_compute; reflexivity. Qed.

(** C16 *)
Theorem C16_transform : forall (A : Type) (zero : A) (N : Z) (f : A -> A) (func : list A -> list A) inout count,
  1 <= N < 2 ^ 64 -> 0 <= count <= zlen inout -> zlen inout < 2 ^ 64 -> (forall v, zlen v = N -> func v = map f v) ->
  transform zero N func inout count = Some (map f (firstn (Z.to_nat count) inout) ++ skipn (Z.to_nat count) inout).
Proof. intros. now apply transform_ok. Qed.
Print Assumptions C16_transform.
Theorem C16_transform1 : forall (A : Type) (zero : A) (N : Z) (f : A -> A -> A) (func : list A -> list A -> list A) inout count in1,
  1 <= N < 2 ^ 64 -> 0 <= count <= zlen inout -> count <= zlen in1 -> zlen inout < 2 ^ 64 -> zlen in1 < 2 ^ 64 ->
  (forall v v1, zlen v = N -> zlen v1 = N -> func v v1 = map (fun p => f (fst p) (snd p)) (combine v v1)) ->
  transform1 zero N func inout count in1 =
    Some (map (fun p => f (fst p) (snd p)) (firstn (Z.to_nat count) (combine inout in1)) ++ skipn (Z.to_nat count) inout).
Proof. intros. now apply transform1_ok. Qed.
Print Assumptions C16_transform1.
Theorem C16_transform2 : forall (A : Type) (zero : A) (N : Z) (f : A -> A -> A -> A) (func : list A -> list A -> list A -> list A) inout count in1 in2,
  1 <= N < 2 ^ 64 -> 0 <= count <= zlen inout -> count <= zlen in1 -> count <= zlen in2 ->
  zlen inout < 2 ^ 64 -> zlen in1 < 2 ^ 64 -> zlen in2 < 2 ^ 64 ->
  (forall v v1 v2, zlen v = N -> zlen v1 = N -> zlen v2 = N ->
     func v v1 v2 = map (fun p => f (fst p) (fst (snd p)) (snd (snd p))) (combine v (combine v1 v2))) ->
  transform2 zero N func inout count in1 in2 =
    Some (map (fun p => f (fst p) (fst (snd p)) (snd (snd p))) (firstn (Z.to_nat count) (combine inout (combine in1 in2)))
          ++ skipn (Z.to_nat count) inout).
Proof. intros. now apply transform2_ok. Qed.
Print Assumptions C16_transform2.
Theorem C16_replace_if : forall (A : Type) (zero : A) (N : Z) (p : A -> bool) (func : list A -> list bool) new_t inout count,
  1 <= N < 2 ^ 64 -> 0 <= count <= zlen inout -> zlen inout < 2 ^ 64 -> (forall v, zlen v = N -> func v = map p v) ->
  replace_if zero N new_t func inout count =
    Some (map (fun z => if p z then new_t else z) (firstn (Z.to_nat count) inout) ++ skipn (Z.to_nat count) inout).
Proof. intros. now apply replace_if_ok. Qed.
Print Assumptions C16_replace_if.
Theorem C16_replace : forall (A : Type) (zero : A) (N : Z) (eqb : A -> A -> bool) new_t old_t inout count,
  1 <= N < 2 ^ 64 -> 0 <= count <= zlen inout -> zlen inout < 2 ^ 64 ->
  replace zero N eqb new_t old_t inout count =
    Some (map (fun z => if eqb z old_t then new_t else z) (firstn (Z.to_nat count) inout) ++ skipn (Z.to_nat count) inout).
Proof. intros. unfold replace. now apply replace_if_ok with (p := fun x => eqb x old_t). Qed.
Print Assumptions C16_replace.
(** index lanes are i modulo 2^bits of the lane type *)
Theorem C16_generate : forall (A : Type) (N bits : Z) (f : Z -> A) (func : list Z -> list A) out count,
  1 <= N < 2 ^ 64 -> 0 < bits -> 0 <= count <= zlen out -> zlen out < 2 ^ 64 -> (forall v, zlen v = N -> func v = map f v) ->
  generate N bits func out count =
    Some (map (fun i => f (Z.of_nat i mod 2 ^ bits)) (seq 0 (Z.to_nat count)) ++ skipn (Z.to_nat count) out).
Proof. intros. now apply generate_ok. Qed.
Print Assumptions C16_generate.
(** the vectors passed to func hold in[0,count) in order, padded from [no] *)
Theorem C16_foreach : forall (A : Type) (N : Z) (no inp : list A) count,
  1 <= N < 2 ^ 64 -> zlen no = N -> 0 <= count <= zlen inp -> zlen inp < 2 ^ 64 ->
  exists tr, foreach N no inp count = Some tr /\ Forall (fun v => zlen v = N) tr /\
    concat tr = firstn (Z.to_nat count) inp ++ (if count mod N =? 0 then [] else skipn (Z.to_nat (count mod N)) no).
Proof. intros. now apply foreach_ok. Qed.
Print Assumptions C16_foreach.
Example C16_ex :
  transform 0 4 (map (Z.mul 3)) [1;2;3;4;5;6;7] 6 = Some [3;6;9;12;15;18;7] /\
  transform1 0 2 (fun v w => map (fun p => fst p + snd p) (combine v w)) [1;2;3] 3 [10;20;30] = Some [11;22;33] /\
  transform2 0 2 (fun v w u => map (fun p => fst p * fst (snd p) + snd (snd p)) (combine v (combine w u))) [1;2;3] 3 [10;20;30] [1;1;1] = Some [11;41;91] /\
  replace 0 4 Z.eqb 9 0 [0;1;0;1;0] 5 = Some [9;1;9;1;9] /\
  generate 4 2 (fun v => v) [7;7;7;7;7;7;7] 6 = Some [0;1;2;3;0;1;7] /\
  foreach 4 [7;8;9;10] [1;2;3;4;5;6] 6 = Some [[1;2;3;4];[5;6;9;10]].
Proof. repeat split; vm_compute; reflexivity. Qed.
