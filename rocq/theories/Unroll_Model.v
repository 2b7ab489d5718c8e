(** Model of hwy/contrib/unroller/unroller-inl.h.
    A unit is a record of the functions the loops call (35-142); [XV] is what
    one (or two) Load calls return, output vectors and the array y are lists.
    ptrdiff_t arithmetic is unbounded here (the code requires n + 4 * lanes to
    fit); x and y do not overlap (HWY_RESTRICT). [L] is ActualLanes(), [Lmax]
    MaxUnitLanes(). Accesses outside an array are [None]. *)
From Coq Require Import ZArith List Bool.
From Verif Require Import Word Vec_Model Dot_Model.
Import ListNotations.
Local Open Scope Z_scope.

Record unroller_unit (XV B : Type) := Unit {
  u_func : Z -> XV -> list B -> list B;                           (* Func(idx, x, y) *)
  u_yinit : list B;                                               (* YInit() *)
  u_store : Z -> list B -> list B -> option (list B * bool);      (* StoreAndShortCircuit(idx, to, v) *)
  u_mask_store : Z -> list B -> list B -> Z -> option (list B * Z); (* MaskStore(idx, to, v, places) *)
  u_reduce : list B -> list B -> option (list B * Z);             (* Reduce(v, to) *)
  u_reduce3 : list B -> list B -> list B -> list B -> list B      (* Reduce(x0, x1, x2, &y) *)
}.
Arguments Unit {XV B}. Arguments u_func {XV B}. Arguments u_yinit {XV B}. Arguments u_store {XV B}.
Arguments u_mask_store {XV B}. Arguments u_reduce {XV B}. Arguments u_reduce3 {XV B}.

(** the mask of MaskLoadImpl and MaskStoreImpl (87-91, 112-116) *)
Definition places_mask (L places : Z) : list bool :=
  let mask := first_n L (wrap 64 places) in
  let maskneg := mask_not (first_n L (wrap 64 (places + L))) in
  if places <? 0 then maskneg else mask.
(** LoadImpl 70-72 *)
Definition load_impl {A} (L : Z) (x : list A) (idx : Z) : option (list A) := loadu x idx L.
(** MaskLoadImpl 85-94; [fill] is zero in the default implementation, units may override it *)
Definition mask_load_impl {A} (fill : A) (L : Z) (x : list A) (idx places : Z) : option (list A) :=
  masked_load fill (places_mask L places) x idx.
(** StoreAndShortCircuitImpl 100-103 *)
Definition store_impl {B} (idx : Z) (y v : list B) : option (list B * bool) := do y' <- storeu y idx v; Some (y', true).
(** MaskStoreImpl 110-120 *)
Definition mask_store_impl {B} (L : Z) (idx : Z) (y v : list B) (places : Z) : option (list B * Z) :=
  do y' <- blended_store v (places_mask L places) y idx; Some (y', Z.abs places).
(** ReduceImpl 124-129, 135-141 *)
Definition reduce_impl {B} (v y : list B) : option (list B * Z) := Some (y, 0).
Definition reduce3_impl {B} (x0 x1 x2 y : list B) : list B := y.

Section Unroller.
Context {XV B : Type} (f : unroller_unit XV B) (zero : B) (L n : Z).
(** the loads from x (and x1): f.Load, f.MaskLoad, and f.MaskLoad(0, xtmp, n) *)
Context (ld : Z -> option XV) (mld : Z -> Z -> option XV) (tmld : option XV).

Definition vecs4 : Type := (list B * list B * list B * list B)%type.
(** 327-350; [inl y]: returned early *)
Fixpoint loop4 (fuel : nat) (i : Z) (y : list B) (s : vecs4) : option (list B + (Z * list B * vecs4)) :=
  match fuel with
  | O => None
  | S fuel =>
    if i + 4 * L - 1 <? n then
      do xx <- ld i; do xx1 <- ld (i + L); do xx2 <- ld (i + L + L); do xx3 <- ld (i + L + L + L);
      let i := i + L + L + L - 3 * L in
      let '(yy, yy1, yy2, yy3) := s in
      let yy := u_func f i xx yy in
      let yy1 := u_func f (i + L) xx1 yy1 in
      let yy2 := u_func f (i + 2 * L) xx2 yy2 in
      let yy3 := u_func f (i + 3 * L) xx3 yy3 in
      do (y, c) <- u_store f i y yy; if negb c then Some (inl y) else
      let i := i + L in
      do (y, c) <- u_store f i y yy1; if negb c then Some (inl y) else
      let i := i + L in
      do (y, c) <- u_store f i y yy2; if negb c then Some (inl y) else
      let i := i + L in
      do (y, c) <- u_store f i y yy3; if negb c then Some (inl y) else
      loop4 fuel (i + L) y (yy, yy1, yy2, yy3)
    else Some (inr (i, y, s))
  end.
(** 355-360 *)
Fixpoint loop1 (fuel : nat) (i : Z) (y yy : list B) : option (list B + (Z * list B * list B)) :=
  match fuel with
  | O => None
  | S fuel =>
    if i + L - 1 <? n then
      do xx <- ld i;
      let yy := u_func f i xx yy in
      do (y, c) <- u_store f i y yy; if negb c then Some (inl y) else
      loop1 fuel (i + L) y yy
    else Some (inr (i, y, yy))
  end.
(** 290-369 (1 input: [small] = n < MaxUnitLanes) and 372-467 (2 inputs: [small] = n < ActualLanes).
    [fault] is HWY_MEM_OPS_MIGHT_FAULT; [garbage] the uninitialized rest of ytmp beyond the lanes Store(Zero) sets *)
Definition unroller (fault small : bool) (garbage y : list B) : option (list B) :=
  let yy := u_yinit f in
  if fault && small then
    do xx <- tmld;
    let yy := u_func f 0 xx yy in
    do ytmp <- storeu (repeat zero (Z.to_nat L) ++ garbage) 0 (repeat zero (Z.to_nat L));
    do (ytmp, i1) <- u_mask_store f 0 ytmp yy n;
    do (ytmp, i2) <- u_reduce f yy ytmp;
    do v <- loadu ytmp 0 (i1 + i2);
    storeu y 0 v
  else
    do r <- (if 4 * L <? n then
               do r <- loop4 (S (Z.to_nat n)) 0 y (yy, u_yinit f, u_yinit f, u_yinit f);
               match r with
               | inl y => Some (inl y)
               | inr (i, y, (yy, yy1, yy2, yy3)) => Some (inr (i, y, u_reduce3 f yy3 yy2 yy1 yy))
               end
             else Some (inr (0, y, yy)));
    match r with
    | inl y => Some y
    | inr (i, y, yy) =>
      do r <- loop1 (S (Z.to_nat n)) i y yy;
      match r with
      | inl y => Some y
      | inr (i, y, yy) =>
        do (y, yy) <- (if i =? n then Some (y, yy) else
                         do xx <- mld (n - L) (i - n);
                         let yy := u_func f (n - L) xx yy in
                         do (y, _) <- u_mask_store f (n - L) y yy (i - n); Some (y, yy));
        do (y, _) <- u_reduce f yy y; Some y
      end
    end.
End Unroller.

(** one input array; xtmp (303, 306) holds the first n elements and then [gx] *)
Definition unroller1 {A B} (f : unroller_unit (list A) B) (fill : A) (zero : B) (L Lmax : Z) (fault : bool) (gx : list A) (gy : list B) (x : list A) (y : list B) (n : Z) : option (list B) :=
  unroller f zero L n (load_impl L x) (mask_load_impl fill L x)
    (do c <- loadu x 0 n; mask_load_impl fill L (c ++ gx) 0 n) fault (n <? Lmax) gy y.
(** two input arrays *)
Definition unroller2 {A A' B} (f : unroller_unit (list A * list A') B) (fill : A) (fill' : A') (zero : B) (L : Z) (fault : bool) (gx : list A) (gx' : list A') (gy : list B)
    (x0 : list A) (x1 : list A') (y : list B) (n : Z) : option (list B) :=
  unroller f zero L n
    (fun i => do a <- load_impl L x0 i; do b <- load_impl L x1 i; Some (a, b))
    (fun i p => do a <- mask_load_impl fill L x0 i p; do b <- mask_load_impl fill' L x1 i p; Some (a, b))
    (do c <- loadu x0 0 n; do c' <- loadu x1 0 n; do a <- mask_load_impl fill L (c ++ gx) 0 n; do b <- mask_load_impl fill' L (c' ++ gx') 0 n; Some (a, b))
    fault (n <? L) gy y.

(** the units of the tests for element-wise maps (default stores) and reducers
    (AccumulateUnit / MinUnit / DotUnit, unroller_test.cc 172-330): no stores, Reduce writes *to *)
Definition map_unit {XV B} (L : Z) (yinit : list B) (func : Z -> XV -> list B -> list B) : unroller_unit XV B :=
  Unit func yinit store_impl (mask_store_impl L) reduce_impl reduce3_impl.
Definition reduce_unit {XV B} (op : B -> B -> B) (e : B) (L : Z) (func : Z -> XV -> list B -> list B) : unroller_unit XV B :=
  Unit func (repeat e (Z.to_nat L)) (fun _ y _ => Some (y, true)) (fun _ y _ _ => Some (y, 0))
    (fun v y => do y' <- wr y 0 (reduce_sum op e v); Some (y', 1))
    (fun x0 x1 x2 y => vadd op (vadd op y x0) (vadd op x1 x2)).
