(** hwy/contrib/random/random-inl.h: SplitMix64, Xoshiro (xoshiro256++),
    VectorXoshiro and CachedXoshiro.  uint64_t values are [Z] in [0, 2^64). *)
From Coq Require Import ZArith NArith List Bool.
From Verif Require Import Word Vec_Model Float_Spec Float_Model.
Import ListNotations.
Local Open Scope Z_scope.

(** kJump and kLongJump, random-inl.h:50-54. *)
Definition kJump : list Z := [0x180ec6d33cfd0aba; 0xd5a61266f0c9392c; 0xa9582618e03fc9aa; 0x39abdc4529b1661c].
Definition kLongJump : list Z := [0x76e15d3efefdcbbf; 0xc5004e441c522fb3; 0x77710069854ee241; 0x39109bb02acbe635].

(** SplitMix64::operator(), random-inl.h:62-67: new state and result. *)
Definition split_mix (state : Z) : Z * Z :=
  let state' := wrap 64 (state + 0x9e3779b97f4a7c15) in
  let z := state' in
  let z := wrap 64 (Z.lxor z (Z.shiftr z 30) * 0xbf58476d1ce4e5b9) in
  let z := wrap 64 (Z.lxor z (Z.shiftr z 27) * 0x94d049bb133111eb) in
  (state', Z.lxor z (Z.shiftr z 31)).

(** state_[0..3] of Xoshiro. *)
Definition st : Type := Z * Z * Z * Z.

(** Xoshiro::Xoshiro(seed), random-inl.h:75-81. *)
Definition xoshiro_seed (seed : Z) : st :=
  let (m, e0) := split_mix seed in
  let (m, e1) := split_mix m in
  let (m, e2) := split_mix m in
  let (_, e3) := split_mix m in
  (e0, e1, e2, e3).

(** Xoshiro::Rotl, random-inl.h:127-129. *)
Definition rotl (x k : Z) : Z := Z.lor (wrap 64 (Z.shiftl x k)) (Z.shiftr x (64 - k)).

(** Xoshiro::Next, random-inl.h:131-145: result and new state. *)
Definition next (s : st) : Z * st :=
  let '(s0, s1, s2, s3) := s in
  let result := wrap 64 (rotl (wrap 64 (s0 + s3)) 23 + s0) in
  let t := wrap 64 (Z.shiftl s1 17) in
  let s2 := Z.lxor s2 s0 in
  let s3 := Z.lxor s3 s1 in
  let s1 := Z.lxor s1 s2 in
  let s0 := Z.lxor s0 s3 in
  let s2 := Z.lxor s2 t in
  let s3 := rotl s3 45 in
  (result, (s0, s1, s2, s3)).

(** Loop body of Jump, random-inl.h:153-162: [acc] is the local s0..s3. *)
Definition xor_state (a s : st) : st :=
  let '(a0, a1, a2, a3) := a in
  let '(s0, s1, s2, s3) := s in
  (Z.lxor a0 s0, Z.lxor a1 s1, Z.lxor a2 s2, Z.lxor a3 s3).
Definition jump_bit (i : Z) (p : st * st) (b : Z) : st * st :=
  let (acc, s) := p in
  ((if Z.land i (wrap 64 (Z.shiftl 1 b)) =? 0 then acc else xor_state acc s), snd (next s)).

(** Xoshiro::Jump(jumpArray), random-inl.h:147-169. *)
Definition jump (jumpArray : list Z) (s : st) : st :=
  fst (fold_left (fun p i => fold_left (jump_bit i) (map Z.of_nat (seq 0 64)) p) jumpArray ((0, 0, 0, 0), s)).

(** for (i = 0; i < n; ++i) f();   n is a uint64_t. *)
Definition repeat_call {A} (n : Z) (f : A -> A) (x : A) : A := N.iter (Z.to_N n) f x.

(** Xoshiro::Xoshiro(seed, thread_id), random-inl.h:83-89. *)
Definition xoshiro_thread (seed thread_id : Z) : st := repeat_call thread_id (jump kJump) (xoshiro_seed seed).

(** static_cast<double>(x) of a uint64_t, and double multiplication of
    non-negative finite operands, both rounded to nearest even (see
    Float_Model.ieee_round; units of 2^-1074).  The products computed below are
    multiples of 2^-53, so the division is exact. *)
Definition f64_of_uint (x : Z) : Z := ieee_round binary64 (x * 2 ^ 1074).
Definition f64_mul_mag (a b : Z) : Z := ieee_round binary64 (mag_value binary64 a * mag_value binary64 b / 2 ^ 1074).
(** kMulConst, random-inl.h:40-46: the bits of 0x1.0p-53; without hexfloat
    support the decimal literal 0.d with 53 digits d = [kMulConst_digits]. *)
Definition kMulConst : Z := 0x3CA0000000000000.
Definition kMulConst_digits : Z := 11102230246251565404236316680908203125.
(** Xoshiro::Uniform, random-inl.h:94-96, and each lane of VectorXoshiro::Uniform
    (ShiftRight<11>, ConvertTo, Mul; 248-254), as a function of the random word. *)
Definition uniform (r : Z) : Z := f64_mul_mag (f64_of_uint (Z.shiftr r 11)) kMulConst.

(* ------------------------------------------------------------------ *)
(** ** VectorXoshiro *)

(** state_: rows 0..3, each with [streams] = Lanes(d) elements. *)
Record vgen := { row0 : list Z; row1 : list Z; row2 : list Z; row3 : list Z }.

(** Constructor, random-inl.h:181-199: xoshiro.LongJump() threadNumber times;
    then for each lane i: column i = xoshiro's state; xoshiro.Jump(). *)
Fixpoint fill_columns (streams : nat) (s : st) : vgen :=
  match streams with
  | O => {| row0 := []; row1 := []; row2 := []; row3 := [] |}
  | S n =>
      let '(s0, s1, s2, s3) := s in
      let g := fill_columns n (jump kJump s) in
      {| row0 := s0 :: row0 g; row1 := s1 :: row1 g; row2 := s2 :: row2 g; row3 := s3 :: row3 g |}
  end.
Definition vector_xoshiro (N seed threadNumber : Z) : vgen :=
  fill_columns (Z.to_nat N) (repeat_call threadNumber (jump kLongJump) (xoshiro_seed seed)).

(** Lane-wise operations (g3doc/quick_reference.md: Add, Xor, ShiftLeft<k>,
    RotateRight<k> on u64 lanes). *)
Definition vmap2 (f : Z -> Z -> Z) (a b : list Z) : list Z := map (fun p => f (fst p) (snd p)) (combine a b).
Definition vadd (a b : list Z) : list Z := vmap2 (fun x y => wrap 64 (x + y)) a b.
Definition vxor (a b : list Z) : list Z := vmap2 Z.lxor a b.
Definition vshl (k : Z) (a : list Z) : list Z := map (fun x => wrap 64 (Z.shiftl x k)) a.
Definition vshr (k : Z) (a : list Z) : list Z := map (fun x => Z.shiftr x k) a.
Definition vrotr (k : Z) (a : list Z) : list Z :=
  map (fun x => Z.lor (Z.shiftr x k) (wrap 64 (Z.shiftl x (64 - k)))) a.

(** VectorXoshiro::Update, random-inl.h:315-326. *)
Definition update (g : vgen) : list Z * vgen :=
  let s0 := row0 g in let s1 := row1 g in let s2 := row2 g in let s3 := row3 g in
  let result := vadd (vrotr 41 (vadd s0 s3)) s0 in
  let t := vshl 17 s1 in
  let s2 := vxor s2 s0 in
  let s3 := vxor s3 s1 in
  let s1 := vxor s1 s2 in
  let s0 := vxor s0 s3 in
  let s2 := vxor s2 t in
  let s3 := vrotr 19 s3 in
  (result, {| row0 := s0; row1 := s1; row2 := s2; row3 := s3 |}).

(** The loop of operator()(n) and operator()<N>() (random-inl.h:210-213 and
    229-232) and of Uniform(n), Uniform<N>() (267-273 and 294-300, where [post]
    is the conversion to double): Store(post(next), tag, result.data() + i) for
    i = 0, Lanes, 2 * Lanes, .. below n.  [None]: a store outside the array.
    The state rows are loaded before and stored after the loop.  Simplified: i is
    a mathematical integer (no array has 2^64 - Lanes elements). *)
Fixpoint gen_loop {B} (fuel : nat) (N n i : Z) (post : Z -> B) (g : vgen) (result : list B) : option (list B * vgen) :=
  match fuel with
  | O => None
  | S fuel' =>
      if i <? n then
        let (v, g') := update g in
        match storeu result i (map post v) with
        | Some result' => gen_loop fuel' N n (i + N) post g' result'
        | None => None
        end
      else Some (result, g)
  end.
(** AlignedVector<T> result(n), zero-initialised, then the loop. *)
Definition generate {B} (zero : B) (N n : Z) (post : Z -> B) (g : vgen) : option (list B * vgen) :=
  gen_loop (S (Z.to_nat n)) N n 0 post g (repeat zero (Z.to_nat n)).

(* ------------------------------------------------------------------ *)
(** ** CachedXoshiro, random-inl.h:344-381 *)
Record cached := { generator_ : vgen; cache_ : list Z; index_ : Z }.

(** Constructor 356-360. *)
Definition cached_new (N size seed threadNumber : Z) : option cached :=
  match generate 0 N size (fun x => x) (vector_xoshiro N seed threadNumber) with
  | Some (c, g) => Some {| generator_ := g; cache_ := c; index_ := 0 |}
  | None => None
  end.
(** operator(), 362-368. *)
Definition cached_next (N size : Z) (c : cached) : option (Z * cached) :=
  let refilled :=
    if index_ c =? size then
      match generate 0 N size (fun x => x) (generator_ c) with
      | Some (a, g) => Some {| generator_ := g; cache_ := a; index_ := 0 |}
      | None => None
      end
    else Some c in
  match refilled with
  | Some c =>
      match rd (cache_ c) (index_ c) with
      | Some r => Some (r, {| generator_ := generator_ c; cache_ := cache_ c; index_ := index_ c + 1 |})
      | None => None
      end
  | None => None
  end.
