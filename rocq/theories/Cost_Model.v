(** Model of CostDistribution, hwy/auto_tune.h 39-265. Simplification: [double]
    arithmetic is exact (rationals); [std::sqrt] is an arbitrary function, of
    which the theorems only assume that it is non-negative. Every array access
    and HWY_DASSERT is checked ([None] if it fails), except the assertion
    M1() >= Lower() of OnlineNotify. *)
From Coq Require Import ZArith QArith List Bool Arith.
From Verif Require Import Stats_Model.
Import ListNotations.
Local Open Scope Q_scope.

(** 41 kMaxValues *)
Definition kMaxValues : nat := 14.
(** 255-264 data members; [c_values] has kMaxValues elements *)
Record cost := { c_num : nat; c_online : Q; c_values : list Q }.
Definition bind {A B} (x : option A) (f : A -> option B) : option B := match x with Some a => f a | None => None end.
Notation "'do' x <- a ; b" := (bind a (fun x => b)) (at level 200, x pattern, a at level 100, b at level 200).
Definition assert (b : bool) {A} (k : option A) : option A := if b then k else None.
Definition get (l : list Q) (i : nat) : option Q := nth_error l i.
Definition set (l : list Q) (i : nat) (x : Q) : option (list Q) :=
  if (i <? length l)%nat then Some (firstn i l ++ x :: skipn (S i) l) else None.
Definition qlt (a b : Q) : bool := negb (Qle_bool b a).

(** VQSort, ascending (see C31); insertion sort stands for it *)
Fixpoint qinsert (a : Q) (l : list Q) : list Q := match l with [] => [a] | b :: r => if Qle_bool a b then a :: l else b :: qinsert a r end.
Definition qsort (l : list Q) : list Q := fold_right qinsert [] l.
(** 105-118 Median: sorts the first [n] elements in place; the new array and the median *)
Definition c_median (a : list Q) (n : nat) : option (list Q * Q) :=
  assert (2 <=? n)%nat (assert (n <=? length a)%nat (
  let s := qsort (firstn n a) ++ skipn n a in
  if Nat.odd n then do m <- get s (n / 2); Some (s, m)
  else do x <- get s (n / 2); do y <- get s (n / 2 - 1); Some (s, (x + y) * (1 # 2)))).
(** 120-127 MAD *)
Definition c_mad (a : list Q) (n : nat) (median : Q) : option Q :=
  assert (n <=? length a)%nat (do (_, m) <- c_median (map (fun x => qabs (x - median)) (firstn n a)) n; Some m).
(** 157: while (values_[right] > upper) --right, size_t *)
Fixpoint trim_right (a : list Q) (upper : Q) (right : nat) : option nat :=
  do x <- get a right;
  if qlt upper x then match right with O => None | S r => trim_right a upper r end else Some right.
(** 163: while (left < right && values_[left] < lower) ++left *)
Fixpoint trim_left (fuel : nat) (a : list Q) (lower : Q) (left right : nat) : option nat :=
  match fuel with
  | O => None
  | S f => if (left <? right)%nat then do x <- get a left; if qlt x lower then trim_left f a lower (S left) right else Some left
           else Some left
  end.
(** memmove(values_, values_ + left, num * sizeof) *)
Definition move (a : list Q) (left num : nat) : option (list Q) :=
  assert (left + num <=? length a)%nat (Some (firstn num (skipn left a) ++ skipn num a)).
(** 130-167 RemoveOutliers: the new array and num_values_ *)
Definition remove_outliers (a : list Q) (n : nat) : option (list Q * nat) :=
  if (n <? 3)%nat then Some (a, n) else
  assert (n <=? kMaxValues)%nat (
  do (a, median) <- c_median a n;
  do mad <- c_mad a n median;
  if Qeq_bool mad 0 then
    do last <- get a (n - 1);
    do first <- get a 0;
    let skewness := (last - median) - (median - first) in
    let trim := Nat.max (n / 2) 2 in
    let left := Nat.max (if qlt skewness 0 then trim * 3 / 4 else trim / 4)%nat 1 in
    assert (trim <=? n)%nat (
    let n := (n - trim)%nat in
    assert (1 <=? n)%nat (
    do a <- move a left n; Some (a, n)))
  else
    let upper := median + 5 * mad in
    let lower := median - 5 * mad in
    do ri <- trim_right a upper (n - 1);
    assert (n / 2 <=? ri)%nat (
    do le <- trim_left (S n) a lower 0 ri;
    assert (le <=? n / 2)%nat (
    let num := (ri - le + 1)%nat in
    do a <- move a le num; Some (a, num)))).
Definition is_online (c : cost) : bool := qlt 0 (c_online c).
(** 169-177 SampleMean *)
Definition sample_mean (c : cost) : option Q :=
  assert (negb (is_online c) && negb (c_num c =? 0)%nat && (c_num c <=? kMaxValues)%nat) (
  assert (c_num c <=? length (c_values c))%nat (
  Some (fold_left Qplus (firstn (c_num c) (c_values c)) 0 / q_of (Z.of_nat (c_num c))))).
(** 180-192 SampleVariance *)
Definition sample_variance (c : cost) (mean : Q) : option Q :=
  assert (Qle_bool 0 mean) (
  assert (negb (is_online c) && negb (c_num c =? 0)%nat && (c_num c <=? kMaxValues)%nat) (
  if (c_num c =? 1)%nat then Some 0 else
  Some (fold_left (fun s x => s + (x - mean) * (x - mean)) (firstn (c_num c) (c_values c)) 0 / q_of (Z.of_nat (c_num c - 1))))).

Section S.
Context (sqrt : Q -> Q).
(** 195-221 OnlineNotify *)
Definition online_notify (x : Q) (c : cost) : option cost :=
  let a := c_values c in
  do m1 <- get a 0; do m2 <- get a 1; do mean <- get a 2; do sd <- get a 3; do lower <- get a 4; do upper <- get a 5;
  let x := qmin (qmax lower x) upper in
  let n_minus_1 := c_online c in
  let online := n_minus_1 + 1 in
  let d := x - m1 in
  let d_div_n := d / online in
  let m1 := m1 + d_div_n in
  let m2 := m2 + d * n_minus_1 * d_div_n in
  let stddev := sqrt (m2 / qmax 1 n_minus_1) in
  let kNew := 1 # 5 in
  let kOld := 1 - kNew in
  let mean := m1 * kNew + mean * kOld in
  let sd := stddev * kNew + sd * kOld in
  do a <- set a 0 m1; do a <- set a 1 m2; do a <- set a 2 mean; do a <- set a 3 sd;
  do a <- set a 4 (mean - (7 # 2) * sd); do a <- set a 5 (mean + (7 # 2) * sd);
  Some {| c_num := c_num c; c_online := online; c_values := a |}.
Fixpoint online_all (xs : list Q) (c : cost) : option cost :=
  match xs with [] => Some c | x :: r => do c <- online_notify x c; online_all r c end.
(** 223-252 WarmUpOnline *)
Definition warm_up (c : cost) : option cost :=
  do (a, n) <- remove_outliers (c_values c) (c_num c);
  let c := {| c_num := n; c_online := c_online c; c_values := a |} in
  do mean <- sample_mean c;
  do var <- sample_variance c mean;
  let copy := firstn n a in
  do a <- set a 1 0; do a <- set a 0 0;
  do a <- set a 2 mean;
  let sd := sqrt var in
  let sd := if Qeq_bool sd 0 then mean / 2 else sd in
  do a <- set a 3 sd;
  do a <- set a 4 (mean - 4 * sd);
  do a <- set a 5 (mean + 4 * sd);
  do c <- online_all copy {| c_num := n; c_online := c_online c; c_values := a |};
  assert (is_online c) (Some c).
(** 43-58 Notify *)
Definition c_notify (x : Q) (c : cost) : option cost :=
  if qlt x 0 then Some c else
  if is_online c then online_notify x c else
  do a <- set (c_values c) (c_num c) x;
  let n := S (c_num c) in
  assert (n <=? kMaxValues)%nat (
  let c := {| c_num := n; c_online := c_online c; c_values := a |} in
  if (n =? kMaxValues)%nat then warm_up c else Some c).
(** 86-93 EstimateCost *)
Definition c_estimate (c : cost) : option (Q * cost) :=
  do c <- (if is_online c then Some c else warm_up c);
  do m <- get (c_values c) 2; Some (m, c).

(** histories; [garbage]: the uninitialized array *)
Inductive cop := CNotify (x : Q) | CEstimate.
Fixpoint c_run (ops : list cop) (c : cost) : option (list Q * cost) :=
  match ops with
  | [] => Some ([], c)
  | CNotify x :: r => do c <- c_notify x c; c_run r c
  | CEstimate :: r => do (m, c) <- c_estimate c; do (l, c) <- c_run r c; Some (m :: l, c)
  end.
End S.
Definition c_init (garbage : list Q) : cost := {| c_num := 0; c_online := 0; c_values := garbage |}.
