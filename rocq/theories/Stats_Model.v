(** Model of hwy/stats.h and hwy/stats.cc. Simplification: [double] and [float]
    arithmetic is exact (rational numbers, no rounding), so the theorems are
    about the formulas, not about rounding errors. Integers are modelled with
    their width. *)
From Coq Require Import ZArith QArith List Bool.
From Verif Require Import Word.
Import ListNotations.
Local Open Scope Q_scope.

Definition q_of (n : Z) : Q := inject_Z n.
(** HWY_MIN / HWY_MAX (base.h), std::min / std::max *)
Definition qmin (a b : Q) : Q := if Qle_bool a b then a else b.
Definition qmax (a b : Q) : Q := if Qle_bool b a then a else b.
(** stats.h 181-193 data members; [sum_log] is in [Q] too: [std::log] is an abstract function below *)
Record stats := { s_n : Z; s_min : Q; s_max : Q; s_log : Q; s_m1 : Q; s_m2 : Q; s_m3 : Q; s_m4 : Q }.
(** HighestValue<float>(): FLT_MAX = 2^128 - 2^104 *)
Definition flt_max : Q := q_of (2 ^ 128 - 2 ^ 104).
(** stats.h 166-179 Reset *)
Definition s_reset : stats :=
  {| s_n := 0; s_min := flt_max; s_max := - flt_max; s_log := 0; s_m1 := 0; s_m2 := 0; s_m3 := 0; s_m4 := 0 |}.

Section S.
Context (log : Q -> Q).
(** stats.h 76-95 Notify *)
Definition s_notify (x : Q) (s : stats) : stats :=
  let n := swrap 64 (s_n s + 1) in
  let mn := qmin (s_min s) x in
  let mx := qmax (s_max s) x in
  let lg := s_log s + log x in
  let d := x - s_m1 s in
  let d_div_n := d / q_of n in
  let d2n1_div_n := d * (q_of n - 1) * d_div_n in
  let n_poly := swrap 64 (n * n - 3 * n + 3) in
  let m1 := s_m1 s + d_div_n in
  let m4 := s_m4 s + d_div_n * (d_div_n * (d2n1_div_n * q_of n_poly + 6 * s_m2 s) - 4 * s_m3 s) in
  let m3 := s_m3 s + d_div_n * (d2n1_div_n * (q_of n - 2) - 3 * s_m2 s) in
  let m2 := s_m2 s + d2n1_div_n in
  {| s_n := n; s_min := mn; s_max := mx; s_log := lg; s_m1 := m1; s_m2 := m2; s_m3 := m3; s_m4 := m4 |}.

(** stats.cc 27-68 Assimilate. [other cur] is the current content of the object
    passed as argument when [*this] contains [cur]: [fun _ => o] for a different
    object, [fun cur => cur] for [s.Assimilate(s)]. *)
Definition s_assimilate (other : stats -> stats) (s : stats) : stats :=
  let total_n := swrap 64 (s_n s + s_n (other s)) in
  if (total_n =? 0)%Z then s else
  let s := {| s_n := s_n s; s_min := qmin (s_min s) (s_min (other s)); s_max := s_max s; s_log := s_log s;
              s_m1 := s_m1 s; s_m2 := s_m2 s; s_m3 := s_m3 s; s_m4 := s_m4 s |} in
  let s := {| s_n := s_n s; s_min := s_min s; s_max := qmax (s_max s) (s_max (other s)); s_log := s_log s;
              s_m1 := s_m1 s; s_m2 := s_m2 s; s_m3 := s_m3 s; s_m4 := s_m4 s |} in
  let s := {| s_n := s_n s; s_min := s_min s; s_max := s_max s; s_log := s_log s + s_log (other s);
              s_m1 := s_m1 s; s_m2 := s_m2 s; s_m3 := s_m3 s; s_m4 := s_m4 s |} in
  let on := s_n (other s) in
  let product_n := q_of (swrap 64 (s_n s * on)) in
  let n2 := q_of (swrap 64 (s_n s * s_n s)) in
  let other_n2 := q_of (swrap 64 (on * on)) in
  let total_n2 := swrap 64 (total_n * total_n) in
  let total_n3 := q_of total_n2 * q_of total_n in
  let inv_total_n := 1 / q_of total_n in
  let inv_total_n2 := 1 / q_of total_n2 in
  let delta := s_m1 (other s) - s_m1 s in
  let delta2 := delta * delta in
  let delta3 := delta * delta2 in
  let delta4 := delta2 * delta2 in
  let s := {| s_n := s_n s; s_min := s_min s; s_max := s_max s; s_log := s_log s;
              s_m1 := (q_of (s_n s) * s_m1 s + q_of (s_n (other s)) * s_m1 (other s)) * inv_total_n;
              s_m2 := s_m2 s; s_m3 := s_m3 s; s_m4 := s_m4 s |} in
  let new_m2 := s_m2 s + s_m2 (other s) + delta2 * product_n * inv_total_n in
  let new_m3 := s_m3 s + s_m3 (other s) + delta3 * product_n * q_of (swrap 64 (s_n s - s_n (other s))) * inv_total_n2 +
                3 * delta * (q_of (s_n s) * s_m2 (other s) - q_of (s_n (other s)) * s_m2 s) * inv_total_n in
  let s := {| s_n := s_n s; s_min := s_min s; s_max := s_max s; s_log := s_log s; s_m1 := s_m1 s; s_m2 := s_m2 s; s_m3 := s_m3 s;
              s_m4 := s_m4 s + (s_m4 (other s) +
                delta4 * product_n * (n2 - product_n + other_n2) / total_n3 +
                6 * delta2 * (n2 * s_m2 (other s) + other_n2 * s_m2 s) * inv_total_n2 +
                4 * delta * (q_of (s_n s) * s_m3 (other s) - q_of (s_n (other s)) * s_m3 s) * inv_total_n) |} in
  {| s_n := total_n; s_min := s_min s; s_max := s_max s; s_log := s_log s; s_m1 := s_m1 s; s_m2 := new_m2; s_m3 := new_m3; s_m4 := s_m4 s |}.

(** how a Stats object came to be *)
Inductive hist := HNew | HNotify (x : Q) (h : hist) | HMerge (h other : hist) | HSelf (h : hist).
Fixpoint s_run (h : hist) : stats :=
  match h with
  | HNew => s_reset
  | HNotify x h => s_notify x (s_run h)
  | HMerge h o => s_assimilate (fun _ => s_run o) (s_run h)
  | HSelf h => s_assimilate (fun cur => cur) (s_run h)
  end.
End S.

(** accessors, stats.h 99-150 (those without transcendental functions).
    [int_of] is the conversion static_cast<int>(int64_t). *)
Definition int_of (n : Z) : Z := swrap 32 n.
Definition s_count (s : stats) : Z := s_n s.
Definition s_mean (s : stats) : Q := s_m1 s.
Definition s_sample_variance (s : stats) : Q := if (s_n s =? 0)%Z then 0 else s_m2 s / q_of (int_of (s_n s)).
Definition s_variance (s : stats) : Q :=
  if (s_n s =? 0)%Z then 0 else if (s_n s =? 1)%Z then s_m2 s else s_m2 s / q_of (int_of (s_n s - 1)).
Definition s_mu2 (s : stats) : Q := s_m2 s / q_of (int_of (s_n s)).
Definition s_mu3 (s : stats) : Q := s_m3 s / q_of (int_of (s_n s)).
Definition s_mu4 (s : stats) : Q := s_m4 s / q_of (int_of (s_n s)).
Definition qabs (x : Q) : Q := if Qle_bool 0 x then x else - x.
Definition s_sample_kurtosis (s : stats) : Q :=
  if negb (Qle_bool (1 # 10000000) (qabs (s_m2 s))) then 0 else s_m4 s * q_of (s_n s) / (s_m2 s * s_m2 s).
Definition s_kurtosis (s : stats) : Q :=
  if (s_n s =? 0)%Z then 0 else
  let r := (q_of (s_n s) - 1) / q_of (s_n s) in s_sample_kurtosis s * r * r.

(** stats.h 32-66 Bins<N>: Notify aborts ([None]) for a bin outside [0, N).
    The static_cast<int32_t> only matters for N > 2^31. *)
Definition b_notify (N bin : Z) (c : list Z) : option (list Z) :=
  if (0 <=? bin)%Z && (bin <? N)%Z then
    let i := Z.to_nat (swrap 32 bin) in
    Some (firstn i c ++ wrap 64 (nth i c 0%Z + 1) :: skipn (S i) c)
  else None.
Definition b_assimilate (c o : list Z) : list Z := map (fun p => wrap 64 (fst p + snd p)) (combine c o).
