(** hwy/contrib/sort/vqsort-inl.h 926-1185: MaybePartitionTwoValue,
    MaybePartitionTwoValueR, PartitionIfTwoKeys, PartitionIfTwoSamples.  In units
    of keys ([N] keys per vector) as in Partition_Model; [keys] is the subarray. *)
From Coq Require Import ZArith List Lia Bool.
From Verif Require Import Word Vec_Model.
Import ListNotations.
Local Open Scope Z_scope.

Section TwoValue.
Context {K : Type}.
(** [eqk]: st.EqualKeys on one key *)
Variables (eqk : K -> K -> bool) (N : Z).

Definition eq_mask (v : list K) (x : K) : list bool := map (fun y => eqk y x) v.
Definition mask_or (a b : list bool) : list bool := map (fun p : bool * bool => fst p || snd p) (combine a b).
(** ExclusiveNeither(a, b): true where neither is; a and b never both true *)
Definition exclusive_neither (a b : list bool) : list bool := mask_not (mask_or a b).
Definition all_true (m : list bool) : bool := forallb (fun b => b) m.
Definition count_true (m : list bool) : Z := zlen (filter (fun b => b) m).

(** the fill loops: 962-967 (also 998-1003), 1008-1014, 1065-1070 (also
    1097-1102), 1114-1118:
      if (end >= N) for (; pos <= end - N; pos += N) StoreU(v, d, keys + pos);
    result: keys and pos *)
Fixpoint fill_loop (fuel : nat) (x : K) (keys : list K) (pos end_ : Z) : option (list K * Z) :=
  match fuel with
  | O => None
  | S f =>
      if (N <=? end_) && (pos <=? wrap 64 (end_ - N)) then
        match storeu keys pos (set N x) with
        | Some keys => fill_loop f x keys (pos + N) end_
        | None => None
        end
      else Some (keys, pos)
  end.
(** ... followed by StoreN(v, d, keys + pos, end - pos) *)
Definition fill (x : K) (keys : list K) (pos end_ : Z) : option (list K) :=
  match fill_loop (S (length keys)) x keys pos end_ with
  | Some (keys, pos) => store_n (set N x) N keys pos (wrap 64 (end_ - pos))
  | None => None
  end.

(** outcome: [inl third] = returned false with this third value, [inr tt] = true *)
Definition outcome : Type := (K + unit)%type.

(** 941-973: the loop over whole vectors.  Continues with (keys, i, writeL) or
    stops early with the third value. *)
Fixpoint two_loop (fuel : nat) (valueL valueR : K) (keys : list K) (num i writeL : Z) : option (list K * (K + Z * Z)) :=
  match fuel with
  | O => None
  | S f =>
      if (N <=? num) && (i <=? wrap 64 (num - N)) then
        match loadu keys i N with
        | None => None
        | Some v =>
            let eqL := eq_mask v valueL in
            let eqR := eq_mask v valueR in
            if negb (all_true (mask_or eqL eqR)) then
              let lane := find_first_true (exclusive_neither eqL eqR) in
              match rd keys (i + lane), fill valueR keys writeL i with
              | Some third, Some keys => Some (keys, inl third)
              | _, _ => None
              end
            else
              match storeu keys writeL (set N valueL) with
              | None => None
              | Some keys => two_loop f valueL valueR keys num (i + N) (writeL + count_true eqL)
              end
        end
      else Some (keys, inr (i, writeL))
  end.

(** 926-1021 MaybePartitionTwoValue; result: keys, buf, outcome.  SafeCopyN copies
    the remaining keys to buf, and Load(d, buf) reads a whole vector back. *)
Definition maybe_two_value (valueL valueR : K) (keys : list K) (num : Z) (buf : list K) : option (list K * list K * outcome) :=
  match two_loop (S (Z.to_nat num)) valueL valueR keys num 0 0 with
  | None => None
  | Some (keys, inl third) => Some (keys, buf, inl third)
  | Some (keys, inr (i, writeL)) =>
      let remaining := num - i in
      match match loadu keys i remaining with Some p => storeu buf 0 p | None => None end with
      | None => None
      | Some buf =>
          match loadu buf 0 N with
          | None => None
          | Some v =>
          let valid := first_n N remaining in
          let eqL := mask_and (eq_mask v valueL) valid in
          let eqR := eq_mask v valueR in
          let eq := mask_or (mask_or eqL eqR) (mask_not valid) in
          if negb (all_true eq) then
            let lane := find_first_true (mask_not eq) in
            match rd keys (i + lane), fill valueR keys writeL i with
            | Some third, Some keys => Some (keys, buf, inl third)
            | _, _ => None
            end
          else
            match store_n (set N valueL) N keys writeL remaining with
            | None => None
            | Some keys =>
                let writeL := writeL + count_true eqL in
                match fill valueR keys writeL num with
                | None => None
                | Some keys => Some (keys, buf, inr tt)
                end
            end
          end
      end
  end.

(** 1039-1075: descending loop of MaybePartitionTwoValueR; terminates when [pos]
    wraps around.  Continues with (pos, countR). *)
Fixpoint two_loop_r (fuel : nat) (valueL valueR : K) (keys : list K) (num pos countR : Z) : option (list K * (K + Z * Z)) :=
  match fuel with
  | O => None
  | S f =>
      if pos <? num then
        match loadu keys pos N with
        | None => None
        | Some v =>
            let eqL := eq_mask v valueL in
            let eqR := eq_mask v valueR in
            if negb (all_true (mask_or eqL eqR)) then
              let lane := find_first_true (exclusive_neither eqL eqR) in
              let endL := num - countR in
              match rd keys (pos + lane), fill valueL keys (wrap 64 (pos + N)) endL with
              | Some third, Some keys => Some (keys, inl third)
              | _, _ => None
              end
            else
              match storeu keys pos (set N valueR) with
              | None => None
              | Some keys => two_loop_r f valueL valueR keys num (wrap 64 (pos - N)) (countR + count_true eqR)
              end
        end
      else Some (keys, inr (pos, countR))
  end.

(** 1024-1132 MaybePartitionTwoValueR *)
Definition maybe_two_value_r (valueL valueR : K) (keys : list K) (num : Z) (buf : list K) : option (list K * list K * outcome) :=
  match two_loop_r (S (Z.to_nat num)) valueL valueR keys num (wrap 64 (num - N)) 0 with
  | None => None
  | Some (keys, inl third) => Some (keys, buf, inl third)
  | Some (keys, inr (pos, countR)) =>
      let remaining := wrap 64 (pos + N) in
      match loadu keys 0 N with
      | None => None
      | Some v =>
          let valid := first_n N remaining in
          let eqL := eq_mask v valueL in
          let eqR := mask_and (eq_mask v valueR) valid in
          let eq := mask_or (mask_or eqL eqR) (mask_not valid) in
          if negb (all_true eq) then
            let lane := find_first_true (mask_not eq) in
            let endL := num - countR in
            match rd keys lane, fill valueL keys (wrap 64 (pos + N)) endL with
            | Some third, Some keys => Some (keys, buf, inl third)
            | _, _ => None
            end
          else
            let countR := countR + count_true eqR in
            match storeu keys 0 (set N valueR) with
            | None => None
            | Some keys =>
                let endL := num - countR in
                match fill_loop (S (length keys)) valueL keys 0 endL with
                | None => None
                | Some (keys, i) =>
                    (* Store(valueL, d, buf); SafeCopyN(endL - i, d, buf, keys + i) *)
                    match storeu buf 0 (set N valueL) with
                    | None => None
                    | Some buf =>
                        match match loadu buf 0 (endL - i) with Some p => storeu keys i p | None => None end with
                        | None => None
                        | Some keys => Some (keys, buf, inr tt)
                        end
                    end
                end
            end
      end
  end.

(** 1139-1160 PartitionIfTwoKeys; [lt] is st.Compare *)
Definition partition_if_two_keys (lt : K -> K -> bool) (pivot : K) (keys : list K) (num idx_second : Z) (second : K) (buf : list K) : option (list K * list K * outcome) :=
  let is_pivotR := negb (lt pivot second) in
  if is_pivotR then maybe_two_value_r second pivot keys num buf
  else
    (* keys + idx_second, num - idx_second *)
    match maybe_two_value pivot second (skipn (Z.to_nat idx_second) keys) (num - idx_second) buf with
    | Some (k, buf, o) => Some (firstn (Z.to_nat idx_second) keys ++ k, buf, o)
    | None => None
    end.

(** 1164-1185 PartitionIfTwoSamples; [prev] is st.PrevValue; [samples] is the
    start of the buffer, of which the first [ns] = SampleLanes are the samples.
    Result: keys, samples (buffer), returned value. *)
Definition partition_if_two_samples (prev : K -> K) (ns : Z) (keys : list K) (num : Z) (samples : list K) : option (list K * list K * bool) :=
  match rd samples 0, rd samples (ns - 1) with
  | Some valueL, Some valueR =>
      if negb (eqk valueL (prev valueR)) then Some (keys, samples, false)
      else
        (* T* buf = samples + kSampleLanes *)
        match maybe_two_value valueL valueR keys num (skipn (Z.to_nat ns) samples) with
        | Some (k, b, inl _) => Some (k, firstn (Z.to_nat ns) samples ++ b, false)
        | Some (k, b, inr _) => Some (k, firstn (Z.to_nat ns) samples ++ b, true)
        | None => None
        end
  | _, _ => None
  end.
End TwoValue.
