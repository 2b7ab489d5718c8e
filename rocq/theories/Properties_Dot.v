(** C68, C69: Dot::Compute and MatVec / MatVecAdd. *)
From Coq Require Import ZArith List Lia Bool Arith Sorting.Permutation Eqdep_dec.
From Verif Require Import Word Word_Proofs Vec_Model Vec_Proofs Dot_Model Dot_Proofs Dot_Main MatVec_Proofs.
Import ListNotations.
Local Open Scope Z_scope.

(** Specification *)
Definition comm_monoid {B} (add : B -> B -> B) (z : B) : Prop :=
  (forall x y, add x y = add y x) /\ (forall x y z, add x (add y z) = add (add x y) z) /\ (forall x, add z x = x).
Definition sum_of {B} (add : B -> B -> B) (z : B) (l : list B) : B := fold_right add z l.
Definition products {A A' B} (mul : A -> A' -> B) (n : Z) (a : list A) (b : list A') : list B :=
  map (fun p => mul (fst p) (snd p)) (combine (firstn (Z.to_nat n) a) (firstn (Z.to_nat n) b)).
(** ReorderWidenMulAccumulate (quick_reference.md): adds every product to some lane of one of the two sums *)
Definition widen_mul_accumulate {A A' B} (mul : A -> A' -> B) add zB (M N : Z) (rw : list A -> list A' -> list B -> list B -> list B * list B) : Prop :=
  forall a b s0 s1, Z.of_nat (length a) = N -> Z.of_nat (length b) = N -> Z.of_nat (length s0) = M -> Z.of_nat (length s1) = M ->
  let '(t0, t1) := rw a b s0 s1 in Z.of_nat (length t0) = M /\ Z.of_nat (length t1) = M /\
    sum_of add zB (t0 ++ t1) = sum_of add zB (s0 ++ s1 ++ products mul N a b).
(** elements that must be readable: num, or num rounded up to whole vectors if padded *)
Definition readable (pd : bool) (N num : Z) : Z := if pd then (num + N - 1) / N * N else num.

Lemma rw_of {A A' B} (mul : A -> A' -> B) add zB M N rw : comm_monoid add zB -> widen_mul_accumulate mul add zB M N rw -> RW mul add zB M N rw.
Proof.
  intros (C & S & Z0) H a b s0 s1 Ha Hb H0 H1. specialize (H a b s0 s1 Ha Hb H0 H1). destruct (rw a b s0 s1) as (t0 & t1). destruct H as (L0 & L1 & E). split; [exact L0|]. split; [exact L1|].
  change (sum_of add zB) with (reduce_sum add zB) in E. rewrite !(total_app add zB S Z0) in E. rewrite E, S. f_equal.
  unfold products. unfold zlen in *. rewrite (firstn_all2 a), (firstn_all2 b) by lia. reflexivity.
Qed.

(** C68.  For every number of elements, every vector size, every combination of
    Assumptions flags whose requirements hold, and any values beyond the
    elements: all overloads return the sum of exactly the products of the first
    [num] elements, and no element outside the readable ones is read. *)
Theorem C68_dot : forall {A A' B : Type} (mul : A -> A' -> B) (add : B -> B -> B) zA zA' zB (al mu pd : bool) N num (pa : list A) (pb : list A'),
  comm_monoid add zB -> mul zA zA' = zB -> 0 < N -> 0 <= num -> num + 4 * N < 2 ^ 64 ->
  (al = true -> N <= num) -> (mu = true -> num mod N = 0) ->
  readable pd N num <= Z.of_nat (length pa) -> readable pd N num <= Z.of_nat (length pb) ->
  let r := Some (sum_of add zB (products mul num pa pb)) in
  dot_compute mul add zA zA' zB al mu pd N num pa pb = r /\
  (forall scalar_target, dot_compute_mixed mul add zA zA' zB scalar_target al mu pd N num pa pb = r) /\
  (forall M rw, 0 <= M -> widen_mul_accumulate mul add zB M N rw -> dot_compute_widen mul add zA zA' zB rw al mu pd M N num pa pb = r).
Proof.
  intros A A' B mul add zA zA' zB al mu pd N num pa pb HM M0 HN Hn HW Hal Hmu Xa Xb r. pose proof HM as (C & S & Z0).
  split; [|split].
  - apply (dot_compute_ok mul add zA zA' zB C S Z0 M0 N num pa pb al mu pd); auto.
  - intros st. apply (dot_compute_mixed_ok mul add zA zA' zB C S Z0 M0 N num pa pb al mu pd); auto.
  - intros M rw HM' HR. apply (dot_compute_widen_ok mul add zA zA' zB C S Z0 M0 N num pa pb al mu pd); auto. now apply rw_of.
Qed.
Print Assumptions C68_dot.

(** instance: int32_t results, modulo 2^32 *)
Definition i32 : Type := {x : Z | (swrap 32 x =? x) = true}.
Lemma swrap_idem x : (swrap 32 (swrap 32 x) =? swrap 32 x) = true.
Proof. apply Z.eqb_eq. apply swrap_small; [lia|]. apply swrap_range. lia. Qed.
Definition to_i32 (x : Z) : i32 := exist _ (swrap 32 x) (swrap_idem x).
Definition i32_add (x y : i32) : i32 := to_i32 (proj1_sig x + proj1_sig y).
Definition i32_mul (x y : Z) : i32 := to_i32 (x * y).
Lemma i32_eq (x y : i32) : proj1_sig x = proj1_sig y -> x = y.
Proof. destruct x as (x & Hx), y as (y & Hy). cbn. intros <-. f_equal. apply UIP_dec, bool_dec. Qed.
Lemma swrap_cong x y : (x - y) mod 2 ^ 32 = 0 -> swrap 32 x = swrap 32 y.
Proof.
  intros H. unfold swrap. assert (E : x mod 2 ^ 32 = y mod 2 ^ 32).
  { replace x with (y + (x - y)) by lia. rewrite Z.add_mod, H by lia. rewrite Z.add_0_r. apply Z.mod_mod. lia. }
  now rewrite E.
Qed.
Lemma swrap_diff x : exists q, swrap 32 x = x + q * 2 ^ 32.
Proof.
  unfold swrap. pose proof (Z.div_mod x (2 ^ 32) ltac:(lia)). cbv zeta. destruct (x mod 2 ^ 32 <? 2 ^ (32 - 1)); [exists (- (x / 2 ^ 32))|exists (- (x / 2 ^ 32) - 1)]; lia.
Qed.
Lemma i32_monoid : comm_monoid i32_add (to_i32 0).
Proof.
  split; [|split].
  - intros x y. apply i32_eq. cbn. now rewrite Z.add_comm.
  - intros x y z. apply i32_eq. cbn. apply swrap_cong. destruct (swrap_diff (proj1_sig y + proj1_sig z)) as (p & ->). destruct (swrap_diff (proj1_sig x + proj1_sig y)) as (q & ->).
    replace (_ - _) with ((p - q) * 2 ^ 32) by lia. apply Z.mod_mul. lia.
  - intros (x & Hx). apply i32_eq. cbn [proj1_sig i32_add to_i32]. change (swrap 32 0) with 0. rewrite Z.add_0_l. now apply Z.eqb_eq.
Qed.
Lemma i32_sum (l : list (Z * Z)) : proj1_sig (sum_of i32_add (to_i32 0) (map (fun p => i32_mul (fst p) (snd p)) l)) = swrap 32 (fold_right Z.add 0 (map (fun p => fst p * snd p) l)).
Proof.
  induction l as [|(x, y) l IH]; [reflexivity|]. cbn [map sum_of fold_right fst snd]. unfold i32_add at 1. cbn [proj1_sig to_i32]. unfold sum_of in IH. rewrite IH. apply swrap_cong.
  cbn [i32_mul to_i32 proj1_sig]. destruct (swrap_diff (x * y)) as (p & ->). set (t := fold_right Z.add 0 _). destruct (swrap_diff t) as (q & ->).
  replace (_ - _) with ((p + q) * 2 ^ 32) by lia. apply Z.mod_mul. lia.
Qed.
Theorem C68_dot_i16 : forall rw al mu pd M N num pa pb, widen_mul_accumulate i32_mul i32_add (to_i32 0) M N rw ->
  0 <= M -> 0 < N -> 0 <= num -> num + 4 * N < 2 ^ 64 -> (al = true -> N <= num) -> (mu = true -> num mod N = 0) ->
  readable pd N num <= Z.of_nat (length pa) -> readable pd N num <= Z.of_nat (length pb) ->
  exists r, dot_compute_widen i32_mul i32_add 0 0 (to_i32 0) rw al mu pd M N num pa pb = Some r /\
    proj1_sig r = swrap 32 (fold_right Z.add 0 (products Z.mul num pa pb)).
Proof.
  intros rw al mu pd M N num pa pb HR HM HN Hn HW Hal Hmu Xa Xb.
  destruct (C68_dot i32_mul i32_add 0 0 (to_i32 0) al mu pd N num pa pb i32_monoid ltac:(apply i32_eq; reflexivity) HN Hn HW Hal Hmu Xa Xb) as (_ & _ & H). rewrite (H M rw HM HR).
  eexists. split; [reflexivity|]. unfold products. apply i32_sum.
Qed.
Print Assumptions C68_dot_i16.
(** the emu128 ReorderWidenMulAccumulate: even lanes to the first, odd lanes to the second sum *)
Fixpoint evens {T} (l : list T) : list T := match l with x :: _ :: r => x :: evens r | x :: [] => [x] | [] => [] end.
Definition emu_rw (a b : list Z) (s0 s1 : list Z) : list Z * list Z :=
  (mul_add Z.mul Z.add (evens a) (evens b) s0, mul_add Z.mul Z.add (evens (tl a)) (evens (tl b)) s1).
Example C68_ex_rw : widen_mul_accumulate Z.mul Z.add 0 2 4 emu_rw.
Proof.
  intros a b s0 s1 Ha Hb H0 H1. do 4 (destruct a as [|? a]; [cbn in Ha; lia|]). destruct a; [|cbn in Ha; lia]. do 4 (destruct b as [|? b]; [cbn in Hb; lia|]). destruct b; [|cbn in Hb; lia].
  do 2 (destruct s0 as [|? s0]; [cbn in H0; lia|]). destruct s0; [|cbn in H0; lia]. do 2 (destruct s1 as [|? s1]; [cbn in H1; lia|]). destruct s1; [|cbn in H1; lia].
  unfold emu_rw, products, sum_of. change (Z.to_nat 4) with 4%nat. vm_compute evens. unfold mul_add. cbn -[Z.mul Z.add]. split; [reflexivity|]. split; [reflexivity|]. ring.
Qed.
Example C68_ex : dot_compute Z.mul Z.add 0 0 0 false false false 4 11 (map Z.of_nat (seq 1 11)) (map Z.of_nat (seq 5 11)) = Some 770 /\
  dot_compute Z.mul Z.add 0 0 0 false false true 4 6 [1; 2; 3; 4; 5; 6; 77; 77] [1; 1; 1; 1; 1; 1; 99; 99] = Some 21 /\
  dot_compute Z.mul Z.add 0 0 0 false false false 4 3 [1; 2; 3] [1; 1; 1] = Some 6 /\
  dot_compute_widen Z.mul Z.add 0 0 0 emu_rw false false false 2 4 7 [1; 2; 3; 4; 5; 6; 7] [1; 1; 1; 1; 1; 1; 1] = Some 28.
Proof. repeat split; vm_compute; reflexivity. Qed.

(** C69.  MatVec and MatVecAdd write to out[r] the inner product of row r and vec
    (plus add[r]) for each of the [outer] rows, and nothing else, whatever order
    the tasks of the pool run in. Here: out is aligned to the vector size and the
    vectors are not larger than 64 bytes ([chunk] elements). *)
Definition row_result {B} (add_scalar : B -> B -> B) (addv : option (list B)) (r : nat) (x : B) : B :=
  match addv with None => x | Some l => match nth_error l r with Some y => add_scalar x y | None => x end end.
Definition all_tasks (order : list Z) (n : Z) : Prop := Permutation order (map Z.of_nat (seq 0 (Z.to_nat n))).
Theorem C69_matvec_partial : forall {A A' B : Type} (mul : A -> A' -> B) (add add_scalar : B -> B -> B) zA zA' zB N M misalign chunk outer inner
    (mat : list A) (vec : list A') (addv : option (list B)) order (out : list B) (row_in row_out : Z -> option B),
  comm_monoid add zB -> mul zA zA' = zB -> 0 < N -> 0 <= outer -> 0 <= inner -> inner + 4 * N < 2 ^ 64 -> 0 < chunk -> N <= chunk -> 0 < M -> (M | chunk) ->
  misalign mod M = 0 -> Z.of_nat (length mat) = outer * inner -> outer * inner <= 2 ^ 64 -> Z.of_nat (length vec) = inner -> Z.of_nat (length out) = outer ->
  (forall l, addv = Some l -> Z.of_nat (length l) = outer) -> all_tasks order (outer / chunk) ->
  (* the three overloads *)
  (row_in = (fun r => mv_row4 mul add zA zA' zB N inner mat (r * inner) vec) /\ row_out = (fun r => mv_row1 mul add zA zA' zB N inner mat (r * inner) vec) \/
   row_in = (fun r => mv_row4_mixed mul add zA zA' zB N inner mat (r * inner) vec) /\ row_out = (fun r => mv_row1 mul add zA zA' zB N inner mat (r * inner) vec) \/
   (exists rw, widen_mul_accumulate mul add zB M N rw /\ row_in = (fun r => mv_row4_widen add zA zA' zB rw M N inner mat (r * inner) vec) /\
      row_out = (fun r => mv_row1_widen add zA zA' zB rw M N inner mat (r * inner) vec))) ->
  exists out', mat_vec add_scalar row_in row_out N M misalign chunk outer addv order out = Some out' /\ length out' = length out /\
    forall r, (r < length out)%nat -> nth_error out' r = Some (row_result add_scalar addv r (sum_of add zB (products mul inner (skipn (r * Z.to_nat inner) mat) vec))).
Proof.
  intros A A' B mul add add_scalar zA zA' zB N M misalign chunk outer inner mat vec addv order out row_in row_out HMo M0 HN Ho Hi HW Hc HNc HM Hd Ha Lm Wm Lv Lo La HO HR.
  pose proof HMo as (C & S & Z0).
  set (val := fun r => sum_of add zB (products mul inner (skipn (Z.to_nat (r * inner)) mat) vec)).
  assert (RI : forall r, 0 <= r < outer -> row_in r = Some (val r) /\ row_out r = Some (val r)).
  { intros r Hr. assert (X : r * inner + inner <= zlen mat) by (unfold zlen; nia). assert (X1 : inner <= zlen vec) by (unfold zlen; lia). assert (X2 : zlen mat <= 2 ^ 64) by (unfold zlen; lia).
    assert (X3 : zlen vec <= 2 ^ 64) by (unfold zlen; lia). assert (X4 : 0 <= r * inner) by nia.
    destruct HR as [(-> & ->)|[(-> & ->)|(rw & HR & -> & ->)]].
    - split; [apply (mv_row4_ok mul add zA zA' zB C S Z0 M0 N inner (r * inner) mat vec)|apply (mv_row1_ok mul add zA zA' zB C S Z0 M0 N inner (r * inner) mat vec)]; auto.
    - split; [apply (mv_row4_mixed_ok mul add zA zA' zB C S Z0 M0 N inner (r * inner) mat vec)|apply (mv_row1_ok mul add zA zA' zB C S Z0 M0 N inner (r * inner) mat vec)]; auto.
    - apply rw_of in HR; [|exact HMo]. split; [apply (mv_row4_widen_ok mul add zA zA' zB C S Z0 M0 N inner (r * inner) mat vec)|apply (mv_row1_widen_ok mul add zA zA' zB C S Z0 M0 N inner (r * inner) mat vec)]; auto; lia. }
  destruct (mat_vec_ok add_scalar row_in row_out val N M misalign chunk outer addv HM Hd Hc HNc Ha Ho) with (order := order) (out := out) as (out' & E & L & R).
  - intros l El. specialize (La l El). unfold zlen. lia.
  - intros r Hr. now apply RI.
  - intros r Hr. now apply RI.
  - exact HO.
  - unfold zlen. lia.
  - exists out'. split; [exact E|]. split; [exact L|]. intros r Hr. specialize (R (Z.of_nat r) ltac:(unfold zlen; lia)). destruct (Z.leb_spec 0 (Z.of_nat r)); [|lia]. destruct (Z.ltb_spec (Z.of_nat r) outer); [|lia]. cbn [andb] in R.
    unfold rd in R. destruct (Z.ltb_spec (Z.of_nat r) 0); [lia|]. rewrite Nat2Z.id in R. rewrite R. f_equal. unfold fin, row_result, val, rd. replace (Z.to_nat (Z.of_nat r * inner)) with (r * Z.to_nat inner)%nat by nia.
    destruct addv as [l|]; [|reflexivity]. destruct (Z.ltb_spec (Z.of_nat r) 0); [lia|]. now rewrite Nat2Z.id.
Qed.
Print Assumptions C69_matvec_partial.
(** The header documents no alignment of out, but if there is at least one whole
    chunk of rows the non-temporal stores fault when out is not vector-aligned. *)
Theorem C69_unaligned_out_refuted : forall {B} (add_scalar : B -> B -> B) row_in row_out N M misalign chunk outer addv order (out : list B),
  0 < M -> (M | chunk) -> 0 < chunk -> misalign mod M <> 0 -> chunk <= outer -> all_tasks order (outer / chunk) ->
  mat_vec add_scalar row_in row_out N M misalign chunk outer addv order out = None.
Proof.
  intros B add_scalar row_in row_out N M misalign chunk outer addv order out HM Hd Hc Hm Ho HO. unfold mat_vec. cbv zeta. destruct (chunk <? N); [reflexivity|].
  assert (D : 1 <= outer / chunk) by (apply Z.div_le_lower_bound; lia).
  destruct order as [|c order].
  { exfalso. apply Permutation_length in HO. rewrite map_length, seq_length in HO. cbn in HO. lia. }
  cbn [foldM]. assert (E : mv_task add_scalar row_in M misalign chunk addv out c = None); [|now rewrite E].
  unfold mv_task. cbv zeta. destruct (mapM _ _) as [buf|]; [|reflexivity]. cbn [bind stream_loop]. destruct (Z.eqb_spec 0 chunk); [lia|].
  destruct (loadu buf 0 M) as [v|]; [|reflexivity]. cbn [bind]. unfold stream. rewrite Z.add_0_r.
  assert (EM : (misalign + c * chunk) mod M <> 0).
  { intros E. apply Hm. apply Z.mod_divide in E; [|lia]. apply Z.mod_divide; [lia|]. replace misalign with (misalign + c * chunk - c * chunk) by lia. apply Z.divide_sub_r; [exact E|]. now apply Z.divide_mul_r. }
  destruct (Z.eqb_spec ((misalign + c * chunk) mod M) 0); [contradiction|reflexivity].
Qed.
Print Assumptions C69_unaligned_out_refuted.
Definition ex_mat := map Z.of_nat (seq 0 15).
Example C69_ex : mat_vec Z.add (fun r => mv_row4 Z.mul Z.add 0 0 0 2 3 ex_mat (r * 3) [1; 10; 100]) (fun r => mv_row1 Z.mul Z.add 0 0 0 2 3 ex_mat (r * 3) [1; 10; 100])
    2 2 0 2 5 (Some [1; 1; 1; 1; 1000]) [1; 0] [9; 9; 9; 9; 9] = Some [211; 544; 877; 1210; 2542] /\ all_tasks [1; 0] (5 / 2).
Proof. split; [vm_compute; reflexivity|]. unfold all_tasks. cbn. apply perm_swap. Qed.
