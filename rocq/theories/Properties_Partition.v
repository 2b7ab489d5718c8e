(** Property theorem C28: the vectorized partition step of VQSort
    (hwy/contrib/sort/vqsort-inl.h 610-925). *)
From Coq Require Import ZArith List Lia Bool Permutation.
From Verif Require Import Word Word_Proofs Vec_Model Vec_Proofs Partition_Model Partition_Proofs.
Import ListNotations.
Local Open Scope Z_scope.

(** C28.  For every order, every power-of-two number N of keys per vector, every
    array of more than two vectors, every pivot, every content of the scratch
    buffer, whatever CompressStore writes after the selected lanes ([tail]) and in
    whatever order Compress leaves the unselected lanes ([upper]): the call makes
    no access outside keys and buf, rearranges the keys, and returns the number b
    of keys that are not after the pivot; these come first. *)
Theorem C28_partition : forall (K : Type) (lt : K -> K -> bool) (zero : K) (N : Z) (n : Z) (tail upper : list K -> list bool -> list K) (part : bool),
  0 <= n -> N = 2 ^ n ->
  (forall v m, zlen v = N -> length m = length v -> zlen (select v m) + zlen (tail v m) <= N) ->
  (forall v m, zlen v = N -> length m = length v -> Permutation (upper v m) (select v (mask_not m))) ->
  forall pivot keys buf, 2 * N < zlen keys < 2 ^ 62 -> 26 * N <= zlen buf ->
  exists keys' buf' b, partition lt zero N tail upper part false pivot keys (zlen keys) buf = Some (keys', buf', b) /\
    zlen buf' = zlen buf /\ Permutation keys keys' /\ 0 <= b <= zlen keys /\
    (forall i x, nth_error keys' i = Some x -> lt pivot x = (b <=? Z.of_nat i)).
Proof.
  intros K lt zero N n tail upper part Hn HN HT HU pivot keys buf HK HB.
  assert (1 <= N) by (pose proof (Z.pow_pos_nonneg 2 n ltac:(lia) Hn); lia).
  destruct (partition_ok lt zero N tail upper part pivot H HT HU n keys buf HN Hn) as (L & R & buf' & E & LB & P & FL & FR); try lia.
  exists (L ++ R), buf', (zlen L). split; [exact E|]. split; [lia|]. split; [now symmetry|].
  assert (zlen (L ++ R) = zlen keys) by (unfold zlen; f_equal; now apply Permutation_length).
  unfold zlen in *. rewrite app_length in *. split; [lia|]. intros i x Hx.
  destruct (Nat.lt_ge_cases i (length L)) as [Hi|Hi].
  - rewrite nth_error_app1 in Hx by lia. apply nth_error_In in Hx. rewrite Forall_forall in FL. apply FL in Hx. apply negb_true_iff in Hx. rewrite Hx. symmetry. apply Z.leb_gt. lia.
  - rewrite nth_error_app2 in Hx by lia. apply nth_error_In in Hx. rewrite Forall_forall in FR. apply FR in Hx. rewrite Hx. symmetry. apply Z.leb_le. lia.
Qed.
Print Assumptions C28_partition.

(** A concrete CompressStore/Compress: upper lanes hold the unselected keys. *)
Definition ex_tail (v : list Z) (m : list bool) : list Z := select v (mask_not m).
Lemma ex_select_len (v : list Z) m : length m = length v -> zlen (select v m) + zlen (select v (mask_not m)) = zlen v.
Proof. revert m. induction v as [|x v IH]; intros [|b m] H; try discriminate; [reflexivity|]. cbn in H. specialize (IH m ltac:(lia)). unfold zlen in *. destruct b; cbn [select mask_not map negb length] in *; fold (mask_not m); lia. Qed.
Example C28_ex : exists keys' buf' b,
  partition Z.ltb 0 4 ex_tail ex_tail true false 50 (map (fun i => Z.of_nat (i * 37 mod 101)) (seq 0 100)) 100 (repeat 0 104) = Some (keys', buf', b) /\ b = 51 /\
  forall i x, nth_error keys' i = Some x -> (50 <? x) = (b <=? Z.of_nat i).
Proof.
  destruct (C28_partition Z Z.ltb 0 4 2 ex_tail ex_tail true) with (pivot := 50) (keys := map (fun i => Z.of_nat (i * 37 mod 101)) (seq 0 100)) (buf := repeat 0 104) as (k & bu & b & E & _ & _ & _ & S); try reflexivity; try lia.
  { intros v m Hv Hm. unfold ex_tail. pose proof (ex_select_len v m Hm). lia. }
  { split; reflexivity. }
  exists k, bu, b. split; [exact E|]. split; [|exact S].
  assert (X : option_map snd (partition Z.ltb 0 4 ex_tail ex_tail true false 50 (map (fun i => Z.of_nat (i * 37 mod 101)) (seq 0 100)) 100 (repeat 0 104)) = Some 51) by (vm_compute; reflexivity).
  change 100 with (zlen (map (fun i => Z.of_nat (i * 37 mod 101)) (seq 0 100))) in X. rewrite E in X. cbn in X. congruence.
Qed.

(** C28, refuted where CompressBlendedStore is implemented as load, blend and
    store of the whole vector and Compress does not partition (blend_full = true,
    part = false: HWY_WASM_EMU256, wasm_128-inl.h 5585-5589 and 5678-5690, wasm_256-inl.h 2141-2149): the right-hand store then
    touches lanes past the end of keys. *)
Definition of_option {A} (o : option A) : bool := match o with Some _ => true | None => false end.
Theorem C28_blend_overrun_refuted : exists keys : list Z, 2 * 4 < zlen keys /\
  partition Z.ltb 0 4 ex_tail ex_tail false true 50 keys (zlen keys) (repeat 0 104) = None /\
  exists r, partition Z.ltb 0 4 ex_tail ex_tail false false 50 keys (zlen keys) (repeat 0 104) = Some r.
Proof.
  exists (repeat 60 16 ++ repeat 10 84). split; [reflexivity|]. split; [vm_compute; reflexivity|].
  assert (X : of_option (partition Z.ltb 0 4 ex_tail ex_tail false false 50 (repeat 60 16 ++ repeat 10 84) (zlen (repeat 60 16 ++ repeat 10 84)) (repeat 0 104)) = true) by (vm_compute; reflexivity).
  destruct (partition _ _ _ _ _ _ _ _ _ _ _); [eauto|discriminate].
Qed.
Print Assumptions C28_blend_overrun_refuted.
