(** Property theorems C31 and C32: VQSort, VQPartialSort, VQSelect
    (hwy/contrib/sort/vqsort-inl.h 1966-2205) for every key type. *)
From Coq Require Import ZArith List Lia Bool Permutation.
From Verif Require Import Word Word_Proofs Vec_Model Vec_Proofs Sort_Spec Partition_Model BaseCase_Model Recurse_Model Recurse_Spec Recurse_Proofs Traits_Model Traits_Proofs VQSort_Model VQSort_Spec VQSort_Proofs VQSort_NaN.
Import ListNotations.
Local Open Scope Z_scope.

(** C31.  For every key type, order, target, array (of any length that fits the address
    space), address, content of the scratch buffer and state of the random generator:
    the call terminates without access outside keys and the buffer and without a failed
    assertion, and the result is a rearrangement of the keys in the order requested.
    Where vqsort is disabled the array must not be empty (C26_empty_refuted). *)
Section C31.
Variables (c : target) (t : ktype) (desc via_cmp : bool) (tail upper : list (key t) -> list bool -> list (key t)).
Hypothesis HK : key_ok t.
Hypothesis HC : target_ok c t.
Hypothesis HP : compress_ok (vec_keys c t) tail upper.
Theorem C31_sort : forall addr keys buf s,
  0 <= addr -> zlen keys < 2 ^ 60 -> zlen buf = buf_keys c t -> rng_words s -> enabled c = true \/ keys <> [] ->
  exists keys' s', vq_sort c t desc via_cmp tail upper addr keys buf s = Some (keys', s') /\
    Permutation keys keys' /\ sorted (before t desc) keys'.
Proof.
  intros addr keys buf s Ha HL HB Hs En. apply rng_words_ok in Hs.
  destruct (sort_ok c t desc via_cmp tail upper HK HC HP addr keys buf s En HB Ha HL Hs) as (k & s' & E & P & S).
  exists k, s'. split; [exact E|]. split; [exact P|]. eapply sorted_ext; [|exact S]. apply key_traits_lt.
Qed.
Theorem C31_select : forall addr keys buf s k,
  0 <= addr -> zlen keys < 2 ^ 60 -> zlen buf = buf_keys c t -> rng_words s -> 0 <= k < zlen keys ->
  exists keys' s', vq_select c t desc via_cmp tail upper addr keys buf s k = Some (keys', s') /\
    Permutation keys keys' /\ selected (before t desc) keys' (Z.to_nat k).
Proof.
  intros addr keys buf s k Ha HL HB Hs Hk. apply rng_words_ok in Hs.
  destruct (select_ok c t desc via_cmp tail upper HK HC HP addr keys buf s k HB Ha HL Hs Hk) as (k' & s' & E & P & S).
  exists k', s'. split; [exact E|]. split; [exact P|]. eapply selected_ext; [|exact S]. apply key_traits_lt.
Qed.
(** k = 0 only without assertions, and k = 0 or num only where vqsort is enabled; see the
    refutations below and C27. *)
Theorem C31_partial_sort : forall addr keys buf s k,
  0 <= addr -> zlen keys < 2 ^ 60 -> zlen buf = buf_keys c t -> rng_words s ->
  (enabled c = true /\ 0 <= k <= zlen keys /\ (debug c = true -> 1 <= k)) \/ 1 <= k < zlen keys ->
  exists keys' s', vq_partial_sort c t desc via_cmp tail upper addr keys buf s k = Some (keys', s') /\
    Permutation keys keys' /\ partially_sorted (before t desc) keys' (Z.to_nat k).
Proof.
  intros addr keys buf s k Ha HL HB Hs Hk. apply rng_words_ok in Hs.
  destruct (partial_sort_ok c t desc via_cmp tail upper HK HC HP addr keys buf s k HB Ha HL Hs Hk) as (k' & s' & E & P & S).
  exists k', s'. split; [exact E|]. split; [exact P|]. eapply psorted_ext; [|exact S]. apply key_traits_lt.
Qed.
(** PartialSort accepts k = 0 (HWY_DASSERT(k <= num), 2012), but in a build with
    assertions every such call on an array above the base-case size aborts: the second
    Recurse asserts num != 0 (1762). *)
Theorem C48_partial_sort_k0_refuted : forall addr keys buf s,
  0 <= addr -> zlen buf = buf_keys c t -> rng_words s -> enabled c = true -> debug c = true ->
  base_case_num (big c) (lanes_per_key t) (vec_keys c t) < zlen keys < 2 ^ 60 ->
  vq_partial_sort c t desc via_cmp tail upper addr keys buf s 0 = None.
Proof. intros addr keys buf s Ha HB Hs En Hd HL. apply rng_words_ok in Hs. eapply partial_sort_k0_aborts; eauto. Qed.
End C31.
Print Assumptions C31_sort.
Print Assumptions C31_select.
Print Assumptions C31_partial_sort.
Print Assumptions C48_partial_sort_k0_refuted.

(** Non-vacuity: an SSE4-like target (16-byte vectors), u64 and u128 keys, 100 keys:
    several levels of recursion.  The random state is arbitrary. *)
Definition sse4 : target := {| vec_bytes := 16; max_bytes := 16; big := true; fault := false; debug := true; enabled := true; part := false |}.
Definition sve512 : target := {| vec_bytes := 64; max_bytes := 256; big := true; fault := true; debug := false; enabled := true; part := true |}.
Definition rest {K} (v : list K) (m : list bool) : list K := select v (mask_not m).
Lemma rest_ok {K} N : compress_ok N (@rest K) rest.
Proof.
  split; [|reflexivity]. intros v m Hv. subst N. revert m. induction v as [|x v IH]; intros [|b m] H; try discriminate. cbn in H. specialize (IH m ltac:(lia)).
  unfold rest, zlen in *. destruct b; cbn [select mask_not map negb length] in *; fold (mask_not m) in *; lia.
Qed.
Lemma sse4_ok t : key_ok t -> target_ok sse4 t.
Proof.
  intros Hk. split; [exists 4; split; [lia|reflexivity]|]. split; [cbn; lia|]. split; [cbn; lia|].
  pose proof (key_size_cases t Hk). unfold key_size in *. cbn. nia.
Qed.
Lemma sve512_ok t : key_ok t -> target_ok sve512 t.
Proof.
  intros Hk. split; [exists 6; split; [lia|reflexivity]|]. split; [cbn; lia|]. split; [cbn; lia|].
  pose proof (key_size_cases t Hk). unfold key_size in *. cbn. nia.
Qed.
Definition ex_keys (n : nat) : list Z := map (fun i => Z.of_nat (i * 67 mod 101)) (seq 0 n).
Example C31_ex : exists keys' s', vq_sort sse4 (IntKey false 64) false false rest rest 3 (map (word_of 64) (ex_keys 100)) (repeat (word_of 64 0) 52) (1, 2, 3) = Some (keys', s') /\
  sorted (before (IntKey false 64) false) keys' /\ map bits (firstn 5 keys') = [0; 1; 2; 3; 4].
Proof.
  destruct (C31_sort sse4 (IntKey false 64) false false rest rest) with (addr := 3) (keys := map (word_of 64) (ex_keys 100)) (buf := repeat (word_of 64 0) 52) (s := (1, 2, 3)) as (k & s' & E & P & S).
  { cbn; tauto. } { apply sse4_ok; cbn; tauto. } { apply rest_ok. } { lia. } { reflexivity. } { reflexivity. } { cbn; unfold in_u; lia. } { left; reflexivity. }
  exists k, s'. split; [exact E|]. split; [exact S|].
  assert (X : option_map (fun r => map bits (firstn 5 (fst r))) (vq_sort sse4 (IntKey false 64) false false rest rest 3 (map (word_of 64) (ex_keys 100)) (repeat (word_of 64 0) 52) (1, 2, 3)) = Some [0; 1; 2; 3; 4]) by (vm_compute; reflexivity).
  rewrite E in X. exact (f_equal (fun o => match o with Some l => l | None => [] end) X).
Qed.
Example C48_ex_k0 : vq_partial_sort sse4 (IntKey false 64) false false rest rest 3 (map (word_of 64) (ex_keys 100)) (repeat (word_of 64 0) 52) (1, 2, 3) 0 = None.
Proof.
  apply C48_partial_sort_k0_refuted; [cbn; tauto|apply sse4_ok; cbn; tauto|apply rest_ok|lia|reflexivity|cbn; unfold in_u; lia|reflexivity|reflexivity|].
  vm_compute. split; reflexivity.
Qed.
Example C31_ex_128 : option_map (fun r => map bits (firstn 5 (fst r))) (vq_sort sse4 U128 true false rest rest 0 (map (word_of 128) (ex_keys 100)) (repeat (word_of 128 0) 26) (1, 2, 3)) = Some [100; 99; 98; 97; 96] /\ buf_keys sse4 U128 = 26.
Proof. split; [vm_compute; reflexivity|reflexivity]. Qed.

(** C32.  Sort of floating-point arrays (half, single, double) of any bit patterns except
    -0.0: the result is a sorted rearrangement of the keys that are not NaN, followed by
    as many canonical NaN as there were NaN. *)
Theorem C32_sort_nan : forall (c : target) (e p : positive) (desc via_cmp : bool) (tail upper : list (key (FloatKey e p)) -> list bool -> list (key (FloatKey e p))),
  key_ok (FloatKey e p) -> target_ok c (FloatKey e p) -> compress_ok (vec_keys c (FloatKey e p)) tail upper ->
  let sign := 2 ^ (Zpos e + Zpos p) in
  let nan z := (2 ^ Zpos e - 1) * 2 ^ Zpos p <? z mod sign in
  let rank z := if z <? sign then z else - (z - sign) in
  forall addr raw buf s, Forall (fun z => 0 <= z < 2 * sign /\ z <> sign) raw ->
  0 <= addr -> zlen raw < 2 ^ 60 -> zlen buf = buf_keys c (FloatKey e p) -> rng_words s -> enabled c = true \/ raw <> [] ->
  exists keys s', vq_sort_float c e p desc via_cmp tail upper addr raw buf s = Some (keys ++ repeat (sign - 1) (length (filter nan raw)), s') /\
    Permutation (filter (fun z => negb (nan z)) raw) keys /\
    sorted (fun b a => if desc then rank a <? rank b else rank b <? rank a) keys.
Proof.
  intros c e p desc via tail upper HK HC HP sign nan rank addr raw buf s HR Ha HL HB Hs En. apply rng_words_ok in Hs.
  assert (EN : forall z, nan z = is_nan e p z). { intros z. unfold nan, is_nan, finf, fabs. rewrite Z.shiftl_mul_pow2 by lia. reflexivity. }
  assert (ER : forall z, rank z = fval e p z). { intros z. unfold rank, fval. change (fsign e p) with sign. destruct (z <? sign); lia. }
  destruct (nan_sort_ok c e p desc via tail upper HK HC HP addr raw buf s HR En HB Ha HL Hs) as (k & s' & E & P & S).
  exists k, s'. split; [|split].
  - rewrite E. rewrite (filter_ext _ _ EN). reflexivity.
  - rewrite <- P. unfold non_nan. rewrite (filter_ext (fun z => negb (nan z)) (fun z => negb (is_nan e p z))); [reflexivity|]. intros z. now rewrite EN.
  - eapply sorted_ext; [|exact S]. intros a b. cbn beta. now rewrite !ER.
Qed.
Print Assumptions C32_sort_nan.
Definition nan64 : Z := 2 ^ 63 - 1.
Definition dbl (n : Z) : Z := 0x4000000000000000 + n. (* doubles from 2.0 upwards *)
Example C32_ex : option_map fst (vq_sort_float sse4 11 52 false false rest rest 0 [dbl 3; 0x7FF8000000000000; dbl 1; 0; 0xFFF0000000000000; 0xFFF0000000000001] (repeat (fk 11 52 0) 52) (1, 2, 3)) =
  Some [0xFFF0000000000000; 0; dbl 1; dbl 3; nan64; nan64].
Proof. vm_compute. reflexivity. Qed.

(** C47, refuted for VQSelect and VQPartialSort (2025-2036, 2076-2090): NaN are first
    replaced by the last value (infinity), but only Sort guarantees that these end up at
    the back; Fill(NaN) then overwrites other keys, and infinities the caller never
    passed remain in the array. *)
Definition nan_middle : list Z := map dbl (rev (map Z.of_nat (seq 0 15))) ++ [nan64; nan64] ++ map dbl (rev (map Z.of_nat (seq 15 15))).
Definition loses (r : option (list Z * rng)) (raw : list Z) : Prop :=
  exists keys s, r = Some (keys, s) /\ (exists x, In x raw /\ ~ In x keys) /\ (exists y, In y keys /\ ~ In y raw).
Lemma loses_check r raw x y : (match r with Some (keys, _) => negb (existsb (Z.eqb x) keys) && existsb (Z.eqb y) keys | None => false end) = true ->
  existsb (Z.eqb x) raw = true -> existsb (Z.eqb y) raw = false -> loses r raw.
Proof.
  destruct r as [[keys s]|]; [|discriminate]. rewrite andb_true_iff, negb_true_iff. intros [H1 H2] H3 H4.
  assert (EX : forall z l, existsb (Z.eqb z) l = true <-> In z l). { intros z l. rewrite existsb_exists. split; [intros (a & Ha & E); apply Z.eqb_eq in E; now subst|intros H; exists z; split; [exact H|apply Z.eqb_refl]]. }
  exists keys, s. split; [reflexivity|]. split; [exists x; rewrite <- !EX, H1, H3|exists y; rewrite <- !EX, H2, H4]; split; congruence.
Qed.
Theorem C47_select_nan_refuted : loses (vq_select_float sse4 11 52 false false rest rest 0 nan_middle (repeat (fk 11 52 0) 52) (1, 2, 3) 2) nan_middle.
Proof. apply (loses_check _ _ (dbl 21) 0x7FF0000000000000); vm_compute; reflexivity. Qed.
Theorem C47_partial_sort_nan_refuted : loses (vq_partial_sort_float sse4 11 52 false false rest rest 0 nan_middle (repeat (fk 11 52 0) 52) (1, 2, 3) 2) nan_middle.
Proof. apply (loses_check _ _ (dbl 21) 0x7FF0000000000000); vm_compute; reflexivity. Qed.
Print Assumptions C47_select_nan_refuted.
Print Assumptions C47_partial_sort_nan_refuted.
