(** C51 - C56: the random generators (hwy/contrib/random). *)
From Coq Require Import ZArith NArith List Lia Bool.
From Verif Require Import Word Vec_Model Float_Spec Random_Model Random_Spec Random_Linear Random_Cert Random_Proofs Random_Vec Random_Uniform.
Import ListNotations.
Local Open Scope Z_scope.

(** C51: Jump() is 2^128 and LongJump() is 2^192 calls of the generator. *)
Theorem C51_jump : forall s, wf s ->
  jump kJump s = after (2 ^ 128) s /\ jump kLongJump s = after (2 ^ 192) s.
Proof. intros s H. split; [now apply jump_ok|now apply long_jump_ok]. Qed.
Print Assumptions C51_jump.
(** Hence Xoshiro(seed, thread_id) starts thread_id * 2^128 calls after
    Xoshiro(seed). *)
Theorem C51_thread_position : forall seed thread_id, 0 <= thread_id ->
  xoshiro_thread seed thread_id = after (Z.to_N (2 ^ 128 * thread_id)) (xoshiro_seed seed).
Proof.
  intros seed id H. unfold xoshiro_thread. rewrite (repeat_jump kJump (2 ^ 128)); auto using jump_ok, seed_wf.
  f_equal. rewrite Z2N.inj_mul by lia. apply N.mul_comm.
Qed.
Print Assumptions C51_thread_position.

(** C52: from any state but zero, the state sequence first repeats after exactly
    2^256 - 1 calls. *)
Theorem C52_period : forall s, wf s -> s <> (0, 0, 0, 0) ->
  forall k, after k s = s <-> N.divide (2 ^ 256 - 1) k.
Proof. intros s H Nz k. rewrite after_Tl by exact H. now apply (period_ok s k). Qed.
Print Assumptions C52_period.
(** Hence the states visited by different lanes, of the same or of different
    threads' generators, in their first 2^128 calls are all different. *)
Theorem C52_vector_streams_disjoint : forall lanes seed t t' i i' a a',
  lanes <= 2 ^ 63 -> 0 <= t < 2 ^ 64 -> 0 <= t' < 2 ^ 64 ->
  (i < Z.to_nat lanes)%nat -> (i' < Z.to_nat lanes)%nat -> (a < 2 ^ 128)%N -> (a' < 2 ^ 128)%N ->
  column (vafter a (vector_xoshiro lanes seed t)) i = column (vafter a' (vector_xoshiro lanes seed t')) i' ->
  t = t' /\ i = i' /\ a = a'.
Proof. exact streams_disjoint. Qed.
Print Assumptions C52_vector_streams_disjoint.
Theorem C52_scalar_streams_disjoint : forall seed t t' a a',
  0 <= t < 2 ^ 64 -> 0 <= t' < 2 ^ 64 -> (a < 2 ^ 128)%N -> (a' < 2 ^ 128)%N ->
  after a (xoshiro_thread seed t) = after a' (xoshiro_thread seed t') -> t = t' /\ a = a'.
Proof.
  intros seed t t' a a' Ht Ht' Ha Ha' E. rewrite !C51_thread_position in E by lia. rewrite <- !after_add in E.
  assert (F : forall a t, 0 <= t -> (a + Z.to_N (2 ^ 128 * t))%N = Z.to_N (2 ^ 192 * 0 + 2 ^ 128 * t + Z.of_N a)).
  { clear. intros a t Ht. rewrite (Z2N.inj_add (2 ^ 192 * 0 + 2 ^ 128 * t) (Z.of_N a)), N2Z.id by lia. rewrite N.add_comm. f_equal. }
  rewrite !F in E by lia.
  assert (Z.of_N a < 2 ^ 128) by (change (2 ^ 128) with (Z.of_N (2 ^ 128)); lia).
  assert (Z.of_N a' < 2 ^ 128) by (change (2 ^ 128) with (Z.of_N (2 ^ 128)); lia).
  assert (2 ^ 128 * 2 ^ 64 < 2 ^ 256 - 1) by reflexivity.
  apply seed_position in E; [|lia|lia]. apply position_inj in E; lia.
Qed.
Print Assumptions C52_scalar_streams_disjoint.

(** C53: call number k of VectorXoshiro(seed, thread) returns in lane i what the
    scalar generator returns on call number 2^192 * thread + 2^128 * i + k. *)
Theorem C53_vector_call : forall lanes seed thread k, 0 <= thread ->
  vcall k (vector_xoshiro lanes seed thread) = lane_results lanes seed thread k.
Proof. exact vcall_ok. Qed.
Print Assumptions C53_vector_call.
(** Array results: operator()(n), operator()<n>() (post = identity), Uniform(n)
    and Uniform<n>() (post = uniform), after k0 earlier calls, for n a multiple of
    the lane count: n / lanes consecutive calls, concatenated. *)
Theorem C53_array_partial : forall (B : Type) (zero : B) (post : Z -> B) lanes seed thread n k0,
  0 < lanes -> 0 <= thread -> 0 <= n -> n mod lanes = 0 ->
  generate zero lanes n post (vafter k0 (vector_xoshiro lanes seed thread))
  = Some (flat_map (fun k => map post (lane_results lanes seed thread (k0 + N.of_nat k))) (seq 0 (Z.to_nat (n / lanes))),
          vafter (Z.to_N (n / lanes) + k0) (vector_xoshiro lanes seed thread)).
Proof. intros. now apply generate_after. Qed.
Print Assumptions C53_array_partial.
(** For any other n the last Store writes beyond the end of the result array. *)
Theorem C53_array_refuted : forall (B : Type) (zero : B) (post : Z -> B) lanes seed thread n k0,
  0 < lanes -> 0 <= thread -> 0 <= n -> n mod lanes <> 0 ->
  generate zero lanes n post (vafter k0 (vector_xoshiro lanes seed thread)) = None.
Proof. intros. now apply generate_after_oob. Qed.
Print Assumptions C53_array_refuted.

(** C54: CachedXoshiro<size> with size a multiple of the lane count: call number
    j returns lane (j mod lanes) of vector call (j / lanes). *)
Theorem C54_cached_partial : forall lanes size seed thread calls,
  0 < lanes -> 0 < size -> size mod lanes = 0 -> 0 <= thread ->
  exists c0, cached_new lanes size seed thread = Some c0 /\ exists c',
  cached_calls lanes size calls c0
  = Some (map (fun j => stream seed thread (Z.of_nat j mod lanes) (Z.to_N (Z.of_nat j / lanes))) (seq 0 calls), c').
Proof. intros. now apply cached_ok. Qed.
Print Assumptions C54_cached_partial.
(** The static_assert (size is a power of two) also admits sizes below the lane
    count; the constructor then writes beyond its array. *)
Theorem C54_small_size_refuted : forall lanes size seed thread,
  0 < size < lanes -> 0 <= thread -> cached_new lanes size seed thread = None.
Proof. intros. apply cached_oob; try lia. rewrite Z.mod_small; lia. Qed.
Print Assumptions C54_small_size_refuted.

(** C55: Uniform() of a random word r is the double (r / 2^11) / 2^53 exactly;
    so it is in [0, 1), and each of the 2^53 multiples of 2^-53 there is the
    result for exactly the 2^11 words that share these top bits. *)
Theorem C55_uniform : forall r, u64 r ->
  is_pattern binary64 (uniform r) /\ ~ is_nan binary64 (uniform r) /\ negative binary64 (uniform r) = false /\
  value binary64 (uniform r) = r / 2 ^ 11 * 2 ^ (1074 - 53) /\
  0 <= value binary64 (uniform r) < 2 ^ 1074 /\
  forall m, 0 <= m < 2 ^ 53 -> (value binary64 (uniform r) = m * 2 ^ (1074 - 53) <-> m * 2 ^ 11 <= r < (m + 1) * 2 ^ 11).
Proof.
  intros r Hr. destruct (uniform_ok r Hr) as (A & B & C & D). pose proof Hr as Hr'. unfold u64 in Hr'.
  assert (Hm : 0 <= r / 2 ^ 11 < 2 ^ 53).
  { split; [apply Z.div_pos; lia|]. apply Z.div_lt_upper_bound; [lia|]. change (2 ^ 11 * 2 ^ 53) with (2 ^ 64). lia. }
  assert (P : 0 < 2 ^ (1074 - 53)) by (apply Z.pow_pos_nonneg; lia).
  split; [exact A|]. split; [exact C|]. split; [exact B|]. split; [exact D|]. rewrite D. split.
  - split; [apply Z.mul_nonneg_nonneg; lia|].
    replace (2 ^ 1074) with (2 ^ 53 * 2 ^ (1074 - 53)) by (rewrite <- Z.pow_add_r by lia; f_equal). apply Z.mul_lt_mono_pos_r; lia.
  - intros m H. rewrite Z.mul_cancel_r by lia. pose proof (Z.div_mod r (2 ^ 11) ltac:(lia)) as E.
    pose proof (Z.mod_pos_bound r (2 ^ 11) ltac:(lia)) as F. change (2 ^ 11) with 2048 in *. split; lia.
Qed.
Print Assumptions C55_uniform.
(** The two spellings of kMulConst agree: 0.d (53 decimal digits) = 2^-53, and the
    bit pattern denotes it (in units of 2^-1074). *)
Theorem C55_constant : kMulConst_digits * 2 ^ 53 = 10 ^ 53 /\ value binary64 kMulConst = 2 ^ (1074 - 53).
Proof. split; vm_compute; reflexivity. Qed.

(** C56: no seed yields the all-zero state (from which the generator would only
    return 0), and different seeds yield different states. *)
Theorem C56_seed : forall seed, wf (xoshiro_seed seed) /\ xoshiro_seed seed <> (0, 0, 0, 0).
Proof. intros. split; [apply seed_wf|apply seed_nonzero]. Qed.
Print Assumptions C56_seed.
Theorem C56_seed_injective : forall a b, u64 a -> u64 b -> xoshiro_seed a = xoshiro_seed b -> a = b.
Proof. exact seed_inj. Qed.
Print Assumptions C56_seed_injective.
(** and the all-zero state never arises later. *)
Theorem C56_never_zero : forall seed k, wf (after k (xoshiro_seed seed)) /\ after k (xoshiro_seed seed) <> (0, 0, 0, 0).
Proof.
  intros seed k. split; [apply wf_after, seed_wf|]. rewrite after_Tl by apply seed_wf. intros E.
  apply (seed_nonzero seed). apply (iter_inj k); [apply seed_wf|apply wf_zero|].
  rewrite E. clear. induction k using N.peano_ind; [reflexivity|]. rewrite N.iter_succ, <- IHk. reflexivity.
Qed.
Print Assumptions C56_never_zero.

(** Concrete cases.  SplitMix64 / xoshiro256++ reference values: the first
    outputs for seed 0 and for the state (1, 2, 3, 4). *)
Example C53_reference : map (fun k => output k (1, 2, 3, 4)) [0%N; 1%N; 2%N] = [41943041; 58720359; 3588806011781223].
Proof. vm_compute. reflexivity. Qed.
Example C56_reference : xoshiro_seed 0 = (0xe220a8397b1dcdaf, 0x6e789e6aa1b965f4, 0x06c45d188009454f, 0xf88bb8a8724c81ec).
Proof. vm_compute. reflexivity. Qed.
Example C53_case : exists arr g, generate 0 2 4 (fun x => x) (vector_xoshiro 2 7 0) = Some (arr, g) /\ length arr = 4%nat /\
  nth 0 arr 0 = stream 7 0 0 0 /\ nth 2 arr 0 = stream 7 0 0 1 /\ nth 3 arr 0 = stream 7 0 1 1.
Proof.
  pose proof (C53_array_partial Z 0 (fun x => x) 2 7 0 4 0 ltac:(lia) ltac:(lia) ltac:(lia) eq_refl) as E.
  eexists _, _. split; [exact E|]. split; [reflexivity|]. split; [reflexivity|]. split; reflexivity.
Qed.
Example C55_case : uniform 0xFFFFFFFFFFFFFFFF = 0x3FEFFFFFFFFFFFFF /\ uniform 0x8000000000000000 = 0x3FE0000000000000 /\ uniform 2047 = 0.
Proof. vm_compute. repeat split; reflexivity. Qed.
