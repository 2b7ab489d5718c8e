(** Property theorems C07-C09 (hwy/bit_set.h). *)
From Coq Require Import ZArith List Lia Bool.
From Verif Require Import BitSet_Model BitSet_Spec BitSet_Proofs.
Import ListNotations.
Local Open Scope Z_scope.

(** C07: after any history with in-range arguments, every observer of BitSet64
    agrees with the mathematical set the history denotes. *)
Theorem C07_bitset64_is_a_set : forall ops, Forall (op_ok 64) ops ->
  exists b, bs64_run bs64_init ops = Some b /\
  let S := spec_run empty ops in
  (forall i, S i = true -> 0 <= i < 64) /\
  (forall i, 0 <= i < 64 -> bs64_Get b i = Some (S i)) /\
  (bs64_Any b = true <-> exists i, S i = true) /\
  ((exists i, S i = true) -> exists r, bs64_First b = Some r /\ S r = true /\ forall j, S j = true -> r <= j) /\
  (0 <= bs64_Get64 b < 2 ^ 64 /\ forall i, 0 <= i < 64 -> Z.testbit (bs64_Get64 b) i = S i) /\
  bs64_Foreach b = Some (members 64 S) /\
  bs64_Count b = Z.of_nat (length (members 64 S)).
Proof. exact bs64_correct. Qed.
Print Assumptions C07_bitset64_is_a_set.

(** Out-of-range indices are undefined for every state. *)
Theorem C07_bitset64_out_of_range_undefined : forall b i, ~ (0 <= i < 64) ->
  bs64_Set b i = None /\ bs64_Clear b i = None /\ bs64_Get b i = None.
Proof. exact bs64_undefined. Qed.
Print Assumptions C07_bitset64_out_of_range_undefined.
Example C07_ex : Forall (op_ok 64) [OSet 3; OSet 63; OSetNZ 5; OClear 0] /\
  match bs64_run bs64_init [OSet 3; OSet 63; OSetNZ 5; OClear 0] with
  | Some b => bs64_Foreach b = Some [2; 3; 63] | None => False end.
Proof. split; [repeat constructor; cbn; lia | vm_compute; reflexivity]. Qed.

(** C08: the two-level set, for every capacity that is a multiple of 64. *)
Theorem C08_bitset4096_is_a_set : forall kMaxSize ops,
  0 < kMaxSize <= 4096 -> (64 | kMaxSize) -> Forall (op_ok kMaxSize) ops ->
  exists s, bs4096_run (bs4096_init kMaxSize) ops = Some s /\
  let S := spec_run empty ops in
  (forall i, S i = true -> 0 <= i < kMaxSize) /\
  (forall i, 0 <= i < kMaxSize -> bs4096_Get s i = Some (S i)) /\
  (bs4096_Any s = true <-> exists i, S i = true) /\
  ((exists i, S i = true) -> exists r, bs4096_First s = Some r /\ S r = true /\ forall j, S j = true -> r <= j) /\
  (exists g, bs4096_Get64 s = Some g /\ 0 <= g < 2 ^ 64 /\ forall i, 0 <= i < 64 -> Z.testbit g i = S i) /\
  bs4096_Foreach s = Some (members (Z.to_nat kMaxSize) S) /\
  bs4096_Count s = Some (Z.of_nat (length (members (Z.to_nat kMaxSize) S))).
Proof. exact bs4096_correct. Qed.
Print Assumptions C08_bitset4096_is_a_set.
Example C08_ex : Forall (op_ok 4096) [OSet 4095; OSet 64; OSetNZ 9; OClear 3; OClear 64; OSet 130] /\
  match bs4096_run (bs4096_init 4096) [OSet 4095; OSet 64; OSetNZ 9; OClear 3; OClear 64; OSet 130] with
  | Some s => bs4096_Foreach s = Some [0; 130; 4095] /\ bs4096_Count s = Some 3 | None => False end.
Proof. split; [repeat constructor; cbn; lia | vm_compute; auto]. Qed.

(** C09 is false: kMaxSize = 100 passes the static_assert but index 99 is outside bits_[1]. *)
Theorem C09_bitset4096_any_capacity_refuted : exists kMaxSize i, 0 < kMaxSize <= 4096 /\ 0 <= i < kMaxSize /\
  bs4096_Set (bs4096_init kMaxSize) i = None /\ bs4096_Get (bs4096_init kMaxSize) i = None /\
  bs4096_Clear (bs4096_init kMaxSize) i = None.
Proof. exact bs4096_oob_witness. Qed.
Print Assumptions C09_bitset4096_any_capacity_refuted.

(** Exactly the indices from kMaxSize/64*64 on are affected, in every state. *)
Theorem C09_bitset4096_oob_indices : forall kMaxSize i s, 0 <= kMaxSize <= 4096 ->
  length (words s) = length (words (bs4096_init kMaxSize)) ->
  kMaxSize / 64 * 64 <= i < kMaxSize ->
  bs4096_Set s i = None /\ bs4096_Get s i = None /\ bs4096_Clear s i = None.
Proof. exact bs4096_oob. Qed.
Print Assumptions C09_bitset4096_oob_indices.

(** What does hold for an arbitrary capacity: histories that only use indices
    below the largest multiple of 64 not above kMaxSize. *)
Theorem C09_bitset4096_any_capacity_partial : forall kMaxSize ops,
  64 <= kMaxSize <= 4096 -> Forall (op_ok (kMaxSize / 64 * 64)) ops ->
  exists s, bs4096_run (bs4096_init kMaxSize) ops = Some s /\
  let S := spec_run empty ops in
  (forall i, 0 <= i < kMaxSize / 64 * 64 -> bs4096_Get s i = Some (S i)) /\
  bs4096_Foreach s = Some (members (Z.to_nat (kMaxSize / 64 * 64)) S) /\
  bs4096_Count s = Some (Z.of_nat (length (members (Z.to_nat (kMaxSize / 64 * 64)) S))).
Proof.
  intros kMaxSize ops HK HF.
  assert (HI : bs4096_init kMaxSize = bs4096_init (kMaxSize / 64 * 64)).
  { unfold bs4096_init. now rewrite Z.div_mul by lia. }
  rewrite HI.
  assert (0 < kMaxSize / 64) by (apply Z.div_str_pos; lia).
    destruct (bs4096_correct (kMaxSize / 64 * 64) ops) as (s & R & _ & G & _ & _ & _ & FE & CN).
    + pose proof (Z.mul_div_le kMaxSize 64). lia.
    + exists (kMaxSize / 64). reflexivity.
    + exact HF.
    + exists s. split; [exact R|]. split; [exact G|]. split; [exact FE|exact CN].
Qed.
Print Assumptions C09_bitset4096_any_capacity_partial.
Example C09_ex : Forall (op_ok (100 / 64 * 64)) [OSet 3; OSet 63; OSetNZ 5; OClear 0] /\
  match bs4096_run (bs4096_init 100) [OSet 3; OSet 63; OSetNZ 5; OClear 0] with
  | Some s => bs4096_Foreach s = Some [2; 3; 63] | None => False end.
Proof. split; [repeat constructor; cbn; lia | vm_compute; reflexivity]. Qed.
