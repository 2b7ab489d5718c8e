(** C86-C88: LoadN, LoadNOr, StoreN on every target family. [zero] is the zero lane; [J] stands for the unknown contents of register lanes the code leaves undefined: results may not depend on it. *)
From Coq Require Import List Arith Bool Lia.
From Verif Require Import LoadN_Model LoadN_Spec LoadN_Proofs LoadN_AVX2.
Import ListNotations.

(** ** C86 LoadN: never reads outside p[0 .. min(num, N)) (generic, EMU128, AVX-512/SVE) or p[0 .. num) (AVX2), and returns these elements followed by zeros *)
Theorem C86_loadn_generic : forall (A : Type) (zero : A) k L mem p num, lanes_128 L -> p + Nat.min num (L * 2 ^ k) <= length mem ->
  exists v, loadn zero k L mem p num = Some v /\ is_loadn zero (L * 2 ^ k) mem p num v.
Proof. intros A zero k L mem p num HL H. eexists. split; [apply loadn_ok; auto | apply spec_list_ok; auto]. Qed.
Theorem C86_loadn_avx2_narrow : forall (A : Type) (zero : A) cst sz N R g mem p num, avx2_shape sz N R g -> p + num <= length mem ->
  exists v, avx2_loadn zero cst N R g mem p num = Some v /\ is_loadn zero N mem p num v.
Proof. intros A zero cst sz N R g mem p num Hs H. eapply avx2_loadn_ok; eauto. lia. Qed.
Theorem C86_loadn_avx2_wide : forall (A : Type) (zero : A) N R mem p num, N <= R -> p + num <= length mem ->
  exists v, avx2_loadn_wide zero N R mem p num = Some v /\ is_loadn zero N mem p num v.
Proof. intros A zero N R mem p num Hs H. apply avx2_loadn_wide_ok; auto. lia. Qed.
Theorem C86_loadn_masked : forall (A : Type) (zero : A) N mem p num, p + Nat.min num N <= length mem ->
  exists v, masked_loadn zero N mem p num = Some v /\ is_loadn zero N mem p num v.
Proof. intros. apply masked_loadn_ok; auto. Qed.
Theorem C86_loadn_emu128 : forall (A : Type) (zero : A) N mem p num, p + Nat.min num N <= length mem ->
  exists v, emu_loadn zero N mem p num = Some v /\ is_loadn zero N mem p num v.
Proof. intros. apply emu_loadn_ok; auto. Qed.
(** the hypotheses are met: 27 of 32 bytes at the very end of the memory, and the results are as computed *)
Example C86_nonvacuous : exists v, loadn 0 1 16 (seq 1 30) 3 27 = Some v /\ v = seq 4 27 ++ repeat 0 5 /\ 3 + Nat.min 27 (16 * 2 ^ 1) <= length (seq 1 30) /\ lanes_128 16.
Proof. eexists. split; [vm_compute; reflexivity|]. split; [reflexivity|]. split; [vm_compute; lia | unfold lanes_128; auto]. Qed.
Example C86_nonvacuous_avx2 : avx2_shape 1 8 16 4 /\ avx2_loadn 0 false 8 16 4 (seq 1 9) 2 7 = Some (seq 3 7 ++ [0]) /\ avx2_loadn 0 true 8 16 4 (seq 1 9) 6 3 = Some ([7; 8; 9] ++ repeat 0 5).
Proof. split; [|split; vm_compute; reflexivity]. unfold avx2_shape. split; auto. split; auto. split; [exists 3|]; reflexivity. Qed.
(** one element less and the load faults: nothing beyond is needed *)
Example C86_tight : loadn 0 1 16 (seq 1 29) 3 27 = None.
Proof. vm_compute. reflexivity. Qed.

(** ** C87 LoadNOr: the remaining lanes come from the same lanes of [no] *)
Theorem C87_loadnor_avx2_narrow_partial : forall (A : Type) (zero : A) J cst sz N R g no mem p num, avx2_shape sz N R g -> length no = N -> ~ (sz = 1 /\ N = 2) -> p + num <= length mem ->
  exists v, avx2_loadnor zero J cst N R g no mem p num = Some v /\ is_loadnor no N mem p num v.
Proof. intros A zero J cst sz N R g no mem p num Hs Hno Hn H. eapply avx2_loadnor_ok; eauto; [tauto | lia]. Qed.
Theorem C87_loadnor_avx2_wide : forall (A : Type) (zero : A) J N R no mem p num, length no = N -> N <= R -> p + num <= length mem ->
  exists v, avx2_loadnor_wide zero J N R no mem p num = Some v /\ is_loadnor no N mem p num v.
Proof. intros A zero J N R no mem p num Hno Hs H. apply avx2_loadnor_wide_ok; auto. lia. Qed.
Theorem C87_loadnor_masked : forall (A : Type) (zero : A) N no mem p num, length no = N -> p + Nat.min num N <= length mem ->
  exists v, masked_loadnor zero N no mem p num = Some v /\ is_loadnor no N mem p num v.
Proof. intros. apply masked_loadnor_ok; auto. Qed.
Theorem C87_loadnor_emu128 : forall (A : Type) N (no mem : list A) p num, length no = N -> p + Nat.min num N <= length mem ->
  exists v, emu_loadnor N no mem p num = Some v /\ is_loadnor no N mem p num v.
Proof. intros. apply emu_loadnor_ok; auto. Qed.
(** generic targets: correct when all lanes of [no] are equal ... *)
Theorem C87_loadnor_generic_partial : forall (A : Type) J (c : A) k L mem p num, lanes_128 L -> p + Nat.min num (L * 2 ^ k) <= length mem ->
  exists v, loadnor J k L (repeat c (L * 2 ^ k)) mem p num = Some v /\ is_loadnor (repeat c (L * 2 ^ k)) (L * 2 ^ k) mem p num v.
Proof. intros A J c k L mem p num HL H. eexists. split; [apply loadnor_uniform; auto | apply spec_list_or_ok; auto]. apply repeat_length. Qed.
(** ... and AVX2 pairs of bytes, likewise *)
Theorem C87_loadnor_avx2_uniform_partial : forall (A : Type) (zero : A) J cst sz N R g c mem p num, avx2_shape sz N R g -> p + num <= length mem ->
  exists v, avx2_loadnor zero J cst N R g (repeat c N) mem p num = Some v /\ is_loadnor (repeat c N) N mem p num v.
Proof. intros A zero J cst sz N R g c mem p num Hs H. eapply avx2_loadnor_ok; eauto; [apply repeat_length | intros (_ & ->); reflexivity | lia]. Qed.
(** generic vectors of one or four lanes: correct for every [no] *)
Theorem C87_loadnor_generic_1_4_partial : forall (A : Type) J L (no mem : list A) p num, L = 1 \/ L = 4 -> length no = L -> p + Nat.min num L <= length mem ->
  exists v, loadnor J 0 L no mem p num = Some v /\ is_loadnor no L mem p num v.
Proof. intros A J L no mem p num HL Hno H. eexists. split; [apply loadnor_1_4; auto | apply spec_list_or_ok; auto]. Qed.
(** For other vectors the lanes come from other positions of [no]: two lanes, one loaded: lane 1 is no[0] *)
Definition C87_bad (v : option (list nat)) (N : nat) (no mem : list nat) (num : nat) : Prop := exists r, v = Some r /\ length no = N /\ num <= length mem /\ ~ is_loadnor no N mem 0 num r.
Local Ltac bad i := eexists; split; [vm_compute; reflexivity|]; split; [reflexivity|]; split; [vm_compute; lia|]; intros [_ B]; specialize (B i ltac:(lia)); vm_compute in B; discriminate B.
Theorem C87_loadnor_generic_refuted_2 : forall J, C87_bad (loadnor J 0 2 [100; 101] [1] 0 1) 2 [100; 101] [1] 1.
Proof. intros. bad 1. Qed.
Theorem C87_loadnor_generic_refuted_8 : forall J, C87_bad (loadnor J 0 8 (seq 100 8) [1; 2; 3; 4] 0 4) 8 (seq 100 8) [1; 2; 3; 4] 4.
Proof. intros. bad 4. Qed.
Theorem C87_loadnor_generic_refuted_16 : forall J, C87_bad (loadnor J 0 16 (seq 100 16) [1; 2] 0 2) 16 (seq 100 16) [1; 2] 2.
Proof. intros. bad 4. Qed.
Theorem C87_loadnor_generic_refuted_wide : forall J, C87_bad (loadnor J 1 4 (seq 100 8) [1; 2; 3; 4; 5] 0 5) 8 (seq 100 8) [1; 2; 3; 4; 5] 5.
Proof. intros. bad 5. Qed.
Theorem C87_loadnor_avx2_refuted_2_bytes : forall J, avx2_shape 1 2 16 4 /\ C87_bad (avx2_loadnor 0 J false 2 16 4 [100; 101] [1] 0 1) 2 [100; 101] [1] 1.
Proof. intros. split. { unfold avx2_shape. split; auto. split; auto. split; [exists 1|]; reflexivity. } bad 1. Qed.
Example C87_nonvacuous : forall J, avx2_shape 2 8 8 2 /\ avx2_loadnor 0 J false 8 8 2 (seq 100 8) (seq 1 9) 4 5 = Some [5; 6; 7; 8; 9; 105; 106; 107] /\
  loadnor J 1 16 (repeat 9 32) (seq 1 30) 3 19 = Some (seq 4 19 ++ repeat 9 13).
Proof. intros J. split; [|split; vm_compute; reflexivity]. unfold avx2_shape. split; auto. split; auto. split; [exists 3|]; reflexivity. Qed.

(** ** C88 StoreN: writes exactly p[0 .. min(num, N)), and touches nothing else *)
Theorem C88_storen_generic : forall (A : Type) J k L (v mem : list A) p num, lanes_128 L -> length v = L * 2 ^ k -> p + Nat.min num (L * 2 ^ k) <= length mem ->
  exists mem', storen J k L v mem p num = Some mem' /\ is_storen (L * 2 ^ k) v mem p num mem'.
Proof. intros A J k L v mem p num HL Hv H. eexists. split; [apply storen_ok; auto|]. rewrite <- Hv. apply store_list_ok. rewrite Hv. auto. Qed.
Theorem C88_storen_avx2_narrow : forall (A : Type) (zero : A) J sz N R g v mem p num, avx2_shape sz N R g -> length v = N -> p + Nat.min num N <= length mem ->
  exists mem', avx2_storen zero J N R g v mem p num = Some mem' /\ is_storen N v mem p num mem'.
Proof. intros. eapply avx2_storen_ok; eauto. Qed.
Theorem C88_storen_avx2_wide : forall (A : Type) N (v mem : list A) p num, length v = N -> p + Nat.min num N <= length mem ->
  exists mem', avx2_storen_wide N v mem p num = Some mem' /\ is_storen N v mem p num mem'.
Proof. intros. apply first_store; auto. Qed.
Theorem C88_storen_masked : forall (A : Type) N (v mem : list A) p num, length v = N -> p + Nat.min num N <= length mem ->
  exists mem', masked_storen N v mem p num = Some mem' /\ is_storen N v mem p num mem'.
Proof. intros. apply first_store; auto. Qed.
Theorem C88_storen_emu128 : forall (A : Type) N (v mem : list A) p num, length v = N -> p + Nat.min num N <= length mem ->
  exists mem', emu_storen N v mem p num = Some mem' /\ is_storen N v mem p num mem'.
Proof. intros. apply emu_storen_ok; auto. Qed.
Example C88_nonvacuous : forall J, avx2_shape 1 32 32 4 /\ avx2_storen 0 J 32 32 4 (seq 100 32) (repeat 0 10) 2 7 = Some ([0; 0] ++ seq 100 7 ++ [0]) /\
  storen J 1 8 (seq 100 16) (repeat 0 16) 2 13 = Some ([0; 0] ++ seq 100 13 ++ [0]) /\ lanes_128 8.
Proof. intros J. split; [|split; [vm_compute; reflexivity | split; [vm_compute; reflexivity | unfold lanes_128; auto]]]. unfold avx2_shape. split; auto. split; auto. split; [exists 5|]; reflexivity. Qed.
