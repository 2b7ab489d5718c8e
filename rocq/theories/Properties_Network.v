(** C30: the base case of VQSort sorts every array up to its size limit. *)
From Coq Require Import ZArith List Lia Bool Permutation.
From Verif Require Import Vec_Model Sort_Spec Network_Model Network_Proofs Network_Lift BaseCase_Model BaseCase_Proofs.
Import ListNotations.

(** C30a: the column sorts and merges, seen as a matrix of rows read row by row *)
Section Nets.
Context {K : Type} (lt : K -> K -> bool).
Hypothesis TO : total_order lt.
Theorem C30_network8 : forall cols (m : list (list K)), cols = 1 \/ cols = 2 \/ cols = 4 -> length m = 8 -> Forall (fun v => length v = cols) m ->
  let out := run (First lt) (Last lt) (net8 cols) m in sorted lt (concat out) /\ Permutation (concat m) (concat out).
Proof. intros cols m H L F. apply net8_sorts; [exact TO|exact H|split; assumption]. Qed.
Theorem C30_network16 : forall cols (m : list (list K)), cols = 1 \/ cols = 2 \/ cols = 4 \/ cols = 8 \/ cols = 16 -> length m = 16 -> Forall (fun v => length v = cols) m ->
  let out := run (First lt) (Last lt) (net16 cols) m in sorted lt (concat out) /\ Permutation (concat m) (concat out).
Proof. intros cols m H L F. apply net16_sorts; [exact TO|exact H|split; assumption]. Qed.

Local Open Scope Z_scope.
(** C30b: BaseCase on an array of at most BaseCaseNumLanes keys, with or without
    HWY_MEM_OPS_MIGHT_FAULT, for every power-of-two vector length N <= maxN (the
    compile-time bound), one or two lanes per key, normal or MSVC/debug build: no
    access outside [keys] or [buf], no call through a null function pointer, the
    result is a sorted rearrangement of the keys (so no padding is stored). *)
Theorem C30_base_case : forall pad fault big lpk N maxN k keys buf, (forall x, lt pad x = false) ->
  N = 2 ^ k -> 0 <= k < 62 -> N <= maxN -> lpk = 1 \/ lpk = 2 ->
  zlen keys <= base_case_num big lpk N -> base_case_num big lpk N + N <= zlen buf ->
  exists keys' buf', base_case lt pad fault N maxN big keys (zlen keys) buf = Some (keys', buf') /\ zlen buf' = zlen buf /\ Permutation keys keys' /\ sorted lt keys'.
Proof. intros. eapply base_case_ok; eauto. Qed.
End Nets.
Print Assumptions C30_network8.
Print Assumptions C30_network16.
Print Assumptions C30_base_case.

Local Open Scope Z_scope.
Lemma Zltb_total : total_order Z.ltb.
Proof. split; [split; [intros; apply Z.ltb_irrefl|split; intros a b c H1 H2; [apply Z.ltb_lt in H1, H2; apply Z.ltb_lt; lia|apply Z.ltb_ge in H1, H2; apply Z.ltb_ge; lia]]|]. intros a b H1 H2. apply Z.ltb_ge in H1, H2. lia. Qed.
(** u8-like keys with 255 the last value *)
Example C30_ex1 : option_map fst (base_case Z.ltb 255 false 4 8 true [7; 255; 3; 9; 1; 1; 250; 0; 12; 5; 255; 4; 6] 13 (repeat 0 68)) = Some [0; 1; 1; 3; 4; 5; 6; 7; 9; 12; 250; 255; 255].
Proof. vm_compute. reflexivity. Qed.
Example C30_ex2 : option_map fst (base_case Z.ltb 255 true 4 8 true [7; 255; 3; 9; 1; 1; 250; 0; 12; 5; 255; 4; 6] 13 (repeat 0 68)) = Some [0; 1; 1; 3; 4; 5; 6; 7; 9; 12; 250; 255; 255].
Proof. vm_compute. reflexivity. Qed.
Example C30_ex3 : base_case_num true 1 4 = 64 /\ base_case_num true 2 8 = 128 /\ base_case_num false 2 16 = 64 /\ base_case_num true 1 32 = 256 /\ base_case_num true 1 1 = 8.
Proof. repeat split. Qed.
(** an array of maximal length (256 keys), the only one that uses Merge16x16 *)
Example C30_ex4 : option_map (fun r => (nth 0 (fst r) 0, nth 128 (fst r) 0, nth 255 (fst r) 0)) (base_case Z.ltb 1000 true 16 16 true (map (fun i => (Z.of_nat i * 37) mod 256) (seq 0 256)) 256 (repeat 0 272)) = Some (0, 128, 255).
Proof. vm_compute. reflexivity. Qed.

(** C30, refuted for floating-point keys on x86: Sort2 there is MINPS/MAXPS
    (x86_128-inl.h 5911, traits-inl.h 307-316), which both return the second operand
    when both are zeros, so of +0.0 and -0.0 one is duplicated and the other lost.
    Keys are float32 bit patterns; [ltf] orders patterns of finite values. *)
Definition mag (a : Z) : Z := if a <? 2 ^ 31 then a else 2 ^ 31 - a.
Definition ltf (a b : Z) : bool := mag a <? mag b.
Definition minps (a b : Z) : Z := if ltf a b then a else b.
Definition maxps (a b : Z) : Z := if ltf b a then a else b.
Theorem C30_negative_zero_refuted : exists m : list (list Z), length m = 2%nat /\ Forall (fun v => length v = 1%nat) m /\
  In 0 (concat m) /\ ~ In 0 (concat (run minps maxps Sort2 m)).
Proof. exists [[0]; [2 ^ 31]]. split; [reflexivity|]. split; [repeat constructor|]. split; [left; reflexivity|]. vm_compute. intros [H|[H|[]]]; discriminate. Qed.
Print Assumptions C30_negative_zero_refuted.
