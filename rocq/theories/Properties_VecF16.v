(** C105-C107: vector conversions to and from float16_t and bfloat16_t without hardware support. *)
From Coq Require Import ZArith Bool List Lia Permutation.
From Verif Require Import Word Float_Spec Float_Model Float_Conv Float_F64 Rounding_Model VecF16_Model VecF16_Proofs VecF16_More.
Import ListNotations.
Open Scope Z_scope.

(** PromoteTo(f32, f16): exact for every finite half, subnormals and signed zeros included. [nan]: what multiplication returns for NaN operands. *)
Theorem C105_promote_f16 : forall nan v, is_pattern binary16 v -> magnitude binary16 v < inf_mag binary16 ->
  exact_conversion binary16 binary32 v (promote_f16 nan v).
Proof. intros nan v Hv Hm. rewrite promote_finite by assumption. apply f32_from_f16_exact. exact Hv. Qed.
Print Assumptions C105_promote_f16.
(** Infinity and NaN (documented as implementation-defined): the exponent is not special, the result is finite: (1 + mantissa / 1024) * 2^16. *)
Theorem C105_promote_special : forall nan v, is_pattern binary16 v -> inf_mag binary16 <= magnitude binary16 v ->
  is_pattern binary32 (promote_f16 nan v) /\ negative binary32 (promote_f16 nan v) = negative binary16 v /\
  magnitude binary32 (promote_f16 nan v) < inf_mag binary32 /\
  mag_value binary32 (magnitude binary32 (promote_f16 nan v)) = (1024 + (magnitude binary16 v - inf_mag binary16)) * 2 ^ (1074 + 6).
Proof.
  intros nan v Hv Hm. destruct (promote_f16_ok nan v Hv) as (A & B & C & D). repeat (split; [assumption|]).
  unfold value in D. rewrite B in D. assert (E : mag_value binary32 (magnitude binary32 (promote_f16 nan v)) = mag_value binary16 (magnitude binary16 v)) by (destruct (negative binary16 v); lia).
  rewrite E. destruct (pat_split binary16 v Float_Proofs.ok16 Hv) as (_ & _ & _ & _ & Hr). change (2 ^ (ebits binary16 + mbits binary16)) with 32768 in Hr. change (inf_mag binary16) with 31744 in *.
  set (x := magnitude binary16 v) in *. replace x with (30 * 2 ^ mbits binary16 + (1024 + (x - 31744))) at 1 by (change (2 ^ mbits binary16) with 1024; lia).
  rewrite (Float_Proofs.V_grid binary16 Float_Proofs.ok16 30 (1024 + (x - 31744))) by (change (2 ^ mbits binary16) with 1024; lia). reflexivity.
Qed.
Print Assumptions C105_promote_special.
(** PromoteTo(f64, f16), given an exact PromoteTo(f64, f32). *)
Theorem C105_promote_f16_f64 : forall nan to_f64, (forall b, is_pattern binary32 b -> exact_conversion binary32 binary64 b (to_f64 b)) ->
  forall v, is_pattern binary16 v -> magnitude binary16 v < inf_mag binary16 ->
  exact_conversion binary16 binary64 v (promote_f16_f64 nan to_f64 v).
Proof.
  intros nan to_f64 H v Hv Hm. pose proof (C105_promote_f16 nan v Hv Hm) as P. pose proof (H _ (proj1 P)) as Q.
  destruct (exact_trans _ _ _ _ _ _ P Q Hm) as (A & B & C & D). split; [exact A|]. split; [exact B|]. unfold is_nan, is_inf. split; [lia|]. split; [lia|]. intros _. split; assumption.
Qed.
Print Assumptions C105_promote_f16_f64.
Example C105_examples : forall nan, map (promote_f16 nan) [0x0001; 0x83FF; 0x0400; 0x7BFF; 0x8000; 0x7C00] = [0x33800000; 0xB87FC000; 0x38800000; 0x477FE000; 0x80000000; 0x47800000].
Proof. intros. vm_compute. reflexivity. Qed.
(** a concrete exact PromoteTo(f64, f32) exists for the halves: the bits of 1.5 *)
Example C105_hypothesis : is_pattern binary16 0x3E00 /\ magnitude binary16 0x3E00 < inf_mag binary16 /\ promote_f16 (fun _ _ => 0) 0x3E00 = 0x3FC00000 /\ exact_conversion binary32 binary64 0x3FC00000 0x3FF8000000000000.
Proof. vm_compute. repeat split; intros; discriminate || reflexivity. Qed.

(** DemoteTo(f16, f32) rounds to nearest even for every float, with 8-bit lane arithmetic ([u8]) or without; NaN yields NaN.
    [nan]: addition with a NaN operand returns some NaN. *)
Theorem C106_demote_f16 : forall nan, (forall a b, is_nan binary32 a \/ is_nan binary32 b -> is_pattern binary32 (nan a b) /\ is_nan binary32 (nan a b)) ->
  forall u8 v, is_pattern binary32 v ->
  (~ is_nan binary32 v -> correct_conversion binary32 binary16 v (demote_f16 nan u8 v)) /\
  (is_nan binary32 v -> is_pattern binary16 (demote_f16 nan u8 v) /\ is_nan binary16 (demote_f16 nan u8 v)).
Proof. intros nan H u8 v. exact (demote_f16_ok nan u8 v H). Qed.
Print Assumptions C106_demote_f16.
(** DemoteTo(f16, f64) rounds the double itself (no double rounding through float), whether DemoteTo(f32, f64) overflows to infinity (x86) or
    to the largest float (EMU128). *)
Theorem C106_demote_f64_f16 : forall nan nan64, (forall a b, is_nan binary32 a \/ is_nan binary32 b -> is_pattern binary32 (nan a b) /\ is_nan binary32 (nan a b)) ->
  (forall b, is_nan binary64 b -> 0 < nan64 b < 2 ^ 23) ->
  forall u8 to_f32, to_f32 = f32_of_f64 nan64 \/ to_f32 = demote_f64_f32 nan64 ->
  forall v, is_pattern binary64 v ->
  (~ is_nan binary64 v -> correct_conversion binary64 binary16 v (demote_f64_f16 nan u8 to_f32 v)) /\
  (is_nan binary64 v -> is_pattern binary16 (demote_f64_f16 nan u8 to_f32 v) /\ is_nan binary16 (demote_f64_f16 nan u8 to_f32 v)).
Proof.
  intros nan nan64 H1 H2 u8 to_f32 T v Hv. destruct (demote_f64_f16_ok nan nan64 H1 H2 u8 v Hv) as (A & B & C).
  destruct T; subst to_f32; [|rewrite C]; split; assumption.
Qed.
Print Assumptions C106_demote_f64_f16.
(** The scalar conversions of C34, C36 agree bit for bit on every non-NaN. *)
Theorem C106_scalar_agrees : forall nan, (forall a b, is_nan binary32 a \/ is_nan binary32 b -> is_pattern binary32 (nan a b) /\ is_nan binary32 (nan a b)) ->
  forall u8 v, is_pattern binary32 v -> ~ is_nan binary32 v -> f16_from_f32 v = Some (demote_f16 nan u8 v).
Proof.
  intros nan Hn u8 v Hv N. destruct (f16_from_f32_correct v Hv) as (r & E & C). rewrite E. f_equal.
  destruct (C106_demote_f16 nan Hn u8 v Hv) as (D & _). specialize (D N).
  destruct C as (A1 & A2 & _ & A4 & A5). destruct D as (B1 & B2 & _ & B4 & B5).
  destruct (pat_split binary16 _ Float_Proofs.ok16 A1) as (s & Hs & ES & NS & _). destruct (pat_split binary16 _ Float_Proofs.ok16 B1) as (t & Ht & ET & NT & _).
  assert (M : magnitude binary16 r = magnitude binary16 (demote_f16 nan u8 v)).
  { destruct (Z.lt_ge_cases (magnitude binary32 v) (inf_mag binary32)) as [L|L].
    - exact (Float_Proofs.nearest_unique binary16 Float_Proofs.ok16 _ _ _ (A5 L) (B5 L)).
    - unfold is_inf, is_nan in *. assert (I : magnitude binary32 v = inf_mag binary32) by lia. rewrite (A4 I), (B4 I). reflexivity. }
  rewrite ES, ET, M. f_equal. f_equal. rewrite A2, <- B2, NT in NS. destruct Hs, Ht; subst; cbn in NS; congruence.
Qed.
Print Assumptions C106_scalar_agrees.
(** an x86-like choice of NaN satisfies the hypothesis; ties, the subnormal boundary, the overflow threshold 65520 *)
Definition x86_nan (a b : Z) : Z := Z.lor 0x400000 (if f32_nan a then a else if f32_nan b then b else 0xFFC00000).
Example C106_examples : forall u8, map (demote_f16 x86_nan u8) [0x33000000; 0x33000001; 0x387FE000; 0x477FEFFF; 0x477FF000; 0xFF800001; 0xC7000001; 0xFF800000; 0x00000001; 0x3F801000; 0x3F803000]
  = [0; 1; 0x0400; 0x7BFF; 0x7C00; 0xFFFF; 0xF800; 0xFC00; 0; 0x3C00; 0x3C02] /\ is_nan binary32 (x86_nan 0xFF800001 0) /\ is_pattern binary32 (x86_nan 0xFF800001 0).
Proof. intros [|]; vm_compute; repeat split; discriminate || reflexivity. Qed.
Example C106_nan_hypothesis : forall a b, is_nan binary32 a \/ is_nan binary32 b -> is_pattern binary32 a -> is_pattern binary32 b -> let n := if f32_nan a then a else b in is_pattern binary32 n /\ is_nan binary32 n.
Proof. intros a b H Ha Hb. unfold f32_nan, is_nan in *. destruct (Z.ltb_spec (inf_mag binary32) (magnitude binary32 a)); cbv zeta; split; try assumption. destruct H; [exfalso; apply (Z.lt_irrefl (inf_mag binary32)); eapply Z.lt_le_trans; eassumption|assumption]. Qed.

(** DemoteTo(bf16, f32), OrderedDemote2To and ReorderDemote2To round every lane to nearest even; the former two keep the order of the lanes. *)
Theorem C107_demote_bf16 : forall v, Forall (is_pattern binary32) v -> Forall2 (correct_conversion binary32 bfloat16) v (demote_bf16 v).
Proof.
  intros v H. rewrite demote_bf16_eq by exact H. induction H; constructor; [apply bf16_from_f32_correct; assumption|assumption].
Qed.
Print Assumptions C107_demote_bf16.
Theorem C107_ordered_demote2_bf16 : forall a b, Forall (is_pattern binary32) a -> Forall (is_pattern binary32) b ->
  Forall2 (correct_conversion binary32 bfloat16) (a ++ b) (ordered_demote2_bf16 a b).
Proof.
  intros a b Ha Hb. rewrite ordered_demote2_bf16_eq by assumption. assert (H : Forall (is_pattern binary32) (a ++ b)) by (apply Forall_app; split; assumption).
  induction H; constructor; [apply bf16_from_f32_correct; assumption|assumption].
Qed.
Print Assumptions C107_ordered_demote2_bf16.
Theorem C107_reorder_demote2_bf16 : forall a b, Forall (is_pattern binary32) a -> Forall (is_pattern binary32) b -> length a = length b ->
  exists p, Permutation p (a ++ b) /\ Forall2 (correct_conversion binary32 bfloat16) p (reorder_demote2_bf16 a b).
Proof.
  intros a b Ha Hb L. assert (H : Forall (is_pattern binary32) (a ++ b)) by (apply Forall_app; split; assumption).
  pose proof (reorder_demote2_bf16_perm a b Ha Hb L) as P. destruct (Permutation_map_inv _ _ P) as (p & E & Q). exists p. split; [symmetry; exact Q|]. rewrite E.
  assert (Hp : Forall (is_pattern binary32) p) by (eapply Permutation_Forall; [exact Q|exact H]). clear - Hp. induction Hp; constructor; [apply bf16_from_f32_correct; assumption|assumption].
Qed.
Print Assumptions C107_reorder_demote2_bf16.
Theorem C107_promote_bf16 : forall v, Forall (is_pattern bfloat16) v -> Forall2 (exact_conversion bfloat16 binary32) v (promote_bf16 v).
Proof. intros v H. rewrite promote_bf16_eq. induction H; constructor; [apply f32_from_bf16_exact; assumption|assumption]. Qed.
Print Assumptions C107_promote_bf16.
Example C107_examples : demote_bf16 [0x3F808000; 0x3F818000; 0x7F7FFFFF; 0x7F800001] = [0x3F80; 0x3F82; 0x7F80; 0x7FC0]
  /\ ordered_demote2_bf16 [0x3F800000; 0x40000000] [0xC0400000; 0x80000000] = [0x3F80; 0x4000; 0xC040; 0x8000]
  /\ reorder_demote2_bf16 [0x3F800000; 0x40000000] [0xC0400000; 0x80000000] = [0xC040; 0x3F80; 0x8000; 0x4000]
  /\ Forall (is_pattern binary32) [0x3F808000; 0x7F800001].
Proof. split; [vm_compute; reflexivity|]. split; [vm_compute; reflexivity|]. split; [vm_compute; reflexivity|]. constructor; [split; [discriminate|reflexivity]|]. constructor; [split; [discriminate|reflexivity]|constructor]. Qed.
