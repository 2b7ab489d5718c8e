(** C74-C76: the portable integer arithmetic of hwy/ops/generic_ops-inl.h.
    Specification: quick_reference.md. [in_r sg w] says a lane is a value of
    the lane type, [clamp] is saturation, [fit sg w] the unique value of the
    lane type congruent modulo 2^w (C76_fit_spec). *)
From Coq Require Import ZArith List Bool Lia.
From Verif Require Import Word Word_Proofs Ops_Model IntOps_Model IntOps_Proofs IntOps_Mul.
Import ListNotations.
Local Open Scope Z_scope.

Definition lanes (sg : bool) (w : Z) (v : list Z) : Prop := Forall (in_r sg w) v.
Definition width (w : Z) : Prop := w = 8 \/ w = 16 \/ w = 32 \/ w = 64.
Lemma map2_ext_r (R : Z -> Prop) (f g : Z -> Z -> Z) : (forall x y, R x -> R y -> f x y = g x y) -> forall a b, Forall R a -> Forall R b -> map2 f a b = map2 g a b.
Proof.
  intros H a b Ha Hb. unfold map2. apply map_ext_in. intros (x, y) Hin. cbn [fst snd]. rewrite Forall_forall in Ha, Hb. apply H; [apply Ha; eapply in_combine_l; eassumption|apply Hb; eapply in_combine_r; eassumption].
Qed.
Lemma map_ext_r (R : Z -> Prop) (f g : Z -> Z) : (forall x, R x -> f x = g x) -> forall a, Forall R a -> map f a = map g a.
Proof. intros H a Ha. apply map_ext_in. intros x Hin. rewrite Forall_forall in Ha. apply H, Ha, Hin. Qed.

(** C74: saturating addition and subtraction, for every lane type *)
Theorem C74_saturated_add_sub : forall sg w a b, width w -> lanes sg w a -> lanes sg w b ->
  map2 (sat_add sg w) a b = map2 (fun x y => clamp (lowest sg w) (highest sg w) (x + y)) a b /\
  map2 (sat_sub sg w) a b = map2 (fun x y => clamp (lowest sg w) (highest sg w) (x - y)) a b.
Proof.
  intros sg w a b Hw Ha Hb. split; (apply map2_ext_r with (R := in_r sg w); [|assumption|assumption]); intros; [apply sat_add_ok|apply sat_sub_ok]; try assumption; destruct Hw as [->|[->|[->| ->]]]; lia.
Qed.
(** C74: SaturatedNeg, SaturatedAbs *)
Theorem C74_saturated_neg_abs : forall w v, width w -> lanes true w v ->
  map (sat_neg w) v = map (fun x => if x =? lowest true w then highest true w else - x) v /\
  map (sat_abs w) v = map (fun x => if x =? lowest true w then highest true w else Z.abs x) v.
Proof.
  intros w v Hw Hv. split; (apply map_ext_r with (R := in_r true w); [|assumption]); intros x Hx; [apply sat_neg_ok; assumption|].
  unfold sat_abs. rewrite sat_neg_ok by assumption. unfold in_r, lowest, highest in *. pose proof (pow_ge1 (w - 1) ltac:(destruct Hw as [->|[->|[->| ->]]]; lia)). destruct (Z.eqb_spec x (- 2 ^ (w - 1))); lia.
Qed.
(** C74: AbsDiff is |a - b|, exactly for unsigned lanes, modulo 2^w for signed ones *)
Theorem C74_abs_diff : forall sg w a b, width w -> lanes sg w a -> lanes sg w b ->
  map2 (abs_diff sg w) a b = map2 (fun x y => fit sg w (Z.abs (x - y))) a b /\
  (sg = false -> map2 (abs_diff sg w) a b = map2 (fun x y => Z.abs (x - y)) a b).
Proof.
  intros sg w a b Hw Ha Hb. assert (E : forall x y, Z.max x y - Z.min x y = Z.abs (x - y)) by (intros; lia). split; [|intros ->]; (eapply map2_ext_r; [|eassumption|eassumption]); intros x y Hx Hy; cbv beta; unfold abs_diff, sub_; rewrite E; [reflexivity|].
  apply fit_id; [destruct Hw as [->|[->|[->| ->]]]; lia|]. unfold in_r, lowest, highest in *. lia.
Qed.
(** C74: unsigned to signed demotion saturates *)
Theorem C74_demote_unsigned : forall w n v, width w -> 0 < n < w -> lanes false w v ->
  map (demote_u2i w n) v = map (clamp (lowest true n) (highest true n)) v /\
  map (demote_u2i_emu n) v = map (clamp (lowest true n) (highest true n)) v.
Proof.
  intros w n v Hw Hn Hv. assert (W : 0 < w) by lia. split; (apply map_ext_r with (R := in_r false w); [|assumption]); intros x Hx; unfold in_r, lowest, highest in Hx; destruct (demote_u2i_ok w n x ltac:(lia) ltac:(lia)) as (E1 & E2);
    [rewrite E1|rewrite E2]; unfold clamp, lowest, highest; pose proof (pow_ge1 (n - 1) ltac:(lia)); lia.
Qed.
Example C74_nonvacuous :
  map2 (sat_add true 32) [2147483647; -2147483648; 5] [1; -1; 6] = [2147483647; -2147483648; 11] /\
  map2 (sat_sub false 64) [3; 2 ^ 64 - 1] [4; 1] = [0; 2 ^ 64 - 2] /\ map (sat_neg 64) [- 2 ^ 63; 7] = [2 ^ 63 - 1; -7] /\
  map (demote_u2i 32 8) [200; 2 ^ 32 - 1; 127] = [127; 127; 127] /\ lanes true 32 [2147483647; -2147483648; 5].
Proof. do 4 (split; [vm_compute; reflexivity|]). unfold lanes, in_r, lowest, highest. change (2 ^ (32 - 1)) with 2147483648. repeat (constructor; [lia|]). constructor. Qed.

(** C75: AverageRound is the mean rounded up, without overflow, for all lane types *)
Theorem C75_average_round : forall sg w a b, width w -> lanes sg w a -> lanes sg w b ->
  map2 (average_round sg w) a b = map2 (fun x y => (x + y + 1) / 2) a b.
Proof.
  intros sg w a b Hw Ha Hb. apply map2_ext_r with (R := in_r sg w); [|assumption|assumption]. intros. apply average_round_ok; try assumption. destruct Hw as [->|[->|[->| ->]]]; lia.
Qed.
(** C75: the three rounding shifts divide by 2^k and round to nearest (ties up), also where v + 2^(k-1) is not representable *)
Theorem C75_rounding_shifts : forall sg w v k, width w -> lanes sg w v -> 0 <= k < w ->
  let spec := map (fun x => if k =? 0 then x else (x + 2 ^ (k - 1)) / 2 ^ k) v in
  map (rounding_shift_right sg w k) v = spec /\ map (fun x => rounding_shift_right_same sg w x k) v = spec.
Proof.
  intros sg w v k Hw Hv Hk spec. assert (W : 0 < w <= 64) by (destruct Hw as [->|[->|[->| ->]]]; lia). split; (apply map_ext_r with (R := in_r sg w); [|assumption]); intros x Hx; [apply rsr_ok|apply rsrs_ok]; try assumption; lia.
Qed.
Theorem C75_rounding_shr : forall sg w v amt, width w -> lanes sg w v -> Forall (fun k => 0 <= k < w) amt ->
  map2 (rounding_shr sg w) v amt = map2 (fun x k => if k =? 0 then x else (x + 2 ^ (k - 1)) / 2 ^ k) v amt.
Proof.
  intros sg w v amt Hw Hv Ha. unfold map2. apply map_ext_in. intros (x, k) Hin. cbn [fst snd]. unfold lanes in Hv. rewrite Forall_forall in Hv, Ha. apply rshr_ok; [assumption|apply Hv; eapply in_combine_l; eassumption|apply Ha; eapply in_combine_r; eassumption].
Qed.
(** C75: the documented form ((a >> (k - 1)) + 1) >> 1 is the same number *)
Theorem C75_documented_form : forall x k, 0 < k -> (x + 2 ^ (k - 1)) / 2 ^ k = Z.shiftr (Z.shiftr x (k - 1) + 1) 1.
Proof. intros x k Hk. rewrite <- round_shift by assumption. rewrite Z.add_0_r. rewrite (shiftr_div _ 1) by lia. reflexivity. Qed.
Example C75_nonvacuous :
  map2 (average_round true 64) [2 ^ 63 - 1; - 2 ^ 63; -3] [2 ^ 63 - 1; 2 ^ 63 - 1; 0] = [2 ^ 63 - 1; 0; -1] /\
  map (rounding_shift_right false 8 3) [255; 4; 3] = [32; 1; 0] /\ map2 (rounding_shr true 32) [2147483647; -5; 9] [1; 1; 0] = [1073741824; -2; 9].
Proof. repeat (split; [vm_compute; reflexivity|]). vm_compute; reflexivity. Qed.

(** what [fit] means *)
Theorem C76_fit_spec : forall sg w x, 0 < w -> in_r sg w (fit sg w x) /\ (fit sg w x) mod 2 ^ w = x mod 2 ^ w.
Proof.
  intros sg w x Hw. split; [apply fit_r; assumption|]. destruct sg; cbn [fit]; [apply swrap_mod; lia|]. unfold wrap. apply Z.mod_mod. pose proof (pow2_gt0 w ltac:(lia)). lia.
Qed.
(** C76: products of 8-bit and of 64-bit lanes wrap around *)
Theorem C76_mul : forall sg a b,
  (lanes sg 8 a -> lanes sg 8 b -> map2 (mul8 sg) a b = map2 (fun x y => fit sg 8 (x * y)) a b) /\
  (lanes sg 64 a -> lanes sg 64 b -> map2 (mul64 sg) a b = map2 (fun x y => fit sg 64 (x * y)) a b /\ map2 (mul64_single sg) a b = map2 (fun x y => fit sg 64 (x * y)) a b).
Proof.
  intros sg a b. split; intros Ha Hb.
  - eapply map2_ext_r; [|eassumption|eassumption]. intros. apply mul8_ok.
  - split; (eapply map2_ext_r; [|eassumption|eassumption]); intros; apply mul64_ok; assumption.
Qed.
Ltac invF := unfold lanes in *; repeat match goal with H : Forall _ (_ :: _) |- _ => inversion H; subst; clear H end.
(** C76: SatWidenMulPairwiseAdd saturates once, at the end *)
Theorem C76_sat_widen_mul_pairwise_add : forall a b, lanes false 8 a -> lanes true 8 b ->
  pairwise sat_widen_mul_pairwise_add a b = pairwise (fun a0 a1 b0 b1 => clamp (-32768) 32767 (a0 * b0 + a1 * b1)) a b.
Proof.
  fix IH 1. intros a b Ha Hb. destruct a as [|a0 [|a1 a]]; [reflexivity|reflexivity|]. destruct b as [|b0 [|b1 b]]; [reflexivity|reflexivity|]. cbn [pairwise].  invF. f_equal; [|apply IH; assumption].
  unfold in_r, lowest, highest in *. change (2 ^ (8 - 1)) with 128 in *. change (2 ^ 8) with 256 in *. apply swmpa_ok; lia.
Qed.
(** C76: SatWidenMulPairwiseAccumulate and SatWidenMulAccumFixedPoint are exact up to one final saturation,
    also where the sum of the two products is 2^31 *)
Theorem C76_sat_widen_mul_accumulate : forall a b sum, lanes true 16 a -> lanes true 16 b -> lanes true 32 sum ->
  pairwise_acc sat_widen_mul_pairwise_accumulate a b sum = pairwise_acc (fun a0 a1 b0 b1 s => clamp (-2147483648) 2147483647 (a0 * b0 + a1 * b1 + s)) a b sum /\
  lanewise_acc sat_widen_mul_accum_fixed_point a b sum = lanewise_acc (fun x y s => clamp (-2147483648) 2147483647 (x * y * 2 + s)) a b sum.
Proof.
  intros a b sum Ha Hb Hs. split; revert a b sum Ha Hb Hs; fix IH 1; intros a b sum Ha Hb Hs.
  - destruct a as [|a0 [|a1 a]]; [reflexivity|reflexivity|]. destruct b as [|b0 [|b1 b]]; [reflexivity|reflexivity|]. destruct sum as [|s sum]; [reflexivity|]. cbn [pairwise_acc].  invF. f_equal; [|apply IH; assumption].
    unfold in_r, lowest, highest in *. change (2 ^ (16 - 1)) with 32768 in *. change (2 ^ (32 - 1)) with 2147483648 in *. apply swmpacc_ok; unfold i32; lia.
  - destruct a as [|a0 a]; [reflexivity|]. destruct b as [|b0 b]; [reflexivity|]. destruct sum as [|s sum]; [reflexivity|]. cbn [lanewise_acc].  invF. f_equal; [|apply IH; assumption].
    unfold in_r, lowest, highest in *. change (2 ^ (16 - 1)) with 32768 in *. change (2 ^ (32 - 1)) with 2147483648 in *. unfold sat_widen_mul_accum_fixed_point. rewrite swmpacc_ok by (unfold i32; lia). f_equal. lia.
Qed.
Lemma quadwise_ext (f g : Z * Z * Z * Z -> Z * Z * Z * Z -> Z -> Z) (P Q R : Z -> Prop) : (forall a b s, all4 P a -> all4 Q b -> R s -> f a b s = g a b s) ->
  forall a b sum, Forall P a -> Forall Q b -> Forall R sum -> quadwise f a b sum = quadwise g a b sum.
Proof.
  intros E. fix IH 1. intros a b sum Ha Hb Hs. destruct a as [|a0 [|a1 [|a2 [|a3 a]]]]; try reflexivity. destruct b as [|b0 [|b1 [|b2 [|b3 b]]]]; try reflexivity. destruct sum as [|s sum]; [reflexivity|]. cbn [quadwise].
   invF. f_equal; [|apply IH; assumption]. apply E; cbn; auto.
Qed.
Lemma all4_imp (P Q : Z -> Prop) a : (forall x, P x -> Q x) -> all4 P a -> all4 Q a.
Proof. intros H. destruct a as (((? & ?) & ?) & ?). cbn. intros (? & ? & ? & ?). auto. Qed.
(** C76: SumOfMulQuadAccumulate, all five type combinations: the sum of four products, modulo the width of the result *)
Theorem C76_sum_of_mul_quad : forall a b sum,
  (lanes true 8 a -> lanes true 8 b -> lanes true 32 sum -> quadwise sum_quad_i8 a b sum = quadwise (fun a b s => fit true 32 (s + quad_sum a b)) a b sum) /\
  (lanes false 8 a -> lanes false 8 b -> lanes false 32 sum -> quadwise sum_quad_u8 a b sum = quadwise (fun a b s => fit false 32 (s + quad_sum a b)) a b sum) /\
  (lanes false 8 a -> lanes true 8 b -> lanes true 32 sum -> quadwise sum_quad_u8i8 a b sum = quadwise (fun a b s => fit true 32 (s + quad_sum a b)) a b sum) /\
  (lanes true 16 a -> lanes true 16 b -> lanes true 64 sum -> quadwise sum_quad_i16 a b sum = quadwise (fun a b s => fit true 64 (s + quad_sum a b)) a b sum) /\
  (lanes false 16 a -> lanes false 16 b -> lanes false 64 sum -> quadwise sum_quad_u16 a b sum = quadwise (fun a b s => fit false 64 (s + quad_sum a b)) a b sum).
Proof.
  intros a b sum. repeat split; intros Ha Hb Hs; (eapply quadwise_ext; [|eassumption|eassumption|eassumption]); intros x y s Hx Hy S; unfold in_r, lowest, highest in S; pw.
  - apply quad_i8_ok; [revert Hx|revert Hy|unfold i32; lia]; apply all4_imp; unfold in_r, lowest, highest; change (2 ^ (8 - 1)) with 128; lia.
  - apply quad_u8_ok; [revert Hx|revert Hy|pw; lia]; apply all4_imp; unfold in_r, lowest, highest; pw; lia.
  - apply quad_u8i8_ok; [revert Hx|revert Hy|unfold i32; lia]; apply all4_imp; unfold in_r, lowest, highest; change (2 ^ (8 - 1)) with 128; pw; lia.
  - apply quad_i16_ok; [revert Hx|revert Hy|unfold i64; change (2 ^ 63) with 9223372036854775808; lia]; apply all4_imp; unfold i16, in_r, lowest, highest; pw; lia.
  - apply quad_u16_ok; [revert Hx|revert Hy|pw; lia]; apply all4_imp; unfold in_r, lowest, highest; pw; lia.
Qed.
(** which lanes the vector forms combine *)
Theorem C76_lanes : forall i a b sum,
  (forall f, (2 * i + 1 < length a)%nat -> (2 * i + 1 < length b)%nat -> nth i (pairwise f a b) 0 = f (nth (2 * i) a 0) (nth (2 * i + 1) a 0) (nth (2 * i) b 0) (nth (2 * i + 1) b 0)) /\
  (forall f, (4 * i + 3 < length a)%nat -> (4 * i + 3 < length b)%nat -> (i < length sum)%nat ->
    nth i (quadwise f a b sum) 0 = f (nth (4 * i) a 0, nth (4 * i + 1) a 0, nth (4 * i + 2) a 0, nth (4 * i + 3) a 0) (nth (4 * i) b 0, nth (4 * i + 1) b 0, nth (4 * i + 2) b 0, nth (4 * i + 3) b 0) (nth i sum 0)).
Proof.
  intros i. induction i as [|i IH]; intros a b sum; split; intros f Ha Hb; try intros Hs.
  - destruct a as [|a0 [|a1 a]]; cbn [length] in Ha; try lia. destruct b as [|b0 [|b1 b]]; cbn [length] in Hb; try lia. reflexivity.
  - destruct a as [|a0 [|a1 [|a2 [|a3 a]]]]; cbn [length] in Ha; try lia. destruct b as [|b0 [|b1 [|b2 [|b3 b]]]]; cbn [length] in Hb; try lia. destruct sum as [|s sum]; cbn [length] in Hs; [lia|]. reflexivity.
  - destruct a as [|a0 [|a1 a]]; cbn [length] in Ha; try lia. destruct b as [|b0 [|b1 b]]; cbn [length] in Hb; try lia. replace (2 * S i)%nat with (S (S (2 * i))) by lia. cbn [Nat.add nth pairwise]. destruct (IH a b sum) as (E & _). apply E; lia.
  - destruct a as [|a0 [|a1 [|a2 [|a3 a]]]]; cbn [length] in Ha; try lia. destruct b as [|b0 [|b1 [|b2 [|b3 b]]]]; cbn [length] in Hb; try lia. destruct sum as [|s sum]; cbn [length] in Hs; [lia|]. replace (4 * S i)%nat with (S (S (S (S (4 * i))))) by lia. cbn [Nat.add nth quadwise]. destruct (IH a b sum) as (_ & E). apply E; lia.
Qed.
Example C76_nonvacuous :
  map2 (mul64 true) [-3; 2 ^ 62] [5; 6] = [-15; - 2 ^ 63] /\ pairwise sat_widen_mul_pairwise_add [255; 255] [127; 127] = [32767] /\
  pairwise_acc sat_widen_mul_pairwise_accumulate [-32768; -32768] [-32768; -32768] [-5] = [2147483643] /\
  quadwise sum_quad_i16 [-32768; -32768; -32768; -32768] [-32768; -32768; -32768; -32768] [1] = [4294967297] /\
  quadwise sum_quad_u8i8 [255; 255; 1; 2] [-128; 127; 3; 4] [7] = [7 - 255 + 3 + 8].
Proof. repeat (split; [vm_compute; reflexivity|]). vm_compute; reflexivity. Qed.
