(** C113-C115: integer comparisons, Min/Max/Abs and 128-bit comparisons on x86 (spec: Cmp_Spec.v). *)
From Coq Require Import ZArith List Bool Lia.
From Verif Require Import Word Ops_Model Shift_Spec Shift_Model Shift_Proofs Cmp_Spec Cmp_Model Cmp_Proofs.
Import ListNotations.
Open Scope Z_scope.
Ltac Zify.zify_post_hook ::= idtac.

Lemma mask_bool w b P : reflect P b -> mask_is w (all_ones w b) P.
Proof. intros [H|H]; [left|right]; split; auto. Qed.
Lemma mask_not w b P : reflect P b -> mask_is w (all_ones w (negb b)) (~ P).
Proof. intros [H|H]; [right|left]; split; auto. Qed.
Lemma mask_iff w m P Q : (P <-> Q) -> mask_is w m P -> mask_is w m Q.
Proof. intros E [[H ->]|[H ->]]; [left|right]; split; tauto. Qed.

(** ** C113: ==, !=, <, <=, >, >= *)
Theorem C113_eq_ne native64 w a b : width w -> lane w a -> lane w b ->
  mask_is w (veq native64 w a b) (a = b) /\ mask_is w (vne native64 w a b) (a <> b).
Proof.
  intros Hw Ha Hb. unfold vne. rewrite veq_ok by assumption. rewrite vnot1_ones. split; [apply mask_bool|apply mask_not]; apply Z.eqb_spec.
Qed.
Theorem C113_signed native64 w a b : width w -> lane w a -> lane w b ->
  mask_is w (lt_i native64 w a b) (signed w a < signed w b) /\ mask_is w (gt_i native64 w a b) (signed w a > signed w b) /\
  mask_is w (le_i native64 w a b) (signed w a <= signed w b) /\ mask_is w (ge_i native64 w a b) (signed w a >= signed w b).
Proof.
  intros Hw Ha Hb. unfold le_i, ge_i, lt_i. rewrite !gt_i_ok by assumption. rewrite !vnot1_ones.
  repeat split; [| eapply mask_iff; [|apply mask_bool, Z.ltb_spec0]; lia | eapply mask_iff; [|apply mask_not, Z.ltb_spec0]; lia | eapply mask_iff; [|apply mask_not, Z.ltb_spec0]; lia].
  apply mask_bool, Z.ltb_spec0.
Qed.
Theorem C113_unsigned native64 w a b : width w -> lane w a -> lane w b ->
  mask_is w (lt_u native64 w a b) (a < b) /\ mask_is w (gt_u native64 w a b) (a > b) /\
  mask_is w (le_u native64 w a b) (a <= b) /\ mask_is w (ge_u native64 w a b) (a >= b).
Proof.
  intros Hw Ha Hb. unfold le_u, ge_u, lt_u. rewrite !gt_u_ok by assumption. rewrite !vnot1_ones.
  repeat split; [| eapply mask_iff; [|apply mask_bool, Z.ltb_spec0]; lia | eapply mask_iff; [|apply mask_not, Z.ltb_spec0]; lia | eapply mask_iff; [|apply mask_not, Z.ltb_spec0]; lia].
  apply mask_bool, Z.ltb_spec0.
Qed.
(** the lower halves decide, and compare as unsigned; opposite signs; the extremes *)
Example C113_ex : gt64 (5 * 2 ^ 32 + 2 ^ 31) (5 * 2 ^ 32 + 1) = 2 ^ 64 - 1 /\ gt64 (5 * 2 ^ 32 + 1) (5 * 2 ^ 32 + 2 ^ 31) = 0 /\
  gt64 0 (2 ^ 64 - 1) = 2 ^ 64 - 1 /\ gt64 (2 ^ 63) (2 ^ 63 - 1) = 0 /\ gt_u false 64 (2 ^ 63) (2 ^ 63 - 1) = 2 ^ 64 - 1 /\
  eq64 (7 + 2 ^ 32) 7 = 0 /\ gt_u true 8 200 100 = 255 /\ gt_i true 8 200 100 = 0.
Proof. vm_compute. repeat split. Qed.

(** ** C114: Min, Max, Abs, SaturatedAbs, IfThenElse, IfNegativeThen* *)
Theorem C114_min_max_unsigned sse4 w a b : width w -> lane w a -> lane w b -> min_u sse4 w a b = Z.min a b /\ max_u sse4 w a b = Z.max a b.
Proof. intros. split; [now apply min_u_ok|now apply max_u_ok]. Qed.
Theorem C114_min_max_signed sse4 w a b : width w -> lane w a -> lane w b ->
  is_signed w (min_i sse4 w a b) (Z.min (signed w a) (signed w b)) /\ is_signed w (max_i sse4 w a b) (Z.max (signed w a) (signed w b)).
Proof. intros. split; [now apply min_i_ok|now apply max_i_ok]. Qed.
(** Abs: the unsigned pattern of |a|, in particular Abs(min) = min *)
Theorem C114_abs ssse3 sse4 w x : width w -> lane w x -> vabs ssse3 sse4 w x = Z.abs (signed w x) /\
  (signed w x <> - 2 ^ (w - 1) -> is_signed w (vabs ssse3 sse4 w x) (Z.abs (signed w x))) /\ (signed w x = - 2 ^ (w - 1) -> vabs ssse3 sse4 w x = x).
Proof.
  intros Hw Hx. pose proof (width_pos w Hw) as Hp. rewrite vabs_ok by assumption. pose proof (signed_range w x Hp Hx) as R. pose proof (abs_small w x Hp Hx) as [L _].
  assert (D : 2 ^ w = 2 * 2 ^ (w - 1)) by (rewrite <- Z.pow_succ_r by lia; f_equal; lia).
  split; [reflexivity|split].
  - intros N. split; [exact L|]. set (s := signed w x) in *. clearbody s. unfold signed. destruct (Z.ltb_spec (Z.abs s) (2 ^ (w - 1))); lia.
  - intros E. rewrite E. unfold signed, lane in *. destruct (Z.ltb_spec x (2 ^ (w - 1))); lia.
Qed.
Theorem C114_saturated_abs ssse3 sse4 w x : width w -> lane w x ->
  is_signed w (sat_abs ssse3 sse4 w x) (if signed w x =? - 2 ^ (w - 1) then 2 ^ (w - 1) - 1 else Z.abs (signed w x)).
Proof.
  intros Hw Hx. pose proof (width_pos w Hw) as Hp. rewrite sat_abs_ok by assumption. pose proof (signed_range w x Hp Hx) as R.
  assert (D : 2 ^ w = 2 * 2 ^ (w - 1)) by (rewrite <- Z.pow_succ_r by lia; f_equal; lia). assert (P : 0 < 2 ^ (w - 1)) by (apply Z.pow_pos_nonneg; lia).
  set (s := signed w x) in *. clearbody s. unfold is_signed, lane, signed. split; [lia|].
  destruct (Z.ltb_spec (Z.min (Z.abs s) (2 ^ (w - 1) - 1)) (2 ^ (w - 1))); [|lia]. destruct (Z.eqb_spec s (- 2 ^ (w - 1))); lia.
Qed.
(** IfThenElse with a well formed mask *)
Theorem C114_if_then_else sse4 w m P y n : width w -> lane w y -> lane w n -> mask_is w m P ->
  (P -> if_then_else sse4 w m y n = y) /\ (~ P -> if_then_else sse4 w m y n = n).
Proof.
  intros Hw Hy Hn [[HP ->]|[HP ->]].
  - change (2 ^ w - 1) with (all_ones w true). rewrite select_ok1 by assumption. tauto.
  - change 0 with (all_ones w false). rewrite select_ok1 by assumption. tauto.
Qed.
(** IfNegative* read only the sign bit: any pattern is a valid first argument *)
Theorem C114_if_negative sse4 w v y n : width w -> lane w v -> lane w y -> lane w n ->
  if_negative_then_else sse4 w v y n = (if signed w v <? 0 then y else n) /\ if_neg_then_else_zero sse4 w v y = (if signed w v <? 0 then y else 0) /\
  if_neg_then_zero_else sse4 w v n = (if signed w v <? 0 then 0 else n) /\ is_signed w (zero_if_negative sse4 w v) (Z.max 0 (signed w v)) /\
  mask_is w (bcast_sign sse4 w v) (signed w v < 0).
Proof.
  intros Hw Hv Hy Hn. split; [now apply if_negative_ok|]. split; [now apply if_neg_then_else_zero_ok|]. split; [now apply if_neg_then_zero_else_ok|].
  pose proof (width_pos w Hw) as Hp. split.
  - unfold zero_if_negative. rewrite if_neg_then_zero_else_ok by assumption. assert (P : 0 < 2 ^ (w - 1)) by (apply Z.pow_pos_nonneg; lia). destruct (Z.ltb_spec (signed w v) 0).
    + split; [apply lane_0; lia|]. unfold signed at 1. destruct (Z.ltb_spec 0 (2 ^ (w - 1))); lia.
    + split; [assumption|lia].
  - rewrite bcast_sign_ok by assumption. apply mask_bool, Z.ltb_spec0.
Qed.
(** IfNegativeThenNegOrUndefIfZero: -v (wrapping) or v; if the mask is zero, zero or v *)
Theorem C114_if_negative_neg ssse3 sse4 w m v : width w -> lane w m -> lane w v ->
  (signed w m < 0 -> if_neg_then_neg ssse3 sse4 w m v = (- v) mod 2 ^ w) /\ (signed w m > 0 -> if_neg_then_neg ssse3 sse4 w m v = v) /\
  (m = 0 -> if_neg_then_neg ssse3 sse4 w m v = 0 \/ if_neg_then_neg ssse3 sse4 w m v = v).
Proof.
  intros Hw Hm Hv. pose proof (width_pos w Hw) as Hp. assert (S0 : signed w 0 = 0) by (unfold signed; assert (0 < 2 ^ (w - 1)) by (apply Z.pow_pos_nonneg; lia); destruct (Z.ltb_spec 0 (2 ^ (w - 1))); lia).
  assert (NZ : signed w m <> 0 -> m <> 0) by (intros N ->; now apply N).
  split; [|split].
  - intros N. rewrite if_neg_then_neg_ok by (assumption || (apply NZ; lia)). destruct (Z.ltb_spec (signed w m) 0); [reflexivity|lia].
  - intros N. rewrite if_neg_then_neg_ok by (assumption || (apply NZ; lia)). destruct (Z.ltb_spec (signed w m) 0); [lia|reflexivity].
  - intros ->. unfold if_neg_then_neg. destruct (_ && _).
    + unfold psign. rewrite swrap_signed by assumption. rewrite S0. left. reflexivity.
    + right. rewrite if_negative_ok by (assumption || (apply psub_lane; lia)). rewrite S0. reflexivity.
Qed.
Example C114_ex : min_u false 32 (2 ^ 31) 5 = 5 /\ max_u false 16 60000 7 = 60000 /\ min_i false 8 0x80 1 = 0x80 /\ max_i false 64 (2 ^ 64 - 1) 1 = 1 /\
  vabs false false 8 0x80 = 0x80 /\ sat_abs false false 8 0x80 = 0x7F /\ sat_abs true false 64 (2 ^ 63) = 2 ^ 63 - 1 /\ vabs true true 32 (2 ^ 32 - 9) = 9 /\
  if_negative_then_else true 16 0x8000 1 2 = 1 /\ if_negative_then_else true 8 0x7F 1 2 = 2 /\ if_neg_then_neg true true 16 0xFFFF 3 = 0xFFFD.
Proof. vm_compute. repeat split. Qed.
(** both outcomes for a zero mask occur *)
Example C114_zero_mask : if_neg_then_neg true true 16 0 3 = 0 /\ if_neg_then_neg false false 16 0 3 = 3.
Proof. vm_compute. split; reflexivity. Qed.

(** ** C115: Lt128, Eq128, Ne128, their Upper versions, Min128, Max128 *)
Lemma num_val p : val128 p = num128 p. Proof. unfold val128, num128. lia. Qed.
Theorem C115_compare sse4 a b : pair64 a -> pair64 b ->
  mask2_is (lt128 sse4 a b) (num128 a < num128 b) /\ mask2_is (eq128 sse4 a b) (a = b) /\ mask2_is (ne128 sse4 a b) (a <> b).
Proof.
  intros A B. assert (EQ : val128 a = val128 b <-> a = b).
  { split; [|now intros ->]. intros E. destruct a as [al ah], b as [bl bh], A as [A1 A2], B as [B1 B2]. unfold val128, lane in *. cbn [fst snd] in *. f_equal; lia. }
  rewrite lt128_ok, eq128_ok, ne128_ok by assumption. rewrite <- !num_val. unfold mask2_is. cbn [fst snd].
  repeat split; try (apply mask_bool, Z.ltb_spec0); try (eapply mask_iff; [exact EQ|apply mask_bool, Z.eqb_spec]).
  - eapply mask_iff; [|apply mask_not, Z.eqb_spec]. tauto.
  - eapply mask_iff; [|apply mask_not, Z.eqb_spec]. tauto.
Qed.
Theorem C115_upper sse4 a b : pair64 a -> pair64 b ->
  mask2_is (lt128_upper sse4 a b) (snd a < snd b) /\ mask2_is (eq128_upper sse4 a b) (snd a = snd b) /\ mask2_is (ne128_upper sse4 a b) (snd a <> snd b).
Proof.
  intros A B. destruct (upper_ok sse4 a b A B) as (-> & -> & ->). unfold mask2_is. cbn [fst snd].
  repeat split; try (apply mask_bool, Z.ltb_spec0); try (apply mask_bool, Z.eqb_spec); apply mask_not, Z.eqb_spec.
Qed.
(** the whole pair (key and value) is selected *)
Theorem C115_min_max sse4 a b : pair64 a -> pair64 b ->
  (min128 sse4 a b = a \/ min128 sse4 a b = b) /\ num128 (min128 sse4 a b) = Z.min (num128 a) (num128 b) /\
  (max128 sse4 a b = a \/ max128 sse4 a b = b) /\ num128 (max128 sse4 a b) = Z.max (num128 a) (num128 b) /\
  min128_upper sse4 a b = (if snd a <? snd b then a else b) /\ max128_upper sse4 a b = (if snd b <? snd a then a else b).
Proof.
  intros A B. destruct (minmax128_ok sse4 a b A B) as (-> & -> & -> & ->). rewrite !num_val.
  destruct (Z.ltb_spec (num128 a) (num128 b)), (Z.ltb_spec (num128 b) (num128 a)); repeat split; auto; lia.
Qed.
(** Lt128 is a strict total order on pairs, so sorting by it is well defined *)
Theorem C115_order sse4 : let lt a b := fst (lt128 sse4 a b) <> 0 in
  (forall a, pair64 a -> ~ lt a a) /\ (forall a b c, pair64 a -> pair64 b -> pair64 c -> lt a b -> lt b c -> lt a c) /\
  (forall a b, pair64 a -> pair64 b -> lt a b \/ a = b \/ lt b a).
Proof.
  intros lt. assert (L : forall a b, pair64 a -> pair64 b -> (lt a b <-> num128 a < num128 b)).
  { intros a b A B. unfold lt. destruct (C115_compare sse4 a b A B) as ((M & _) & _). destruct M as [[M1 M2]|[M1 M2]]; rewrite M2; split; intros; try tauto; try lia. }
  split; [|split].
  - intros a A. rewrite L by assumption. lia.
  - intros a b c A B C. rewrite !L by assumption. lia.
  - intros a b A B. rewrite !L by assumption. destruct (Z.lt_trichotomy (num128 a) (num128 b)) as [H|[H|H]]; [tauto| |tauto]. right. left.
    destruct a as [al ah], b as [bl bh], A as [A1 A2], B as [B1 B2]. unfold num128, lane in *. cbn [fst snd] in *. f_equal; lia.
Qed.
Example C115_ex : lt128 false (9, 3) (1, 4) = (2 ^ 64 - 1, 2 ^ 64 - 1) /\ lt128 false (9, 4) (1, 4) = (0, 0) /\ lt128 true (2 ^ 63 - 1, 4) (2 ^ 63, 4) = (2 ^ 64 - 1, 2 ^ 64 - 1) /\
  min128 false (9, 4) (1, 4) = (1, 4) /\ max128_upper true (9, 4) (1, 4) = (1, 4) /\ eq128 false (9, 4) (1, 4) = (0, 0) /\ ne128_upper false (9, 4) (1, 4) = (0, 0).
Proof. vm_compute. repeat split. Qed.
