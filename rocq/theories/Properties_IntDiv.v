(** C78: integer division and modulo of lanes, hwy/ops/generic_ops-inl.h, computed
    with floating-point division. *)
From Coq Require Import ZArith List Bool Lia.
From Verif Require Import Word IntOps_Model IntDiv_Model IntDiv_Proofs.
Import ListNotations.
Local Open Scope Z_scope.

(** quotient and remainder of the C++ operators: truncation towards zero *)
Definition cpp_divmod (a b q r : Z) : Prop := a = q * b + r /\ Z.abs r < Z.abs b /\ (r = 0 \/ Z.sgn r = Z.sgn a).
Lemma cpp_divmod_unique a b q r q' r' : b <> 0 -> cpp_divmod a b q r -> cpp_divmod a b q' r' -> q = q' /\ r = r'.
Proof.
  intros Hb (E & R & S) (E' & R' & S'). assert (H : (q - q') * b = r' - r) by lia.
  assert (D : Z.abs (r' - r) < Z.abs b). { destruct (sgn_cases a) as [(SA & ?)|[(SA & ?)|(SA & ?)]]; rewrite SA in *; destruct (sgn_cases r) as [(SR & ?)|[(SR & ?)|(SR & ?)]]; destruct (sgn_cases r') as [(SR' & ?)|[(SR' & ?)|(SR' & ?)]]; lia. }
  assert (q = q'); [|subst; split; lia]. rewrite <- H, Z.abs_mul in D. assert (Z.abs (q - q') = 0) by nia. lia.
Qed.
(** operands for which C++ defines the result *)
Definition defined (sg : bool) (w : Z) (ab : Z * Z) : Prop :=
  let (a, b) := ab in
  (if sg then - 2 ^ (w - 1) <= a < 2 ^ (w - 1) /\ - 2 ^ (w - 1) <= b < 2 ^ (w - 1) else 0 <= a < 2 ^ w /\ 0 <= b < 2 ^ w) /\
  b <> 0 /\ ~ (sg = true /\ a = - 2 ^ (w - 1) /\ b = -1).
Lemma defined_in sg w a b : defined sg w (a, b) -> b <> 0 /\ in_range sg w a /\ in_range sg w b /\ ~ overflow sg w a b.
Proof.
  intros (R & B & O). split; [exact B|]. unfold in_range, overflow, lowest, highest. destruct sg; (split; [lia|]; split; [lia|]); intros (H & ?); apply O; auto. discriminate.
Qed.
(** C78: whatever instructions the target has, however conversions of out-of-range values behave,
    and for every lane type, a / b and a % b are those of C++ in every lane for which C++ defines them,
    independently of the other lanes *)
Theorem C78_division : forall t direct mod_wide sg w (v : list (Z * Z)), width w -> Forall (defined sg w) v ->
  Forall2 (fun ab qr => cpp_divmod (fst ab) (snd ab) (fst qr) (snd qr)) v
    (map (fun ab => (int_div t direct sg w (fst ab) (snd ab), int_mod t direct mod_wide sg w (fst ab) (snd ab))) v).
Proof.
  intros t direct mw sg w v Hw. induction 1 as [|[a b] v H _ IH]; cbn [map]; constructor; [|exact IH]. cbn [fst snd]. destruct (defined_in sg w a b H) as (B & Ra & Rb & O).
  rewrite int_div_ok, int_mod_ok by assumption. pose proof (Z.quot_rem' a b). split; [lia|]. split; [apply Z.rem_bound_abs; exact B|]. destruct (Z.eq_dec (Z.rem a b) 0) as [E|E]; [left; exact E|right]. apply Z.rem_sign_nz; assumption.
Qed.
(** C78: they are the functions quot and rem, so the result is in the range of the lane type *)
Theorem C78_quot_rem : forall t direct mod_wide sg w a b, width w -> defined sg w (a, b) ->
  int_div t direct sg w a b = Z.quot a b /\ int_mod t direct mod_wide sg w a b = Z.rem a b.
Proof. intros t direct mw sg w a b Hw H. destruct (defined_in sg w a b H) as (B & Ra & Rb & O). split; [apply int_div_ok|apply int_mod_ok]; assumption. Qed.
(** C78: LimitsMin / -1, which C++ leaves undefined: 64-bit lanes (and 32-bit lanes without binary64) wrap around to LimitsMin *)
Theorem C78_overflow_wraps : forall t direct, int_div t direct true 64 (- 2 ^ 63) (-1) = - 2 ^ 63 /\ (has_f64 t = false -> int_div t direct true 32 (- 2 ^ 31) (-1) = - 2 ^ 31).
Proof.
  intros t direct. unfold int_div. cbn [Z.eqb Pos.eqb]. split.
  - rewrite int_div_same_ok; [reflexivity|left; auto|discriminate| |]; unfold in_range, lowest, highest; lia.
  - intros ->. rewrite int_div_same_ok; [reflexivity|right; auto|discriminate| |]; unfold in_range, lowest, highest; lia.
Qed.
Definition avx2 := {| has_f16 := false; has_f64 := true; sse := true; t_oor := OMin |}.
Definition wasm32 := {| has_f16 := false; has_f64 := false; sse := false; t_oor := OSat |}.
Example C78_nonvacuous :
  Forall (defined false 64) [(2 ^ 64 - 1, 2 ^ 63 - 1); (2 ^ 64 - 1, 1); (10, 2 ^ 63)] /\ defined true 64 (- 2 ^ 63, 3) /\
  int_div avx2 false false 64 (2 ^ 64 - 1) (2 ^ 63 - 1) = 2 /\ int_mod avx2 false true false 64 (2 ^ 64 - 1) (2 ^ 63 - 1) = 1 /\
  int_div wasm32 true true 32 (- 2 ^ 31) 3 = -715827882 /\ int_mod wasm32 true false true 8 (-128) 3 = -2.
Proof.
  split; [repeat constructor; try lia; intros (D & _); discriminate|]. split; [repeat split; try lia|].
  assert (D1 : defined false 64 (2 ^ 64 - 1, 2 ^ 63 - 1)) by (repeat split; try lia; intros (D & _); discriminate).
  assert (D2 : defined true 32 (- 2 ^ 31, 3)) by (repeat split; lia). assert (D3 : defined true 8 (-128, 3)) by (repeat split; lia).
  split; [rewrite (proj1 (C78_quot_rem avx2 false true false 64 _ _ ltac:(unfold width; auto) D1)); reflexivity|].
  split; [rewrite (proj2 (C78_quot_rem avx2 false true false 64 _ _ ltac:(unfold width; auto) D1)); reflexivity|].
  split; [rewrite (proj1 (C78_quot_rem wasm32 true true true 32 _ _ ltac:(unfold width; auto) D2)); reflexivity|].
  rewrite (proj2 (C78_quot_rem wasm32 true false true 8 _ _ ltac:(unfold width; auto) D3)). reflexivity.
Qed.
Print Assumptions C78_division.
