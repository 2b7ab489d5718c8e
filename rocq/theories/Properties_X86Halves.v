(** C126: interleaving, halves and their concatenation on SSE2, SSSE3, SSE4 (and AVX2 for 128-bit vectors). A vector of [n] lanes of [s] bytes is the first n * s bytes of a 16-byte register;
    [lane_value sg s i r]: the number in lane i (X86Int_Spec). *)
From Coq Require Import ZArith List Bool Lia Arith.
From Verif Require Import Word Word_Proofs X86Int_Spec X86Int_Model X86Int_Proofs X86Int_Lane X86Int_Sel X86Int_Main X86Int_Two X86Mul_Model Properties_X86Int X86Mul_Move X86Slide_Model X86Slide_Proofs X86Slide_More X86Slide_Perm X86Halves_Model.
Import ListNotations.
Open Scope Z_scope.
Arguments Z.pow : simpl never.
Arguments Z.mul : simpl never.
Arguments Z.add : simpl never.
Arguments Z.of_nat : simpl never.
Lemma lane_of_ln sg s i j r r' : ln s i r = ln s j r' -> lane_value sg s i r = lane_value sg s j r'.
Proof. intros E. rewrite <- !lvu in E. unfold lane_value in *. cbn [andb] in E. rewrite E. reflexivity. Qed.
Ltac lanes_tac Hc i := cfgs_tac Hc; try lia; cases_lt i.
(** lanes of the lower halves, alternately of a and b *)
Theorem C126_interleave_lower : forall sg s n a b i, In s [1; 2; 4; 8]%nat -> lane_count n -> (n * s <= 16)%nat -> (1 < n)%nat -> register 16 a -> register 16 b -> (i < n)%nat ->
  lane_value sg s i (interleave_lower s a b) = lane_value sg s (i / 2) (if (i mod 2 =? 0)%nat then a else b).
Proof.
  intros sg s n a b i Hs Hn H N [La _] [Lb _] Hi. assert (Hc : cfg s n) by (split; auto). apply lane_of_ln. dreg a La. dreg b Lb. lanes_tac Hc i.
Qed.
Theorem C126_interleave_upper : forall sg s n a b i, In s [1; 2; 4; 8]%nat -> lane_count n -> (n * s <= 16)%nat -> (1 < n)%nat -> register 16 a -> register 16 b -> (i < n)%nat ->
  lane_value sg s i (interleave_upper s n a b) = lane_value sg s (n / 2 + i / 2) (if (i mod 2 =? 0)%nat then a else b).
Proof.
  intros sg s n a b i Hs Hn H N [La _] [Lb _] Hi. assert (Hc : cfg s n) by (split; auto). apply lane_of_ln. dreg a La. dreg b Lb. lanes_tac Hc i.
Qed.
(** halves of a vector of [n] lanes *)
Theorem C126_halves : forall sg s n v i, In s [1; 2; 4; 8]%nat -> lane_count n -> (n * s <= 16)%nat -> (1 < n)%nat -> register 16 v -> (i < n / 2)%nat ->
  lane_value sg s i (lower_half v) = lane_value sg s i v /\ lane_value sg s i (upper_half (n / 2 * s) v) = lane_value sg s (n / 2 + i) v.
Proof.
  intros sg s n v i Hs Hn H N [L _] Hi. assert (Hc : cfg s n) by (split; auto). split; [reflexivity|]. apply lane_of_ln. dreg v L.
  cfgs_tac Hc; try lia; match goal with Hi : (i < ?e)%nat |- _ => let e' := eval vm_compute in e in change e with e' in Hi end; cases_lt i.
Qed.
(** two vectors of [n] lanes; zero extension of [n] lanes *)
Theorem C126_combine : forall sg s n hi lo i, In s [1; 2; 4; 8]%nat -> lane_count n -> (2 * n * s <= 16)%nat -> register 16 hi -> register 16 lo -> (i < 2 * n)%nat ->
  lane_value sg s i (combine_halves (n * s) hi lo) = if (i <? n)%nat then lane_value sg s i lo else lane_value sg s (i - n) hi.
Proof.
  intros sg s n hi lo i Hs Hn H [La _] [Lb _] Hi. assert (Hc : cfg s n) by (repeat split; auto; lia). assert (E : ln s i (combine_halves (n * s) hi lo) = if (i <? n)%nat then ln s i lo else ln s (i - n) hi).
  { dreg hi La. dreg lo Lb. lanes_tac Hc i. }
  destruct (i <? n)%nat; apply lane_of_ln; exact E.
Qed.
Theorem C126_zero_extend : forall sg s n lo i, In s [1; 2; 4; 8]%nat -> lane_count n -> (2 * n * s <= 16)%nat -> register 16 lo -> (i < 2 * n)%nat ->
  lane_value sg s i (zero_extend (n * s) lo) = if (i <? n)%nat then lane_value sg s i lo else 0.
Proof.
  intros sg s n lo i Hs Hn H [L _] Hi. pose proof (size_pos s Hs) as S0. unfold zero_extend, clear_upper. destruct (Nat.ltb_spec i n) as [C|C].
  - apply lane_ext. intros q Hq. rewrite nth_load. assert (i * s + q < n * s)%nat as ->%Nat.ltb_lt by nia. reflexivity.
  - apply lane_zero; auto. intros q Hq. rewrite nth_load. assert (n * s <= i * s + q)%nat as ->%Nat.ltb_ge by nia. reflexivity.
Qed.
(** lo provides the lower lanes of the result, hi the upper ones *)
Definition half_lane (sg upper : bool) (s n i : nat) (v : reg) : Z := lane_value sg s (if upper then n / 2 + i else i) v.
Definition halves_spec (sg uhi ulo : bool) (s n i : nat) (hi lo r : reg) : Prop :=
  lane_value sg s i r = if (i <? n / 2)%nat then half_lane sg ulo s n i lo else half_lane sg uhi s n (i - n / 2) hi.
Lemma halves_ln sg uhi ulo s n i hi lo r : ln s i r = (if (i <? n / 2)%nat then ln s (if ulo : bool then n / 2 + i else i)%nat lo else ln s (if uhi : bool then n / 2 + (i - n / 2) else i - n / 2)%nat hi) -> halves_spec sg uhi ulo s n i hi lo r.
Proof. unfold halves_spec, half_lane. intros E. destruct (i <? n / 2)%nat; apply lane_of_ln; exact E. Qed.
Theorem C126_concat_halves : forall t f32 sg s n hi lo i, In s [1; 2; 4; 8]%nat -> lane_count n -> (n * s <= 16)%nat -> (1 < n)%nat -> register 16 hi -> register 16 lo -> (i < n)%nat ->
  halves_spec sg false false s n i hi lo (concat_lower_lower (n * s) hi lo) /\ halves_spec sg true true s n i hi lo (concat_upper_upper (n * s) hi lo) /\
  halves_spec sg false true s n i hi lo (concat_lower_upper t (n * s) hi lo) /\ halves_spec sg true false s n i hi lo (concat_upper_lower t f32 (n * s) hi lo).
Proof.
  intros t f32 sg s n hi lo i Hs Hn H N Rh Rl Hi. assert (Hc : cfg s n) by (split; auto). pose proof Rh as [La _]. pose proof Rl as [Lb _]. split; [|split; [|split]].
  - apply halves_ln. clear Rh Rl. dreg hi La. dreg lo Lb. lanes_tac Hc i.
  - apply halves_ln. clear Rh Rl. dreg hi La. dreg lo Lb. lanes_tac Hc i.
  - unfold concat_lower_upper. destruct (Nat.eqb_spec (n * s) 16) as [E|E].
    + assert (E2 : (n / 2 * s = 8)%nat) by (clear - Hc E; cfgs_tac Hc; try lia; reflexivity). pose proof (size_pos s Hs) as S0. unfold halves_spec, half_lane. destruct (Nat.ltb_spec i (n / 2)) as [C|C]; apply lane_ext; intros q Hq; (rewrite combine_shift_ok; [| cbn; tauto | lia | auto | auto | nia]).
      * assert (i * s + q + 8 < 16)%nat as ->%Nat.ltb_lt by nia. f_equal. nia.
      * assert (16 <= i * s + q + 8)%nat as ->%Nat.ltb_ge by nia. f_equal. nia.
    + apply halves_ln. clear Rh Rl. dreg hi La. dreg lo Lb. lanes_tac Hc i.
  - apply halves_ln. clear Rh Rl. dreg hi La. dreg lo Lb. destruct t, f32; lanes_tac Hc i.
Qed.
(** concrete vectors *)
Definition first16 : reg := [1; 2; 3; 4; 5; 6; 7; 8; 9; 10; 11; 12; 13; 14; 15; 16].
Definition next16 : reg := map (fun x => 100 + x) first16.
Example X86Halves_interleave : register 16 first16 /\ register 16 next16 /\ interleave_lower 1 first16 next16 = [1; 101; 2; 102; 3; 103; 4; 104; 5; 105; 6; 106; 7; 107; 8; 108] /\
  firstn 8 (interleave_upper 2 4 first16 next16) = [5; 6; 105; 106; 7; 8; 107; 108].
Proof. split; [split; [reflexivity | repeat constructor; lia]|]. split; [split; [reflexivity | repeat constructor; lia]|]. split; vm_compute; reflexivity. Qed.
Example X86Halves_concat : firstn 4 (concat_upper_lower SSE2 false 4 next16 first16) = [1; 2; 103; 104] /\ firstn 8 (concat_lower_upper SSSE3 8 next16 first16) = [5; 6; 7; 8; 101; 102; 103; 104] /\
  concat_lower_upper SSE2 16 next16 first16 = [9; 10; 11; 12; 13; 14; 15; 16; 101; 102; 103; 104; 105; 106; 107; 108].
Proof. repeat split; vm_compute; reflexivity. Qed.
