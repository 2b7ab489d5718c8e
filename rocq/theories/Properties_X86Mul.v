(** C121, C122: integer multiplication and operations on odd and even lanes on SSE2, SSSE3, SSE4 (and AVX2 for 128-bit vectors). A vector of [n] lanes of [s] bytes is the first n * s bytes
    of a 16-byte register. [lane_value sg s i r]: the number in lane i, signed if [sg] (X86Int_Spec). *)
From Coq Require Import ZArith List Bool Lia Arith.
From Verif Require Import Word Word_Proofs X86Int_Spec X86Int_Model X86Int_Proofs X86Int_Lane X86Int_Sel X86Int_Main X86Int_Two X86Mul_Model Properties_X86Int X86Mul_Move X86Mul_Proofs X86Mul_More X86Mul_High.
Import ListNotations.
Open Scope Z_scope.
Arguments Z.pow : simpl never.
Arguments Z.mul : simpl never.
Arguments Z.add : simpl never.
Arguments Z.of_nat : simpl never.
Lemma lval sg s i r : (0 < s)%nat -> register 16 r -> lane_value sg s i r = val sg s i r.
Proof. intros Hs [_ B]. apply lv; auto. Qed.
Lemma lprod sg s i a b : (0 < s)%nat -> register 16 a -> register 16 b -> lane_value sg s i a * lane_value sg s i b = prod sg s i a b.
Proof. intros. rewrite !lval by auto. reflexivity. Qed.
(** the product of lanes, modulo the range of the type, whether taken as signed or not *)
Theorem C121_times : forall t sg s n a b i, In s [1; 2; 4; 8]%nat -> lane_count n -> (n * s <= 16)%nat -> register 16 a -> register 16 b -> (i < n)%nat ->
  lane_value false s i (times t sg s n a b) = (lane_value sg s i a * lane_value sg s i b) mod 2 ^ (8 * Z.of_nat s).
Proof.
  intros t sg s n a b i Hs Hn H Ra Rb Hi. assert (Hc : cfg s n) by (split; auto). rewrite lvu, times_ok by auto. rewrite lprod by (auto; apply size_pos; auto). symmetry. apply prod_wrap; auto.
Qed.
(** the exact products of the even lanes, in lanes twice as wide *)
Theorem C121_mul_even : forall t sg s a b j, In s [1; 2; 4]%nat -> register 16 a -> register 16 b -> (j < 8 / s)%nat ->
  lane_value sg (2 * s) j (mul_even t sg s a b) = lane_value sg s (2 * j) a * lane_value sg s (2 * j) b.
Proof.
  intros t sg s a b j Hs Ra Rb Hj. assert (P : (0 < s)%nat) by (apply half_pos; auto). rewrite lprod by auto. rewrite lval by (try lia; apply mul_even_reg; auto). unfold val. rewrite mul_even_ok; auto; [apply prod_value; auto; apply half_is_size; auto | cbn [In] in Hs; repeat destruct Hs as [<-|Hs]; try contradiction; exact Hj].
Qed.
Theorem C121_mul_odd : forall t sg s a b j, In s [1; 2; 4]%nat -> register 16 a -> register 16 b -> (j < 8 / s)%nat ->
  lane_value sg (2 * s) j (mul_odd t sg s a b) = lane_value sg s (2 * j + 1) a * lane_value sg s (2 * j + 1) b.
Proof.
  intros t sg s a b j Hs Ra Rb Hj. assert (P : (0 < s)%nat) by (apply half_pos; auto). rewrite lprod by auto. rewrite lval by (try lia; apply mul_odd_reg; auto). unfold val. rewrite mul_odd_ok; auto; [apply prod_value; auto; apply half_is_size; auto | cbn [In] in Hs; repeat destruct Hs as [<-|Hs]; try contradiction; exact Hj].
Qed.
(** 64-bit lanes: the 128-bit product, lower half in lane 0 *)
Lemma high64 (sg : bool) p : (if sg then in_s 128 p else in_u 128 p : Prop) -> value_of sg 8 (wrap 64 (p / 2 ^ 64)) = p / 2 ^ 64.
Proof.
  intros H. apply (value_wrap sg 8); [lia|]. change (bits 8) with 64. assert (E : 2 ^ 128 = 2 ^ 64 * 2 ^ 64) by reflexivity. assert (E2 : 2 ^ (128 - 1) = 2 ^ 63 * 2 ^ 64) by reflexivity. destruct sg.
  - unfold in_s in *. change (64 - 1) with 63. rewrite E2 in H. split; [apply Z.div_le_lower_bound; lia | apply Z.div_lt_upper_bound; lia].
  - unfold in_u in *. rewrite E in H. split; [apply Z.div_pos; lia | apply Z.div_lt_upper_bound; lia].
Qed.
Lemma C121_64 (odd sg : bool) a b : register 16 a -> register 16 b -> let j := (if odd then 1 else 0)%nat in
  lane_value false 8 0 (half64 odd sg a b) + 2 ^ 64 * lane_value sg 8 1 (half64 odd sg a b) = lane_value sg 8 j a * lane_value sg 8 j b.
Proof.
  intros Ra Rb j. destruct (half64_ok odd sg a b Ra Rb) as (R & E0 & E1). fold j in E0, E1. rewrite lprod by (auto; lia). rewrite lvu, E0. rewrite lval by (auto; lia). unfold val. rewrite E1. rewrite high64 by (apply (prod_fits sg 8 j a b); auto; sz).
  unfold wrap. pose proof (Z.div_mod (prod sg 8 j a b) (2 ^ 64) ltac:(lia)). lia.
Qed.
Theorem C121_mul_even64 : forall sg a b, register 16 a -> register 16 b ->
  lane_value false 8 0 (mul_even64 sg a b) + 2 ^ 64 * lane_value sg 8 1 (mul_even64 sg a b) = lane_value sg 8 0 a * lane_value sg 8 0 b.
Proof. intros sg a b. apply (C121_64 false sg). Qed.
Theorem C121_mul_odd64 : forall sg a b, register 16 a -> register 16 b ->
  lane_value false 8 0 (mul_odd64 sg a b) + 2 ^ 64 * lane_value sg 8 1 (mul_odd64 sg a b) = lane_value sg 8 1 a * lane_value sg 8 1 b.
Proof. intros sg a b. apply (C121_64 true sg). Qed.
(** the upper half of the product: its quotient by 2 ^ (8 s), rounded down *)
Lemma concat_odd_byte t nb s hi lo : register 16 hi -> register 16 lo -> Forall byte (concat_odd t nb s hi lo).
Proof.
  intros Rh Rl. unfold concat_odd. cbn zeta. repeat match goal with |- context [match ?x with _ => _ end] => is_var x; destruct x end; fb.
Qed.
Lemma mul_high_byte t sg s n a b : In s [1; 2; 4; 8]%nat -> register 16 a -> register 16 b -> Forall byte (mul_high t sg s n a b).
Proof.
  intros Hs Ra Rb. assert (G : half_size s -> Forall byte (if (n =? 1)%nat then srl_bytes s (mul_even t sg s a b) else interleave_odd t s n (mul_even t sg s a b) (mul_odd t sg s a b))).
  { intros Hh. pose proof (mul_even_reg t sg s a b Hh Ra Rb) as Re. pose proof (mul_odd_reg t sg s a b Hh Ra Rb) as Ro. destruct (n =? 1)%nat; [fb|]. unfold interleave_odd. destruct (n <=? 2)%nat; [apply concat_odd_byte; auto|].
    unfold half_size in Hh. cbn [In] in Hh. repeat destruct Hh as [<-|Hh]; try contradiction; cbn zeta.
    - apply odd_even_reg; [sz | auto | rr].
    - apply odd_even_reg; [sz | auto | rr].
    - apply Forall_app; split; apply select_byte; apply concat_odd_byte; auto. }
  unfold mul_high. cbn [In] in Hs. repeat destruct Hs as [<-|Hs]; try contradiction; [apply G; sz | apply mulhi_reg; auto | apply G; sz |].
  pose proof (mul128_ok sg a b 0 Ra Rb ltac:(lia)) as M. destruct (mul128 sg a b) as [l h]. apply M.
Qed.
Theorem C121_mul_high : forall t sg s n a b i, In s [1; 2; 4; 8]%nat -> lane_count n -> (n * s <= 16)%nat -> register 16 a -> register 16 b -> (i < n)%nat ->
  lane_value sg s i (mul_high t sg s n a b) = (lane_value sg s i a * lane_value sg s i b) / 2 ^ (8 * Z.of_nat s).
Proof.
  intros t sg s n a b i Hs Hn H Ra Rb Hi. assert (Hc : cfg s n) by (split; auto). pose proof (size_pos s Hs) as P. rewrite lprod by auto. rewrite lv by (auto; apply mul_high_byte; auto). rewrite mul_high_ok by auto. fold (bits s).
  apply value_wrap; auto. pose proof (prod_fits sg s i a b Hs Ra Rb) as F. pose proof (half_pow (bits s) (bits_pos s P)) as [E Q]. destruct sg.
  - unfold in_s in *. rewrite bits_dbl in F. replace (2 * bits s - 1) with ((bits s - 1) + bits s) in F by lia. rewrite Z.pow_add_r in F by (pose proof (bits_pos s P); lia). split; [apply Z.div_le_lower_bound; lia | apply Z.div_lt_upper_bound; lia].
  - unfold in_u in *. rewrite pow_dbl in F. split; [apply Z.div_pos; lia | apply Z.div_lt_upper_bound; lia].
Qed.
(** the product of fixed-point numbers with 15 fraction bits, rounded to the nearest, half up; both -1: implementation-defined *)
Theorem C121_mul_fixed15 : forall t n a b i, lane_count n -> (n <= 8)%nat -> register 16 a -> register 16 b -> (i < n)%nat ->
  ~ (lane_value true 2 i a = -32768 /\ lane_value true 2 i b = -32768) ->
  lane_value true 2 i (mul_fixed15 t n a b) = (lane_value true 2 i a * lane_value true 2 i b + 2 ^ 14) / 2 ^ 15.
Proof.
  intros t n a b i Hn H Ra Rb Hi N. rewrite lprod by (auto; lia). rewrite !lval in N by (auto; lia). destruct (fixed15_ok t n a b i) as [R E]; auto; [split; [sz | split; [auto | lia]]|]. rewrite lval by (auto; lia). exact E.
Qed.
(** sums of the products of adjacent lanes: modulo 2^32, and exact for signed lanes unless all four are -32768 *)
Theorem C121_pairwise : forall t sg a b j, register 16 a -> register 16 b -> (j < 4)%nat ->
  lane_value false 4 j (widen_mul_pairwise_add t sg a b) = (lane_value sg 2 (2 * j) a * lane_value sg 2 (2 * j) b + lane_value sg 2 (2 * j + 1) a * lane_value sg 2 (2 * j + 1) b) mod 2 ^ 32.
Proof. intros t sg a b j Ra Rb Hj. rewrite !lprod by (auto; lia). rewrite lvu. apply pairwise_ok; auto. Qed.
Theorem C121_pairwise_signed : forall t a b j, register 16 a -> register 16 b -> (j < 4)%nat ->
  ~ (lane_value true 2 (2 * j) a = -32768 /\ lane_value true 2 (2 * j) b = -32768 /\ lane_value true 2 (2 * j + 1) a = -32768 /\ lane_value true 2 (2 * j + 1) b = -32768) ->
  lane_value true 4 j (widen_mul_pairwise_add t true a b) = lane_value true 2 (2 * j) a * lane_value true 2 (2 * j) b + lane_value true 2 (2 * j + 1) a * lane_value true 2 (2 * j + 1) b.
Proof.
  intros t a b j Ra Rb Hj N. rewrite !lprod by (auto; lia). rewrite !lval in N by (auto; lia). destruct (pairwise_ok t true a b j Ra Rb Hj) as [R E]. rewrite lval by (auto; lia). unfold val. rewrite E. apply (value_wrap true 4); [lia|].
  destruct (prod16 a b (2 * j) Ra Rb) as [P1 P2]. destruct (prod16 a b (2 * j + 1) Ra Rb) as [Q1 Q2]. unfold in_s. change (2 ^ (bits 4 - 1)) with 2147483648.
  assert (D : ~ (val true 2 (2 * j) a = -32768 /\ val true 2 (2 * j) b = -32768) \/ ~ (val true 2 (2 * j + 1) a = -32768 /\ val true 2 (2 * j + 1) b = -32768)) by lia. destruct D as [D|D]; [specialize (P2 D) | specialize (Q2 D)]; lia.
Qed.
(** the mean, rounded up *)
Theorem C121_average : forall sg s a b i, In s [1; 2]%nat -> register 16 a -> register 16 b -> (i < 16 / s)%nat ->
  lane_value sg s i (average sg s a b) = (lane_value sg s i a + lane_value sg s i b + 1) / 2.
Proof.
  intros sg s a b i Hs Ra Rb Hi. assert (Hz : size s) by (unfold size; cbn in *; tauto). pose proof (size_pos s Hz). destruct (average_ok sg s a b i Hz Ra Rb Hi) as [R E]. rewrite !lval by auto. exact E.
Qed.

(** C122: odd lanes of a, even lanes of b *)
Theorem C122_odd_even : forall t s a b i, In s [1; 2; 4; 8]%nat -> register 16 a -> register 16 b -> (i < 16 / s)%nat ->
  lane_value false s i (odd_even t s a b) = lane_value false s i (if Nat.odd i then a else b).
Proof. intros. rewrite !lvu, ln_odd_even by auto. destruct (Nat.odd i); reflexivity. Qed.
(** each even (odd) lane, twice *)
Theorem C122_dup_even : forall t s n v i, In s [1; 2; 4; 8]%nat -> lane_count n -> (n * s <= 16)%nat -> register 16 v -> (i < n)%nat ->
  lane_value false s i (dup_even t s n v) = lane_value false s (if Nat.odd i then i - 1 else i) v.
Proof.
  intros t s n v i Hs Hn H R Hi. rewrite !lvu, ln_dup_even by (auto; split; auto). f_equal. destruct (half_lane i) as [(j & E & -> & ->)|(j & E & -> & ->)]; lia.
Qed.
Theorem C122_dup_odd : forall t s n v i, In s [1; 2; 4; 8]%nat -> lane_count n -> (n * s <= 16)%nat -> (2 <= n)%nat -> register 16 v -> (i < n)%nat ->
  lane_value false s i (dup_odd t s n v) = lane_value false s (if Nat.odd i then i else i + 1) v.
Proof.
  intros t s n v i Hs Hn H H2 R Hi. rewrite !lvu, ln_dup_odd by (auto; split; auto). f_equal. destruct (half_lane i) as [(j & E & -> & ->)|(j & E & -> & ->)]; lia.
Qed.
(** the even (odd) lanes of a and b, alternating *)
Theorem C122_interleave_even : forall t s n a b i, In s [1; 2; 4; 8]%nat -> lane_count n -> (n * s <= 16)%nat -> (2 <= n)%nat -> register 16 a -> register 16 b -> (i < n)%nat ->
  lane_value false s i (interleave_even t s n a b) = if Nat.odd i then lane_value false s (i - 1) b else lane_value false s i a.
Proof. intros t s n a b i Hs Hn H H2 Ra Rb Hi. rewrite !lvu. apply ln_int_even; auto. split; auto. Qed.
Theorem C122_interleave_odd : forall t s n a b i, In s [1; 2; 4; 8]%nat -> lane_count n -> (n * s <= 16)%nat -> (2 <= n)%nat -> register 16 a -> register 16 b -> (i < n)%nat ->
  lane_value false s i (interleave_odd t s n a b) = if Nat.odd i then lane_value false s i b else lane_value false s (i + 1) a.
Proof. intros t s n a b i Hs Hn H H2 Ra Rb Hi. rewrite !lvu. apply ln_int_odd; auto. split; auto. Qed.

(** ** concrete cases *)
Definition ex_a : list Z := [0; 128; 255; 255; 1; 0; 0; 128; 200; 100; 50; 25; 255; 127; 3; 254].
Definition ex_b : list Z := [0; 128; 2; 0; 255; 255; 255; 127; 7; 200; 150; 99; 255; 255; 17; 201].
Example X86Mul_inputs : register 16 ex_a /\ register 16 ex_b /\ In 4%nat [1; 2; 4]%nat /\ lane_count 4.
Proof. split; [|split; [|split; cbn; tauto]]; (split; [reflexivity|]; repeat constructor; lia). Qed.
Example X86Mul_even_neg : lane_value true 8 0 (mul_even SSE2 true 4 ex_a ex_b) = lane_value true 4 0 ex_a * lane_value true 4 0 ex_b /\ lane_value true 4 0 ex_a = -32768 /\ lane_value true 4 0 ex_b = 163840.
Proof. vm_compute. auto. Qed.
Example X86Mul_high_neg : lane_value true 4 1 (mul_high SSE2 true 4 4 ex_a ex_b) = -1073741824 /\ lane_value true 4 1 ex_a = -2147483647 /\ lane_value true 4 1 ex_b = 2147483647.
Proof. vm_compute. auto. Qed.
Example X86Mul_fixed_excluded : lane_value true 2 0 ex_a = -32768 /\ lane_value true 2 0 ex_b = -32768 /\ lane_value true 2 0 (mul_fixed15 SSE2 8 ex_a ex_b) = 32767 /\ lane_value true 2 0 (mul_fixed15 SSE4 8 ex_a ex_b) = -32768.
Proof. vm_compute. auto. Qed.
Example X86Mul_fixed : lane_value true 2 3 (mul_fixed15 SSE2 8 ex_a ex_b) = -32767 /\ lane_value true 2 3 ex_a = -32768 /\ lane_value true 2 3 ex_b = 32767.
Proof. vm_compute. auto. Qed.
Example X86Mul_avg : map (fun i => lane_value true 1 i (average true 1 ex_a ex_b)) [1; 8; 15]%nat = [-128; -24; -28]. Proof. vm_compute. reflexivity. Qed.
Example X86Mul_interleave : interleave_even SSE2 1 16 [0; 1; 2; 3; 4; 5; 6; 7; 8; 9; 10; 11; 12; 13; 14; 15] (map (fun x => x + 100) [0; 1; 2; 3; 4; 5; 6; 7; 8; 9; 10; 11; 12; 13; 14; 15]) = [0; 100; 2; 102; 4; 104; 6; 106; 8; 108; 10; 110; 12; 112; 14; 114].
Proof. vm_compute. reflexivity. Qed.
