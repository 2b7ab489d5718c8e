(** Integers to floating point on x86: every step is exact except the last. *)
From Coq Require Import ZArith Bool Lia.
From Verif Require Import Word Word_Proofs Float_Spec Float_Model Float_Proofs Float_Conv Float_F64 Float_More Rounding_Model Rounding_Spec Rounding_Core Rounding_Proofs Rounding_Bits Pow2_Spec Pow2_Model Pow2_Round X86Conv_Model.
Open Scope Z_scope.
Ltac Zify.zify_post_hook ::= idtac.
Arguments Z.pow : simpl never.
Arguments Z.mul : simpl never.
Arguments R : simpl never.

Section I.
Context (f : fmt) (F : float_type f).
Notation M := (mbits f).
Notation V := (mag_value f).
Let O : fmt_ok f := ft_ok f F.
Lemma u_pos : 0 < 2 ^ 1074. Proof. apply pow_pos; lia. Qed.
(** finite patterns whose value is an integer; zero is positive *)
Definition holds (a z : Z) : Prop := is_pattern f a /\ magnitude f a < inf_mag f /\ value f a = z * 2 ^ 1074 /\ negative f a = (z <? 0).
(** integers the format represents *)
Definition repr (z : Z) : Prop := exists j p, 0 <= p /\ 0 <= j < 2 ^ (M + 1) /\ Z.abs z = j * 2 ^ p /\ Z.abs z <= 2 ^ 100.
Lemma inf_100 : 2 ^ 100 * 2 ^ 1074 < V (inf_mag f).
Proof. destruct F as [-> | ->]; vm_compute; reflexivity. Qed.
Lemma R_repr z : repr z -> R f (Z.abs z * 2 ^ 1074) = Z.abs z * 2 ^ 1074.
Proof.
  intros (j & p & Hp & Hj & E & B). pose proof u_pos as U. pose proof inf_100. rewrite E in *. unfold R. replace (j * 2 ^ p * 2 ^ 1074) with (j * 2 ^ (p + 1074)) by (rewrite Z.pow_add_r by lia; ring).
  apply round_repr; [exact O|lia| | |].
  - intros Hj0. assert (Z.log2 j < M + 1); [|lia]. apply Z.log2_lt_pow2; lia.
  - destruct (ft_M f F). lia.
  - rewrite Z.pow_add_r, Z.mul_assoc by lia. apply Z.le_trans with (2 ^ 100 * 2 ^ 1074); [|lia]. apply Z.mul_le_mono_nonneg_r; lia.
Qed.
Lemma repr_pow j p : 0 <= p -> 0 <= j < 2 ^ (M + 1) -> j * 2 ^ p <= 2 ^ 100 -> repr (j * 2 ^ p).
Proof. intros. assert (0 < 2 ^ p) by (apply pow_pos; lia). exists j, p. rewrite Z.abs_eq by nia. auto. Qed.
Lemma repr_small z : Z.abs z < 2 ^ (M + 1) -> repr z.
Proof.
  intros H. exists (Z.abs z), 0. rewrite Z.pow_0_r, Z.mul_1_r. repeat split; try lia. apply Z.le_trans with (2 ^ (M + 1)); [lia|]. apply Z.pow_le_mono_r; [lia|]. destruct (ft_M f F). lia.
Qed.
Lemma repr_100 : repr (2 ^ 100).
Proof. replace (2 ^ 100) with (1 * 2 ^ 100) by lia. apply repr_pow; try lia. split; [lia|]. apply Z.pow_gt_1; [lia|]. destruct (ft_M f F). lia. Qed.
Lemma of_int_fin z : Z.abs z <= 2 ^ 100 -> 0 <= ieee_round f (Z.abs z * 2 ^ 1074) < inf_mag f.
Proof.
  intros H. pose proof u_pos. apply (round_fin f F _ (2 ^ 100 * 2 ^ 1074)); [split; [lia|apply Z.mul_le_mono_nonneg_r; lia]| |apply inf_100].
  pose proof (R_repr (2 ^ 100) repr_100) as E. rewrite (Z.abs_eq (2 ^ 100)) in E by lia. exact E.
Qed.
Lemma of_int_facts z : Z.abs z <= 2 ^ 100 -> is_pattern f (of_int f z) /\ magnitude f (of_int f z) = ieee_round f (Z.abs z * 2 ^ 1074) /\ magnitude f (of_int f z) < inf_mag f /\
  negative f (of_int f z) = (z <? 0) /\ value f (of_int f z) = sg (z <? 0) (R f (Z.abs z * 2 ^ 1074)).
Proof.
  intros H. pose proof (of_int_fin z H) as B. pose proof (inf_S f F). unfold of_int, one. destruct (mk_facts f F (z <? 0) (ieee_round f (Z.abs z * 2 ^ 1074)) ltac:(lia)) as (A1 & A2 & A3).
  rewrite A2, A3. rewrite value_mk by (exact F || lia). split; [exact A1|]. split; [reflexivity|]. split; [lia|]. split; reflexivity.
Qed.
Lemma of_int_holds z : repr z -> holds (of_int f z) z.
Proof.
  intros H. assert (B : Z.abs z <= 2 ^ 100) by (destruct H as (? & ? & _ & _ & _ & ?); assumption). destruct (of_int_facts z B) as (A1 & _ & A2 & A3 & A4). split; [exact A1|]. split; [exact A2|]. split; [|exact A3].
  rewrite A4, R_repr by assumption. destruct (Z.ltb_spec z 0); cbn [sg]; [rewrite Z.abs_neq by lia|rewrite Z.abs_eq by lia]; ring.
Qed.
Lemma fadd_holds nan a b i j : holds a i -> holds b j -> fadd f nan a b = of_int f (i + j).
Proof.
  intros (A1 & A2 & A3 & A4) (B1 & B2 & B3 & B4). unfold fadd, is_fin. rewrite !(proj2 (Z.ltb_lt _ _)) by assumption. cbn [andb]. rewrite A3, B3, <- Z.mul_add_distr_r. rewrite Z.abs_mul, (Z.abs_eq (2 ^ 1074)) by (pose proof u_pos; lia).
  unfold of_int, one. f_equal. rewrite A4, B4. pose proof u_pos. destruct (Z.eqb_spec ((i + j) * 2 ^ 1074) 0) as [E|E].
  - apply Z.mul_eq_0 in E. assert (i + j = 0) by lia. destruct (Z.ltb_spec i 0), (Z.ltb_spec j 0), (Z.ltb_spec (i + j) 0); cbn [andb]; lia || reflexivity.
  - destruct (Z.ltb_spec ((i + j) * 2 ^ 1074) 0), (Z.ltb_spec (i + j) 0); try reflexivity; exfalso; nia.
Qed.
Lemma fneg_facts b j : holds b j -> is_pattern f (fneg f b) /\ magnitude f (fneg f b) < inf_mag f /\ value f (fneg f b) = (- j) * 2 ^ 1074 /\ negative f (fneg f b) = negb (j <? 0).
Proof. intros (B1 & B2 & B3 & B4). destruct (fneg_fin f F b B1) as (N1 & N2 & N3 & N4). rewrite N2, N3, N4, B3, B4. split; [exact N1|]. split; [assumption|]. split; [lia|reflexivity]. Qed.
Lemma fsub_holds nan a b i j : holds a i -> holds b j -> fsub f nan a b = of_int f (i - j).
Proof.
  intros (A1 & A2 & A3 & A4) B. destruct (fneg_facts b j B) as (N1 & N2 & N3 & N4). unfold fsub, fadd, is_fin. rewrite !(proj2 (Z.ltb_lt _ _)) by assumption. cbn [andb]. rewrite A3, N3, <- Z.mul_add_distr_r.
  rewrite Z.abs_mul, (Z.abs_eq (2 ^ 1074)) by (pose proof u_pos; lia). unfold of_int, one. rewrite Z.add_opp_r. f_equal. rewrite A4, N4. pose proof u_pos. destruct (Z.eqb_spec ((i - j) * 2 ^ 1074) 0) as [E|E].
  - apply Z.mul_eq_0 in E. assert (i - j = 0) by lia. destruct (Z.ltb_spec i 0), (Z.ltb_spec j 0), (Z.ltb_spec (i - j) 0); cbn [andb negb]; lia || reflexivity.
  - destruct (Z.ltb_spec ((i - j) * 2 ^ 1074) 0), (Z.ltb_spec (i - j) 0); try reflexivity; exfalso; nia.
Qed.
(** a pattern given by its fields *)
Lemma fields_holds e m : 0 <= m < 2 ^ M -> bias f + M <= e < 2 ^ ebits f - 1 -> holds (e * 2 ^ M + m) ((2 ^ M + m) * 2 ^ (e - bias f - M)).
Proof.
  intros Hm He. pose proof (PM f F) as P. pose proof u_pos as U. assert (Hb : 0 < bias f) by (destruct F as [-> | ->]; vm_compute; reflexivity). destruct (ft_M f F) as [FM _].
  assert (I : 0 <= e * 2 ^ M + m < inf_mag f) by (unfold inf_mag; nia). pose proof (inf_S f F) as IS.
  destruct (mk_facts f F false (e * 2 ^ M + m) ltac:(lia)) as (A1 & A2 & A3). unfold mk in A1, A2, A3. rewrite Z.add_0_l in A1, A2, A3.
  assert (E2 : (e * 2 ^ M + m) / 2 ^ M = e) by (symmetry; apply Z.div_unique with m; lia).
  assert (E3 : (e * 2 ^ M + m) mod 2 ^ M = m) by (symmetry; apply Z.mod_unique with e; lia).
  assert (T : 0 < (2 ^ M + m) * 2 ^ (e - bias f - M)) by (apply Z.mul_pos_pos; [lia|apply pow_pos; lia]).
  split; [exact A1|]. split; [lia|]. split.
  - unfold value. rewrite A2, A3. unfold mag_value. rewrite E2, E3. destruct (Z.eqb_spec e 0); [lia|]. rewrite <- Z.mul_assoc, <- Z.pow_add_r by lia. f_equal. f_equal. lia.
  - rewrite A2. symmetry. apply Z.ltb_ge. lia.
Qed.
Lemma correct_of_int z : Z.abs z <= 2 ^ 100 -> correct_int_conversion f z (of_int f z).
Proof.
  intros H. destruct (of_int_facts z H) as (A1 & A2 & _ & A3 & _). split; [exact A1|]. split; [exact A3|]. rewrite A2. apply ieee_round_nearest; [exact O|]. pose proof u_pos. lia.
Qed.
(** multiplication and addition *)
Lemma round_scaled_int n : 0 <= n -> round_scaled f (n * 2 ^ 1074 * 2 ^ 1074) 1074 = ieee_round f (n * 2 ^ 1074).
Proof.
  intros H. pose proof u_pos. apply (nearest_unique f O (n * 2 ^ 1074)).
  - apply scaled_0. apply (scaled_shift f (n * 2 ^ 1074) 0 1074); [lia|lia|]. rewrite Z.add_0_l. apply round_scaled_nearest; [exact O|lia|nia].
  - apply ieee_round_nearest; [exact O|nia].
Qed.
Lemma fma_holds a b c i j k : holds a i -> holds b j -> holds c k -> fma f a b c = of_int f (i * j + k).
Proof.
  intros (A1 & A2 & A3 & A4) (B1 & B2 & B3 & B4) (C1 & C2 & C3 & C4). unfold fma. rewrite A3, B3, C3, A4, B4, C4. unfold one. pose proof u_pos.
  replace (i * 2 ^ 1074 * (j * 2 ^ 1074) + k * 2 ^ 1074 * 2 ^ 1074) with ((i * j + k) * 2 ^ 1074 * 2 ^ 1074) by ring. set (z := i * j + k) in *. assert (Ez : z = i * j + k) by reflexivity. clearbody z.
  rewrite Z.abs_mul, Z.abs_mul, !(Z.abs_eq (2 ^ 1074)) by lia. rewrite round_scaled_int by lia. unfold of_int, one. f_equal.
  set (u := 2 ^ 1074) in *. clearbody u. destruct (Z.eqb_spec (z * u * u) 0) as [E|E].
  - assert (z = 0) by nia. subst z. destruct (Z.ltb_spec i 0), (Z.ltb_spec j 0), (Z.ltb_spec k 0), (Z.ltb_spec (i * j + k) 0); cbn [xorb andb]; try reflexivity; exfalso; nia.
  - destruct (Z.ltb_spec (z * u * u) 0), (Z.ltb_spec z 0); try reflexivity; exfalso; nia.
Qed.
Lemma fmul_holds nan a b i j : holds a i -> holds b j -> 0 <= i -> 0 <= j -> fmul f nan a b = of_int f (i * j).
Proof.
  intros (A1 & A2 & A3 & A4) (B1 & B2 & B3 & B4) Hi Hj. unfold fmul. cbv zeta. rewrite !(proj2 (Z.ltb_ge _ _)) by lia. cbn [orb].
  destruct (Z.eqb_spec (magnitude f a) (inf_mag f)); [lia|]. destruct (Z.eqb_spec (magnitude f b) (inf_mag f)); [lia|]. cbn [orb].
  rewrite A4, B4. assert (Na : (i <? 0) = false) by (apply Z.ltb_ge; lia). assert (Nb : (j <? 0) = false) by (apply Z.ltb_ge; lia).
  assert (VA : mag_value f (magnitude f a) = i * 2 ^ 1074) by (rewrite <- A3; unfold value; rewrite A4, Na; reflexivity).
  assert (VB : mag_value f (magnitude f b) = j * 2 ^ 1074) by (rewrite <- B3; unfold value; rewrite B4, Nb; reflexivity).
  rewrite Na, Nb, VA, VB. cbn [xorb]. unfold of_int, one. replace (i * 2 ^ 1074 * (j * 2 ^ 1074)) with (i * j * 2 ^ 1074 * 2 ^ 1074) by ring. rewrite round_scaled_int by nia.
  rewrite (Z.abs_eq (i * j)) by nia. destruct (Z.ltb_spec (i * j) 0); [nia|reflexivity].
Qed.
Lemma mul_add_holds nan fm a b c i j k : holds a i -> holds b j -> holds c k -> 0 <= i -> 0 <= j -> repr (i * j) -> mul_add nan fm f a b c = of_int f (i * j + k).
Proof.
  intros A B C Hi Hj Hr. unfold mul_add. destruct fm; [now apply fma_holds|]. rewrite (fmul_holds nan a b i j) by assumption. apply fadd_holds; [now apply of_int_holds|assumption].
Qed.
End I.
