(** The state transition of xoshiro256 is linear over GF(2); its characteristic
    polynomial. *)
From Coq Require Import ZArith NArith List Lia Bool Btauto.
From Verif Require Import Word Word_Proofs Random_Model Random_Spec GF2_Poly.
Import ListNotations.
Local Open Scope Z_scope.

Definition zero_st : st := (0, 0, 0, 0).
Ltac d4 s := destruct s as [[[? ?] ?] ?].
Lemma st_eq (a b c d a' b' c' d' : Z) : a = a' -> b = b' -> c = c' -> d = d' -> (a, b, c, d) = (a', b', c', d').
Proof. intros. congruence. Qed.

Lemma xs_comm a b : xor_state a b = xor_state b a.
Proof. d4 a; d4 b. apply st_eq; apply Z.lxor_comm. Qed.
Lemma xs_assoc a b c : xor_state a (xor_state b c) = xor_state (xor_state a b) c.
Proof. d4 a; d4 b; d4 c. apply st_eq; symmetry; apply Z.lxor_assoc. Qed.
Lemma xs_0 a : xor_state zero_st a = a.
Proof. d4 a. apply st_eq; apply Z.lxor_0_l. Qed.
Lemma xs_self a : xor_state a a = zero_st.
Proof. d4 a. cbn [xor_state]. now rewrite !Z.lxor_nilpotent. Qed.

(** Linear on all of Z^4, equal to the transition of [next] on 64-bit states. *)
Definition rotx (x k : Z) : Z := Z.lxor (wrap 64 (Z.shiftl x k)) (Z.shiftr x (64 - k)).
Definition Tl (s : st) : st :=
  let '(s0, s1, s2, s3) := s in
  let t := wrap 64 (Z.shiftl s1 17) in
  let s2 := Z.lxor s2 s0 in
  let s3 := Z.lxor s3 s1 in
  let s1 := Z.lxor s1 s2 in
  let s0 := Z.lxor s0 s3 in
  let s2 := Z.lxor s2 t in
  let s3 := rotx s3 45 in
  (s0, s1, s2, s3).

Lemma wrap_lxor w a b : 0 <= w -> wrap w (Z.lxor a b) = Z.lxor (wrap w a) (wrap w b).
Proof.
  intros H. unfold wrap. rewrite <- !Z.land_ones by exact H. apply Z.bits_inj'. intros n Hn.
  rewrite ?Z.land_spec, ?Z.lxor_spec, ?Z.land_spec. destruct (Z.testbit a n), (Z.testbit b n), (Z.testbit (Z.ones w) n); reflexivity.
Qed.
Lemma rotx_lxor a b k : rotx (Z.lxor a b) k = Z.lxor (rotx a k) (rotx b k).
Proof.
  unfold rotx. rewrite Z.shiftl_lxor, Z.shiftr_lxor, wrap_lxor by lia.
  rewrite !Z.lxor_assoc. f_equal. rewrite <- !Z.lxor_assoc. f_equal. apply Z.lxor_comm.
Qed.
Ltac xor_ac := apply Z.bits_inj'; let n := fresh in let H := fresh in intros n H; rewrite ?Z.lxor_spec; btauto.
Lemma Tl_add a b : Tl (xor_state a b) = xor_state (Tl a) (Tl b).
Proof.
  d4 a; d4 b. cbn [xor_state Tl]. cbv zeta. rewrite Z.shiftl_lxor, wrap_lxor by lia.
  rewrite <- rotx_lxor. apply st_eq; try xor_ac. f_equal. xor_ac.
Qed.

Lemma u64_lxor a b : u64 a -> u64 b -> u64 (Z.lxor a b).
Proof.
  unfold u64. intros Ha Hb. rewrite <- (Z.mod_small a (2 ^ 64)), <- (Z.mod_small b (2 ^ 64)) by assumption.
  fold (wrap 64 a) (wrap 64 b). rewrite <- wrap_lxor by lia. apply Z.mod_pos_bound. lia.
Qed.
Lemma u64_wrap a : u64 (wrap 64 a).
Proof. apply Z.mod_pos_bound. lia. Qed.
Lemma u64_shiftr a k : 0 <= k -> u64 a -> u64 (Z.shiftr a k).
Proof.
  intros Hk [H1 H2]. unfold u64. rewrite Z.shiftr_div_pow2 by exact Hk.
  assert (0 < 2 ^ k) by (apply Z.pow_pos_nonneg; lia). split; [apply Z.div_pos; lia|].
  apply Z.div_lt_upper_bound; [lia|]. nia.
Qed.
Lemma rotl_rotx x k : 0 <= k <= 64 -> u64 x -> rotl x k = rotx x k.
Proof.
  intros Hk [H1 H2]. unfold rotl, rotx. symmetry. apply Z.lxor_lor. apply Z.bits_inj'. intros n Hn.
  rewrite Z.land_spec, Z.bits_0. unfold wrap.
  destruct (Z_lt_le_dec n k) as [L|L].
  - rewrite Z.mod_pow2_bits_low, Z.shiftl_spec_low by lia. reflexivity.
  - rewrite Z.shiftr_spec by lia.
    replace (Z.testbit x (n + (64 - k))) with false; [apply andb_false_r|]. symmetry.
    destruct (Z.eq_dec x 0) as [->|Nx]; [apply Z.bits_0|].
    apply Z.bits_above_log2; [lia|]. assert (Z.log2 x < 64) by (apply Z.log2_lt_pow2; lia). lia.
Qed.
Lemma u64_rotx x k : 0 <= k <= 64 -> u64 x -> u64 (rotx x k).
Proof. intros Hk H. apply u64_lxor; [apply u64_wrap|]. apply u64_shiftr; [lia|exact H]. Qed.

Lemma wf_Tl s : wf s -> wf (Tl s).
Proof.
  d4 s. cbn [wf Tl]. cbv zeta. intros (A & B & C & D).
  repeat split; try (apply u64_rotx; [lia|]); repeat (apply u64_lxor); auto using u64_wrap.
Qed.
Lemma next_Tl s : wf s -> snd (next s) = Tl s.
Proof.
  d4 s. cbn [wf next snd Tl]. cbv zeta. intros (A & B & C & D).
  rewrite rotl_rotx; [reflexivity|lia|]. now apply u64_lxor.
Qed.
Lemma wf_zero : wf zero_st.
Proof. repeat split; cbn; lia. Qed.
Lemma wf_xor a b : wf a -> wf b -> wf (xor_state a b).
Proof. d4 a; d4 b. cbn. intuition auto using u64_lxor. Qed.

Notation ev := (GF2_Poly.ev xor_state zero_st Tl).

(** A linear map that vanishes on the 256 unit states vanishes on every state. *)
Definition unit_st (w i : Z) : st :=
  if w =? 0 then (2 ^ i, 0, 0, 0) else if w =? 1 then (0, 2 ^ i, 0, 0)
  else if w =? 2 then (0, 0, 2 ^ i, 0) else (0, 0, 0, 2 ^ i).
Section Basis.
Variable f : st -> st.
Hypothesis f_add : forall a b, f (xor_state a b) = xor_state (f a) (f b).

Lemma word_basis (inj : Z -> st) : (forall a b, inj (Z.lxor a b) = xor_state (inj a) (inj b)) ->
  (forall i, 0 <= i < 64 -> f (inj (2 ^ i)) = zero_st) -> forall x, u64 x -> f (inj x) = zero_st.
Proof.
  intros Hi H0 x.
  assert (Z0 : f (inj 0) = zero_st).
  { rewrite <- (Z.lxor_nilpotent 0), Hi, f_add. apply xs_self. }
  assert (K : forall k : nat, (k <= 64)%nat -> forall x, 0 <= x < 2 ^ Z.of_nat k -> f (inj x) = zero_st).
  { induction k as [|k IH]; intros Hk y Hy.
    - replace y with 0 by (cbn in Hy; lia). exact Z0.
    - destruct (Z.testbit y (Z.of_nat k)) eqn:B.
      + assert (E : y = Z.lxor (y mod 2 ^ Z.of_nat k) (2 ^ Z.of_nat k)).
        { apply Z.bits_inj'. intros n Hn. rewrite Z.lxor_spec, Z.pow2_bits_eqb by lia.
          destruct (Z.compare_spec n (Z.of_nat k)) as [->|L|L].
          - rewrite B, Z.mod_pow2_bits_high, Z.eqb_refl by lia. reflexivity.
          - rewrite Z.mod_pow2_bits_low by lia. replace (Z.of_nat k =? n) with false by (symmetry; apply Z.eqb_neq; lia).
            now rewrite xorb_false_r.
          - rewrite Z.mod_pow2_bits_high by lia. replace (Z.of_nat k =? n) with false by (symmetry; apply Z.eqb_neq; lia).
            rewrite xorb_false_r. destruct (Z.eq_dec y 0) as [->|]; [apply Z.bits_0|].
            apply Z.bits_above_log2; [lia|]. assert (Z.log2 y < Z.of_nat (S k)) by (apply Z.log2_lt_pow2; lia). lia. }
        rewrite E, Hi, f_add, IH, H0; [apply xs_self| lia | lia |]. apply Z.mod_pos_bound. lia.
      + apply IH; [lia|]. split; [lia|]. destruct (Z.eq_dec y 0) as [->|]; [lia|].
        apply Z.log2_lt_pow2; [lia|]. destruct (Z.eq_dec (Z.log2 y) (Z.of_nat k)) as [E|].
        * rewrite <- E, Z.bit_log2 in B by lia. discriminate.
        * assert (Z.log2 y < Z.of_nat (S k)) by (apply Z.log2_lt_pow2; lia). lia. }
  apply (K 64%nat). lia.
Qed.
Lemma state_basis : (forall w i, 0 <= w < 4 -> 0 <= i < 64 -> f (unit_st w i) = zero_st) -> forall s, wf s -> f s = zero_st.
Proof.
  intros H s Hs. d4 s. destruct Hs as (A & B & C & D).
  replace ((z, z0, z1, z2) : st) with (xor_state (z, 0, 0, 0) (xor_state (0, z0, 0, 0) (xor_state (0, 0, z1, 0) (0, 0, 0, z2))))
    by (cbn [xor_state]; rewrite !Z.lxor_0_l, !Z.lxor_0_r; reflexivity).
  rewrite !f_add.
  rewrite (word_basis (fun x => (x, 0, 0, 0)) ltac:(reflexivity) (fun i => H 0 i ltac:(lia)) _ A).
  rewrite (word_basis (fun x => (0, x, 0, 0)) ltac:(reflexivity) (fun i => H 1 i ltac:(lia)) _ B).
  rewrite (word_basis (fun x => (0, 0, x, 0)) ltac:(reflexivity) (fun i => H 2 i ltac:(lia)) _ C).
  rewrite (word_basis (fun x => (0, 0, 0, x)) ltac:(reflexivity) (fun i => H 3 i ltac:(lia)) _ D).
  reflexivity.
Qed.
End Basis.

(** The lower coefficients of the characteristic polynomial (degree 256). *)
Definition bits (k : nat) (z : Z) : list bool := map (fun i => Z.testbit z (Z.of_nat i)) (seq 0 k).
Definition plow : list bool := Eval vm_compute in
  bits 256 0x0003c03c3f3ecb1904b4edcf26259f850280002bcefd1a5e9d116f2bb0f0f001.

Definition is_zero_st (s : st) : bool := let '(a, b, c, d) := s in (a =? 0) && (b =? 0) && (c =? 0) && (d =? 0).
Lemma is_zero_st_eq s : is_zero_st s = true -> s = zero_st.
Proof. d4 s. cbn. rewrite !andb_true_iff, !Z.eqb_eq. intros (((-> & ->) & ->) & ->). reflexivity. Qed.
(** [Tl] with a bit mask instead of a division, for computing. *)
Definition Tc (s : st) : st :=
  let '(s0, s1, s2, s3) := s in
  let t := Z.land (Z.shiftl s1 17) 0xFFFFFFFFFFFFFFFF in
  let s2 := Z.lxor s2 s0 in
  let s3 := Z.lxor s3 s1 in
  let s1 := Z.lxor s1 s2 in
  let s0 := Z.lxor s0 s3 in
  let s2 := Z.lxor s2 t in
  let s3 := Z.lxor (Z.land (Z.shiftl s3 45) 0xFFFFFFFFFFFFFFFF) (Z.shiftr s3 19) in
  (s0, s1, s2, s3).
Lemma wrap_land x : Z.land x 0xFFFFFFFFFFFFFFFF = wrap 64 x.
Proof. change 0xFFFFFFFFFFFFFFFF with (Z.ones 64). apply Z.land_ones. lia. Qed.
Lemma Tc_Tl s : Tc s = Tl s.
Proof. d4 s. unfold Tc, Tl, rotx. rewrite !wrap_land. reflexivity. Qed.
Fixpoint evc (p : list bool) (v : st) : st :=
  match p with
  | [] => zero_st
  | b :: p' => let r := evc p' (Tc v) in if b then xor_state v r else r
  end.
Lemma evc_ev p : forall v, evc p v = ev p v.
Proof.
  induction p as [|b p IH]; intros v; cbn [evc GF2_Poly.ev]; [reflexivity|].
  cbv zeta. rewrite IH, Tc_Tl. destruct b; [reflexivity|]. now rewrite xs_0.
Qed.
Lemma charpoly_check :
  forallb (fun w => forallb (fun i => is_zero_st (evc (plow ++ [true]) (unit_st (Z.of_nat w) (Z.of_nat i)))) (seq 0 64)) (seq 0 4) = true.
Proof. vm_compute. reflexivity. Qed.
Lemma charpoly s : wf s -> ev (plow ++ [true]) s = zero_st.
Proof.
  apply state_basis.
  - intros. apply ev_add; auto using xs_comm, xs_assoc, xs_0, xs_self, Tl_add.
  - intros w i Hw Hi. apply is_zero_st_eq.
    pose proof charpoly_check as C. rewrite forallb_forall in C. specialize (C (Z.to_nat w)).
    rewrite forallb_forall in C by (apply in_seq; lia). specialize (C ltac:(apply in_seq; lia) (Z.to_nat i) ltac:(apply in_seq; lia)).
    now rewrite !Z2Nat.id, evc_ev in C by lia.
Qed.
Lemma plow_ok s : wf s -> ev plow s = N.iter (N.of_nat (length plow)) Tl s.
Proof.
  intros H. pose proof (charpoly s H) as C.
  rewrite ev_app in C by auto using xs_comm, xs_assoc, xs_0, xs_self, Tl_add.
  remember (N.iter (N.of_nat (length plow)) Tl s) as u. remember (ev plow s) as p.
  assert (E : ev [true] u = u) by (cbn [GF2_Poly.ev]; rewrite xs_comm; apply xs_0). rewrite E in C.
  rewrite <- (xs_0 u), <- C, <- xs_assoc, xs_self, xs_comm, xs_0. reflexivity.
Qed.
