(** Polynomials over GF(2) applied to a linear map.  A polynomial is a list of
    coefficients, constant term first; [ev p v] is p(T) v.  Everything is
    parametrized by the (additive) space and the map; no axioms. *)
From Coq Require Import NArith List Lia Bool.
Import ListNotations.

Section Poly.
Context {V : Type} (add : V -> V -> V) (zero : V) (T : V -> V).
Hypothesis add_comm : forall a b, add a b = add b a.
Hypothesis add_assoc : forall a b c, add a (add b c) = add (add a b) c.
Hypothesis add_0 : forall a, add zero a = a.
Hypothesis add_self : forall a, add a a = zero.
Hypothesis T_add : forall a b, T (add a b) = add (T a) (T b).

Lemma add_0_r a : add a zero = a.
Proof. rewrite add_comm. apply add_0. Qed.
Lemma T_zero : T zero = zero.
Proof. rewrite <- (add_self zero) at 1. rewrite T_add. apply add_self. Qed.
Lemma add_swap a b c d : add (add a b) (add c d) = add (add a c) (add b d).
Proof. rewrite <- !add_assoc. f_equal. rewrite !add_assoc. f_equal. apply add_comm. Qed.

Fixpoint ev (p : list bool) (v : V) : V :=
  match p with
  | [] => zero
  | b :: p' => add (if b then v else zero) (ev p' (T v))
  end.

Lemma ev_zero p : ev p zero = zero.
Proof. induction p as [|b p IH]; cbn; [reflexivity|]. rewrite T_zero, IH, add_0_r. destruct b; reflexivity. Qed.
Lemma ev_add p : forall v w, ev p (add v w) = add (ev p v) (ev p w).
Proof.
  induction p as [|b p IH]; intros v w; cbn; [now rewrite add_0|].
  rewrite T_add, IH. destruct b; [apply add_swap|]. now rewrite !add_0.
Qed.
Lemma ev_T p : forall v, ev p (T v) = T (ev p v).
Proof.
  induction p as [|b p IH]; intros v; cbn; [now rewrite T_zero|].
  rewrite IH, T_add. f_equal. destruct b; [reflexivity|]. now rewrite T_zero.
Qed.

Fixpoint xorl (p q : list bool) : list bool :=
  match p, q with
  | a :: p', b :: q' => xorb a b :: xorl p' q'
  | _, _ => []
  end.
Lemma xorl_length p : forall q, length p = length q -> length (xorl p q) = length p.
Proof. induction p as [|a p IH]; destruct q; cbn; intros; auto. Qed.
Lemma ev_xorl p : forall q v, length p = length q -> ev (xorl p q) v = add (ev p v) (ev q v).
Proof.
  induction p as [|a p IH]; destruct q as [|b q]; cbn; intros v H; try discriminate; [now rewrite add_0|].
  rewrite IH by now injection H. rewrite add_swap. f_equal.
  destruct a, b; cbn; rewrite ?add_self, ?add_0, ?add_0_r; reflexivity.
Qed.
Lemma ev_app p : forall q v, ev (p ++ q) v = add (ev p v) (ev q (N.iter (N.of_nat (length p)) T v)).
Proof.
  induction p as [|b p IH]; intros q v; cbn [app ev length]; [now rewrite add_0|].
  rewrite IH, add_assoc. f_equal. f_equal. rewrite Nnat.Nat2N.inj_succ, N.iter_succ_r. reflexivity.
Qed.

(** Arithmetic modulo x^n + plow(x), where n = length plow. *)
Variable plow : list bool.
Let n := length plow.
Hypothesis n_pos : n <> 0.
Variable W : V -> Prop.
Hypothesis W_T : forall v, W v -> W (T v).
Hypothesis plow_ok : forall v, W v -> ev plow v = N.iter (N.of_nat n) T v.

Lemma W_iter k v : W v -> W (N.iter k T v).
Proof. intros H. induction k using N.peano_ind; [exact H|]. rewrite N.iter_succ. auto. Qed.

Definition xstep (q : list bool) : list bool :=
  let q' := false :: removelast q in if last q false then xorl q' plow else q'.

Lemma xstep_length q : length q = n -> length (xstep q) = n.
Proof.
  intros H. destruct q as [|b0 q0] using rev_ind; [exfalso; apply n_pos; now rewrite <- H|]. clear IHq0.
  unfold xstep. rewrite removelast_last, last_last. rewrite app_length in H; cbn in H.
  assert (E : length (false :: q0) = n) by (cbn; lia).
  destruct b0; [rewrite xorl_length|]; auto.
Qed.
Lemma ev_xstep q v : length q = n -> W v -> ev (xstep q) v = T (ev q v).
Proof.
  intros H Hv. destruct q as [|b0 q0] using rev_ind; [exfalso; apply n_pos; now rewrite <- H|]. clear IHq0.
  unfold xstep. rewrite removelast_last, last_last. rewrite app_length in H; cbn in H.
  assert (E : length (false :: q0) = n) by (cbn; lia).
  assert (F : ev (false :: q0) v = T (ev q0 v)) by (cbn [ev]; now rewrite add_0, ev_T).
  rewrite ev_app, T_add. destruct b0.
  - rewrite ev_xorl by exact E. rewrite F. f_equal. rewrite plow_ok by exact Hv.
    replace (N.of_nat n) with (N.succ (N.of_nat (length q0))) by lia. rewrite N.iter_succ.
    cbn [ev]. now rewrite add_0_r.
  - rewrite F. cbn [ev]. now rewrite !add_0_r, T_zero, add_0_r.
Qed.

Fixpoint mulmod (p q : list bool) : list bool :=
  match p with
  | [] => map (fun _ => false) plow
  | b :: p' => let r := xstep (mulmod p' q) in if b then xorl q r else r
  end.
Lemma ev_falses (A : Type) (l : list A) : forall v, ev (map (fun _ => false) l) v = zero.
Proof. induction l as [|a l IH]; intros v; cbn; [reflexivity|]. now rewrite add_0, IH. Qed.
Lemma mulmod_length p q : length q = n -> length (mulmod p q) = n.
Proof.
  intros H. induction p as [|b p IH]; cbn [mulmod]; [apply map_length|]. cbv zeta.
  pose proof (xstep_length _ IH) as X. destruct b; [rewrite xorl_length; congruence|exact X].
Qed.
Lemma ev_mulmod p q v : length q = n -> W v -> ev (mulmod p q) v = ev p (ev q v).
Proof.
  intros H Hv. induction p as [|b p IH]; cbn [mulmod ev]; [apply ev_falses|]. cbv zeta.
  pose proof (mulmod_length p q H) as L.
  assert (X : ev (xstep (mulmod p q)) v = ev p (T (ev q v))) by (rewrite ev_xstep, IH, ev_T by auto; reflexivity).
  destruct b.
  - rewrite ev_xorl by (rewrite H; symmetry; now apply xstep_length). now rewrite X.
  - now rewrite X, add_0.
Qed.

(** [p] is x^k modulo the polynomial. *)
Definition reps (p : list bool) (k : N) : Prop := length p = n /\ forall v, W v -> ev p v = N.iter k T v.

Lemma reps_mul p q a b : reps p a -> reps q b -> reps (mulmod p q) (a + b).
Proof.
  intros [Lp Hp] [Lq Hq]. split; [now apply mulmod_length|]. intros v Hv.
  rewrite ev_mulmod, Hq, Hp by auto using W_iter. now rewrite N.iter_add.
Qed.
Fixpoint sq_iter (k : nat) (p : list bool) : list bool :=
  match k with O => p | S k' => sq_iter k' (mulmod p p) end.
Lemma reps_sq k : forall p a, reps p a -> reps (sq_iter k p) (a * 2 ^ N.of_nat k).
Proof.
  induction k as [|k IH]; intros p a H.
  - cbn [sq_iter N.of_nat]. now rewrite N.mul_1_r.
  - cbn [sq_iter]. replace (a * 2 ^ N.of_nat (S k))%N with ((a + a) * 2 ^ N.of_nat k)%N
      by (rewrite Nnat.Nat2N.inj_succ, N.pow_succ_r'; lia).
    apply IH. now apply reps_mul.
Qed.
Fixpoint pow_pos (p : list bool) (e : positive) : list bool :=
  match e with
  | xH => p
  | xO e' => let r := pow_pos p e' in mulmod r r
  | xI e' => let r := pow_pos p e' in mulmod p (mulmod r r)
  end.
Lemma reps_pow p a : reps p a -> forall e, reps (pow_pos p e) (a * Npos e).
Proof.
  intros H. induction e as [e IH|e IH|]; cbn [pow_pos]; cbv zeta.
  - replace (a * N.pos e~1)%N with (a + (a * N.pos e + a * N.pos e))%N by lia. auto using reps_mul.
  - replace (a * N.pos e~0)%N with (a * N.pos e + a * N.pos e)%N by lia. auto using reps_mul.
  - now rewrite N.mul_1_r.
Qed.

Fixpoint leqb (p q : list bool) : bool :=
  match p, q with
  | a :: p', b :: q' => Bool.eqb a b && leqb p' q'
  | [], [] => true
  | _, _ => false
  end.
Lemma leqb_eq p : forall q, leqb p q = true -> p = q.
Proof.
  induction p as [|a p IH]; destruct q as [|b q]; cbn; intros H; try discriminate; [reflexivity|].
  apply andb_true_iff in H. destruct H as [A B]. apply Bool.eqb_prop in A. f_equal; auto.
Qed.

Lemma leqb_refl p : leqb p p = true.
Proof. induction p as [|a p IH]; cbn; [reflexivity|]. now rewrite Bool.eqb_reflx. Qed.

Definition one : list bool := match plow with [] => [] | _ :: t => true :: map (fun _ => false) t end.
Lemma one_length : length one = n.
Proof. unfold one, n. destruct plow; cbn; [reflexivity|]. now rewrite map_length. Qed.
Lemma ev_one v : ev one v = v.
Proof.
  unfold one. subst n. destruct plow as [|a l]; [now cbn in n_pos|]. cbn [ev]. now rewrite ev_falses, add_0_r.
Qed.

(** Division: if di * d = 1 and d = x^a then di * x^(a + b) = x^b. *)
Lemma reps_div d di e a b : reps d a -> reps e (b + a) -> leqb (mulmod di d) one = true -> reps (mulmod di e) b.
Proof.
  intros [Ld Hd] [Le He] X. apply leqb_eq in X. split; [now apply mulmod_length|]. intros v Hv.
  rewrite ev_mulmod, He by auto. rewrite N.add_comm, N.iter_add, <- Hd by auto using W_iter.
  rewrite <- ev_mulmod, X by auto using W_iter. apply ev_one.
Qed.

(** If x^k + 1 is invertible, only zero is fixed by T^k. *)
Lemma no_fixpoint r u k : reps r k -> leqb (mulmod u (xorl r one)) one = true ->
  forall v, W v -> N.iter k T v = v -> v = zero.
Proof.
  intros [L H] X v Hv F. apply leqb_eq in X.
  assert (E : length r = length one) by now rewrite L, one_length.
  rewrite <- (ev_one v), <- X, ev_mulmod; auto.
  - rewrite ev_xorl, H, F, ev_one, add_self by auto. apply ev_zero.
  - rewrite xorl_length; auto.
Qed.
End Poly.
