(** Fermat's little theorem: multiplication by a permutes 1, .., p - 1 modulo p. *)
From Coq Require Import ZArith Znumtheory List Lia Permutation.
Import ListNotations.
Local Open Scope Z_scope.

Definition residues (p : Z) : list Z := map Z.of_nat (seq 1 (Z.to_nat (p - 1))).
Lemma in_residues p x : In x (residues p) <-> 1 <= x < p.
Proof.
  unfold residues. rewrite in_map_iff. split.
  - intros (i & <- & H). apply in_seq in H. lia.
  - intros H. exists (Z.to_nat x). split; [lia|]. apply in_seq. lia.
Qed.
Lemma residues_nodup p : NoDup (residues p).
Proof. apply FinFun.Injective_map_NoDup; [|apply seq_NoDup]. intros x y. lia. Qed.
Lemma residues_length p : length (residues p) = Z.to_nat (p - 1).
Proof. unfold residues. now rewrite map_length, seq_length. Qed.

Definition prod (l : list Z) : Z := fold_right Z.mul 1 l.
Lemma prod_perm l l' : Permutation l l' -> prod l = prod l'.
Proof. induction 1; cbn [prod fold_right]; unfold prod in *; try congruence. ring. Qed.
Lemma prod_mul a l : prod (map (fun x => a * x) l) = a ^ Z.of_nat (length l) * prod l.
Proof.
  induction l as [|x l IH]; cbn [map prod fold_right length]; [reflexivity|]. fold (prod l). fold (prod (map (fun x => a * x) l)).
  rewrite IH, Nat2Z.inj_succ, Z.pow_succ_r by lia. ring.
Qed.
Lemma prod_mod p l : prod (map (fun x => x mod p) l) mod p = prod l mod p.
Proof.
  induction l as [|x l IH]; cbn [map prod fold_right]; [reflexivity|]. fold (prod l). fold (prod (map (fun x => x mod p) l)).
  rewrite Zmult_mod, IH, Zmod_mod, <- Zmult_mod. reflexivity.
Qed.
Lemma prod_coprime p l : prime p -> (forall x, In x l -> 1 <= x < p) -> rel_prime p (prod l).
Proof.
  intros Hp. induction l as [|x l IH]; intros H; cbn [prod fold_right]; [apply rel_prime_sym, rel_prime_1|]. fold (prod l).
  apply rel_prime_mult; [|apply IH; intros; apply H; now right].
  apply prime_rel_prime; [exact Hp|]. intros D. specialize (H x (or_introl eq_refl)). apply Z.divide_pos_le in D; lia.
Qed.

Lemma nodup_map (f : Z -> Z) l : (forall x y, In x l -> In y l -> f x = f y -> x = y) -> NoDup l -> NoDup (map f l).
Proof.
  induction l as [|a l IH]; intros H N; cbn [map]; [constructor|]. inversion N; subst. constructor.
  - intros I. apply in_map_iff in I. destruct I as (y & E & Hy). rewrite (H y a) in Hy; [contradiction|now right|now left|exact E].
  - apply IH; [|assumption]. intros; apply H; auto; now right.
Qed.
Lemma fermat_1 a p : prime p -> ~ (p | a) -> a ^ (p - 1) mod p = 1.
Proof.
  intros Hp Ha. pose proof (prime_ge_2 p Hp) as G.
  assert (C : rel_prime p a) by now apply prime_rel_prime.
  assert (P : Permutation (map (fun x => (a * x) mod p) (residues p)) (residues p)).
  { apply NoDup_Permutation_bis.
    - apply nodup_map; [|apply residues_nodup].
      intros x y Hx Hy E. apply in_residues in Hx. apply in_residues in Hy.
      assert (D : (p | a * (x - y))).
      { apply Z.mod_divide; [lia|]. rewrite Z.mul_sub_distr_l, Zminus_mod, E, Z.sub_diag. reflexivity. }
      apply Gauss in D; [|exact C]. destruct D as [k Hk]. assert (k = 0) by nia. lia.
    - rewrite map_length. lia.
    - intros y Hy. apply in_map_iff in Hy. destruct Hy as (x & <- & Hx). apply in_residues in Hx. apply in_residues.
      pose proof (Z.mod_pos_bound (a * x) p ltac:(lia)). assert ((a * x) mod p <> 0); [|lia].
      intros E. apply Z.mod_divide in E; [|lia]. apply Gauss in E; [|exact C]. apply Z.divide_pos_le in E; lia. }
  apply prod_perm in P.
  assert (E : (a ^ (p - 1) * prod (residues p)) mod p = prod (residues p) mod p).
  { rewrite <- P at 2. replace (map (fun x => (a * x) mod p) (residues p)) with (map (fun x => x mod p) (map (fun x => a * x) (residues p)))
      by apply map_map. rewrite prod_mod, prod_mul, residues_length. now rewrite Z2Nat.id by lia. }
  assert (D : (p | prod (residues p) * (a ^ (p - 1) - 1))).
  { apply Z.mod_divide; [lia|].
    replace (prod (residues p) * (a ^ (p - 1) - 1)) with (a ^ (p - 1) * prod (residues p) - prod (residues p)) by ring.
    rewrite Zminus_mod, E, Z.sub_diag. reflexivity. }
  apply Gauss in D; [|apply prod_coprime; [exact Hp|]; intros x; apply in_residues].
  replace (a ^ (p - 1)) with (1 + (a ^ (p - 1) - 1)) by lia. rewrite <- Z.add_mod_idemp_r by lia.
  rewrite (proj2 (Z.mod_divide (a ^ (p - 1) - 1) p ltac:(lia)) D). apply Z.mod_small. lia.
Qed.

Lemma fermat_Z (a p : Z) : prime p -> 0 <= a -> a ^ p mod p = a mod p.
Proof.
  intros Hp _. pose proof (prime_ge_2 p Hp) as G.
  replace p with (1 + (p - 1)) at 1 by lia. rewrite Z.pow_add_r, Z.pow_1_r by lia.
  destruct (Zdivide_dec p a) as [D|D].
  - rewrite (proj2 (Z.mod_divide a p ltac:(lia)) D). apply Z.mod_divide; [lia|]. now apply Z.divide_mul_l.
  - rewrite Zmult_mod, fermat_1 by assumption. now rewrite Z.mul_1_r, Zmod_mod.
Qed.
