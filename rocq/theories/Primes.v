(** Pocklington's criterion, and the prime factorization of 2^256 - 1. *)
From Coq Require Import ZArith NArith Znumtheory Zpow_facts List Lia Bool Wf_Z.
From Verif Require Import Fermat.
Import ListNotations.

(** Common periods of an orbit are closed under gcd. *)
Lemma iter_mul {A} (f : A -> A) x a : N.iter a f x = x -> forall k, N.iter (k * a) f x = x.
Proof.
  intros H k. induction k using N.peano_ind; [reflexivity|].
  rewrite N.mul_succ_l, N.iter_add, H. exact IHk.
Qed.
Lemma iter_gcd {A} (f : A -> A) x : forall a b, N.iter a f x = x -> N.iter b f x = x -> N.iter (N.gcd a b) f x = x.
Proof.
  intros a. induction a as [a IH] using (well_founded_induction N.lt_wf_0). intros b Ha Hb.
  destruct (N.eq_dec a 0) as [->|Na]; [rewrite N.gcd_0_l; exact Hb|].
  assert (E : N.gcd a b = N.gcd (b mod a) a) by (symmetry; now apply N.gcd_mod).
  rewrite E. apply IH; [apply N.mod_lt; exact Na| |exact Ha].
  rewrite (N.div_mod' b a), N.add_comm, N.iter_add in Hb. rewrite N.mul_comm in Hb. now rewrite iter_mul in Hb.
Qed.

Open Scope Z_scope.

Lemma prime_divisor : forall n, 1 < n -> exists p, prime p /\ (p | n).
Proof.
  intros n. assert (K : 0 <= n -> 1 < n -> exists p, prime p /\ (p | n)); [|intros; apply K; lia].
  intros Hn. pattern n. apply Z_lt_induction; [|exact Hn]. clear n Hn. intros n IH Hn.
  destruct (prime_dec n) as [P|P]; [exists n; split; [exact P|apply Z.divide_refl]|].
  destruct (not_prime_divide n Hn P) as (d & Hd & D).
  destruct (IH d) as (p & Pp & Dp); [lia|lia|]. exists p. split; [exact Pp|]. eapply Z.divide_trans; eauto.
Qed.
Lemma small_prime_divisor n : 1 < n -> ~ prime n -> exists p, prime p /\ (p | n) /\ p * p <= n.
Proof.
  intros Hn P. destruct (not_prime_divide n Hn P) as (d & Hd & [e He]).
  assert (1 < e < n) by nia.
  destruct (Z_le_gt_dec d e) as [L|L].
  - destruct (prime_divisor d) as (p & Pp & Dp); [lia|]. exists p. split; [exact Pp|]. split.
    + eapply Z.divide_trans; [exact Dp|]. now exists e.
    + pose proof (Z.divide_pos_le p d ltac:(lia) Dp). pose proof (prime_ge_2 p Pp). nia.
  - destruct (prime_divisor e) as (p & Pp & Dp); [lia|]. exists p. split; [exact Pp|]. split.
    + eapply Z.divide_trans; [exact Dp|]. exists d. lia.
    + pose proof (Z.divide_pos_le p e ltac:(lia) Dp). pose proof (prime_ge_2 p Pp). nia.
Qed.

(** a^e mod n by repeated squaring. *)
Fixpoint powmod_pos (n a : Z) (e : positive) : Z :=
  match e with
  | xH => a mod n
  | xO e' => let r := powmod_pos n a e' in (r * r) mod n
  | xI e' => let r := powmod_pos n a e' in (a * ((r * r) mod n)) mod n
  end.
Definition powmod (n a e : Z) : Z := match e with Zpos p => powmod_pos n a p | _ => 1 mod n end.
Lemma powmod_ok n a e : 0 < n -> 0 <= e -> powmod n a e = a ^ e mod n.
Proof.
  intros Hn He. destruct e as [|p|p]; [reflexivity| |lia]. cbn [powmod]. clear He.
  induction p as [p IH|p IH|]; cbn [powmod_pos]; cbv zeta.
  - rewrite IH. rewrite <- Z.mul_mod by lia. rewrite Z.mul_mod_idemp_r by lia.
    f_equal. rewrite Pos2Z.inj_xI, Z.pow_add_r, Z.pow_1_r, Z.pow_twice_r by lia. lia.
  - rewrite IH. rewrite <- Z.mul_mod by lia. f_equal. rewrite Pos2Z.inj_xO, Z.pow_twice_r. lia.
  - now rewrite Z.pow_1_r.
Qed.

(** Multiplication by a modulo p, iterated. *)
Lemma iter_mulmod a p k : 0 < p -> N.iter k (fun x => (a * x) mod p) (1 mod p) = a ^ Z.of_N k mod p.
Proof.
  intros Hp. induction k using N.peano_ind; [reflexivity|].
  rewrite N.iter_succ, IHk. rewrite Z.mul_mod_idemp_r by lia.
  f_equal. rewrite N2Z.inj_succ, Z.pow_succ_r by lia. reflexivity.
Qed.

Lemma order_step n a p q e :
  prime p -> (p | n) -> 1 < n -> prime q -> 0 < e -> (q ^ e | n - 1) -> 0 <= a ->
  a ^ (n - 1) mod n = 1 -> Z.gcd (a ^ ((n - 1) / q) - 1) n = 1 -> (q ^ e | p - 1).
Proof.
  intros Pp Dp Hn Pq He Dq Ha H1 H2.
  pose proof (prime_ge_2 p Pp) as Gp. pose proof (prime_ge_2 q Pq) as Gq.
  pose (f := fun x => (a * x) mod p).
  assert (R : forall x, 0 <= x -> a ^ x mod n = 1 -> a ^ x mod p = 1).
  { intros x Hx E. assert ((p | a ^ x - 1)).
    { apply Z.divide_trans with n; [exact Dp|]. apply Z.mod_divide; [lia|].
      rewrite Zminus_mod, E, (Z.mod_small 1 n) by lia. reflexivity. }
    replace (a ^ x) with (1 + (a ^ x - 1)) by lia. rewrite <- Z.add_mod_idemp_r by lia.
    rewrite (proj2 (Z.mod_divide (a ^ x - 1) p ltac:(lia)) H). apply Z.mod_small. lia. }
  assert (F1 : N.iter (Z.to_N (n - 1)) f (1 mod p) = 1 mod p).
  { unfold f. rewrite iter_mulmod, Z2N.id by lia. rewrite R by (lia || exact H1). symmetry. apply Z.mod_small. lia. }
  assert (F2 : N.iter (Z.to_N (p - 1)) f (1 mod p) = 1 mod p).
  { unfold f. rewrite iter_mulmod, Z2N.id by lia.
    pose proof (fermat_Z a p Pp Ha) as Fm.
    assert (Cop : rel_prime p a).
    { apply prime_rel_prime; [exact Pp|]. intros Da.
      assert (a ^ (n - 1) mod p = 0).
      { apply Z.mod_divide; [lia|]. replace (n - 1) with (1 + (n - 2)) by lia. rewrite Z.pow_add_r, Z.pow_1_r by lia.
        now apply Z.divide_mul_l. }
      rewrite R in H by (lia || exact H1). discriminate. }
    assert (D : (p | a * (a ^ (p - 1) - 1))).
    { replace (a * (a ^ (p - 1) - 1)) with (a ^ p - a).
      - apply Z.mod_divide; [lia|]. rewrite Zminus_mod, Fm, Z.sub_diag. reflexivity.
      - replace p with (1 + (p - 1)) at 1 by lia. rewrite Z.pow_add_r, Z.pow_1_r by lia. ring. }
    apply Gauss in D; [|exact Cop].
    replace (a ^ (p - 1)) with (1 + (a ^ (p - 1) - 1)) by lia. rewrite <- Z.add_mod_idemp_r by lia.
    rewrite (proj2 (Z.mod_divide (a ^ (p - 1) - 1) p ltac:(lia)) D). reflexivity. }
  pose proof (iter_gcd f (1 mod p) _ _ F1 F2) as F3.
  set (g := Z.gcd (n - 1) (p - 1)) in *.
  assert (Gpos : 0 < g).
  { assert (0 <= g) by apply Z.gcd_nonneg. assert (g <> 0); [|lia]. intros E. apply Z.gcd_eq_0_l in E. lia. }
  assert (Eg : N.gcd (Z.to_N (n - 1)) (Z.to_N (p - 1)) = Z.to_N g).
  { unfold g. rewrite <- (Z2N.id (n - 1)) at 2 by lia. rewrite <- (Z2N.id (p - 1)) at 2 by lia.
    destruct (Z.to_N (n - 1)), (Z.to_N (p - 1)); reflexivity. }
  rewrite Eg in F3.
  destruct (Z.gcd_divide_l (n - 1) (p - 1)) as [m Hm]. fold g in Hm.
  destruct (Z.gcd_divide_r (n - 1) (p - 1)) as [m' Hm']. fold g in Hm'.
  destruct (Zdivide_dec q m) as [[k Hk]|Nq].
  - exfalso. assert (E : (n - 1) / q = k * g).
    { rewrite Hm, Hk. replace (k * q * g) with (k * g * q) by ring. apply Z.div_mul. lia. }
    assert (0 <= k) by nia.
    pose proof (iter_mul f (1 mod p) _ F3 (Z.to_N k)) as F4. rewrite <- Z2N.inj_mul in F4 by lia.
    unfold f in F4. rewrite iter_mulmod in F4 by lia. rewrite Z2N.id in F4 by nia. rewrite <- E in F4.
    rewrite (Z.mod_small 1 p) in F4 by lia.
    assert (D : (p | a ^ ((n - 1) / q) - 1)).
    { apply Z.mod_divide; [lia|]. rewrite Zminus_mod, F4, (Z.mod_small 1 p) by lia. reflexivity. }
    pose proof (Z.gcd_greatest _ _ _ D Dp) as C. rewrite H2 in C. apply Z.divide_1_r_nonneg in C; lia.
  - assert (D : (q ^ e | m * g)) by now rewrite <- Hm.
    apply Gauss in D.
    + apply Z.divide_trans with g; [exact D|]. now exists m'.
    + apply rel_prime_sym. apply rel_prime_Zpower_r; [lia|]. apply rel_prime_sym. now apply prime_rel_prime.
Qed.

(** Certificate: n - 1 = R * prod q_i ^ e_i with the product squared > n, and
    bases a_i. *)
Definition cert_prod (l : list (Z * Z * Z)) : Z := fold_right (fun '(q, e, a) x => q ^ e * x) 1 l.
Fixpoint cert_coprime (l : list (Z * Z * Z)) : bool :=
  match l with
  | [] => true
  | (q, e, a) :: t => (Z.gcd (q ^ e) (cert_prod t) =? 1) && cert_coprime t
  end.
Definition pock_check (n : Z) (l : list (Z * Z * Z)) : bool :=
  (1 <? n) && ((n - 1) mod cert_prod l =? 0) && (0 <? cert_prod l) && (n <? cert_prod l * cert_prod l) && cert_coprime l &&
  forallb (fun '(q, e, a) => (0 <? e) && (0 <=? a) && (powmod n a (n - 1) =? 1)
                           && (Z.gcd (powmod n a ((n - 1) / q) - 1) n =? 1)) l.

Lemma cert_divides l x : (forall q e a, In (q, e, a) l -> (q ^ e | x)) -> cert_coprime l = true -> (cert_prod l | x).
Proof.
  induction l as [|[[q e] a] l IH]; intros H C; cbn [cert_prod fold_right]; [apply Z.divide_1_l|].
  cbn [cert_coprime] in C. apply andb_true_iff in C. destruct C as [C1 C2]. apply Z.eqb_eq in C1.
  fold (cert_prod l).
  destruct (IH ltac:(intros; eapply H; right; eassumption) C2) as [k Hk].
  assert (D : (q ^ e | k * cert_prod l)) by (rewrite <- Hk; eapply H; left; reflexivity).
  rewrite Z.mul_comm in D. apply Gauss in D; [|now apply Zgcd_1_rel_prime].
  rewrite Hk. apply Z.mul_divide_mono_r. exact D.
Qed.

Lemma gcd_mod_sub a b n : 0 < n -> Z.gcd (a mod n - b) n = Z.gcd (a - b) n.
Proof.
  intros Hn. rewrite (Z.mod_eq a n) by lia.
  replace (a - n * (a / n) - b) with ((a - b) + (- (a / n)) * n) by ring.
  rewrite Z.gcd_comm, Z.gcd_add_mult_diag_r. apply Z.gcd_comm.
Qed.

Lemma pocklington n l : (forall q e a, In (q, e, a) l -> prime q) -> pock_check n l = true -> prime n.
Proof.
  intros PQ H. unfold pock_check in H. rewrite !andb_true_iff in H. destruct H as (((((H1 & H2) & H3) & H4) & H5) & H6).
  apply Z.ltb_lt in H1. apply Z.eqb_eq in H2. apply Z.ltb_lt in H3. apply Z.ltb_lt in H4.
  rewrite forallb_forall in H6.
  destruct (prime_dec n) as [P|P]; [exact P|exfalso].
  destruct (small_prime_divisor n H1 P) as (p & Pp & Dp & Sq).
  pose proof (prime_ge_2 p Pp) as Gp.
  assert (D : (cert_prod l | p - 1)).
  { apply cert_divides; [|exact H5]. intros q e a I. pose proof (PQ q e a I) as Pq. specialize (H6 _ I). cbn in H6.
    rewrite !andb_true_iff in H6. destruct H6 as (((A1 & A2) & A3) & A4).
    apply Z.ltb_lt in A1. apply Z.leb_le in A2. apply Z.eqb_eq in A3. apply Z.eqb_eq in A4.
    pose proof (prime_ge_2 q Pq) as Gq.
    assert (Dn : (q ^ e | n - 1)).
    { apply Z.divide_trans with (cert_prod l); [|apply Z.mod_divide; lia].
      clear - I. induction l as [|[[q' e'] a'] l IH]; [destruct I|]. cbn [cert_prod fold_right]. fold (cert_prod l).
      destruct I as [E|I]; [injection E as <- <- <-; apply Z.divide_factor_l|]. apply Z.divide_mul_r. auto. }
    assert (0 <= (n - 1) / q) by (apply Z.div_pos; lia).
    rewrite powmod_ok in A3, A4 by lia. rewrite gcd_mod_sub in A4 by lia.
    exact (order_step n a p q e Pp Dp H1 Pq A1 Dn A2 A3 A4). }
  apply Z.divide_pos_le in D; [|lia]. nia.
Qed.

(** Trial division, for small primes. *)
Definition trial (n : Z) : bool :=
  (1 <? n) && forallb (fun d => negb (n mod d =? 0)) (map (fun i => Z.of_nat i + 2) (seq 0 (Z.to_nat (Z.sqrt n - 1)))).
Lemma trial_prime n : trial n = true -> prime n.
Proof.
  unfold trial. rewrite andb_true_iff. intros [H1 H2]. apply Z.ltb_lt in H1. rewrite forallb_forall in H2.
  destruct (prime_dec n) as [P|P]; [exact P|exfalso].
  destruct (small_prime_divisor n H1 P) as (p & Pp & Dp & Sq). pose proof (prime_ge_2 p Pp) as Gp.
  assert (p <= Z.sqrt n) by (apply Z.sqrt_le_square; lia).
  specialize (H2 p). apply negb_true_iff, Z.eqb_neq in H2.
  - apply H2. apply Z.mod_divide; [lia|exact Dp].
  - apply in_map_iff. exists (Z.to_nat (p - 2)). split; [lia|]. apply in_seq. lia.
Qed.

(** The prime factors of 2^256 - 1. *)
Lemma p2 : prime 2. Proof. apply prime_2. Qed.
Ltac tr := apply trial_prime; vm_compute; reflexivity.
Ltac pk l := apply (pocklington _ l);
  [intros q e a I; cbn [In] in I; repeat (destruct I as [I|I]; [injection I as <- <- <-; (assumption || tr)|]); destruct I
  |vm_compute; reflexivity].
Lemma prime_67280421310721 : prime 67280421310721.
Proof. pk [(2, 8, 3); (5, 1, 3); (47, 1, 3); (373, 1, 3)]. Qed.
Lemma prime_18533742247 : prime 18533742247.
Proof. pk [(2, 1, 3); (3, 3, 2); (181, 1, 2); (1896229, 1, 2)]. Qed.
Lemma prime_116503103764643 : prime 116503103764643.
Proof. pose proof prime_18533742247. pk [(2, 1, 2); (7, 1, 2); (449, 1, 2); (18533742247, 1, 2)]. Qed.
Lemma prime_59649589127497217 : prime 59649589127497217.
Proof. pose proof prime_116503103764643. pk [(2, 9, 3); (116503103764643, 1, 3)]. Qed.
Lemma prime_733803839347 : prime 733803839347.
Proof. pk [(2, 1, 2); (3, 1, 2); (2203, 1, 2); (55515497, 1, 2)]. Qed.
Lemma prime_5704689200685129054721 : prime 5704689200685129054721.
Proof. pose proof prime_733803839347. pk [(2, 9, 7); (3, 5, 3); (5, 1, 3); (12497, 1, 3); (733803839347, 1, 3)]. Qed.

Definition factors_M : list Z :=
  [3; 5; 17; 257; 65537; 641; 6700417; 274177; 67280421310721; 59649589127497217; 5704689200685129054721].
Lemma factors_prime p : In p factors_M -> prime p.
Proof.
  pose proof prime_67280421310721. pose proof prime_59649589127497217. pose proof prime_5704689200685129054721.
  intros I. cbn [factors_M In] in I. repeat (destruct I as [I|I]; [subst p; (assumption || tr)|]). destruct I.
Qed.
Lemma factors_prod : fold_right Z.mul 1 factors_M = 2 ^ 256 - 1.
Proof. vm_compute. reflexivity. Qed.
Lemma prime_divides_prod p : prime p -> forall l, (forall q, In q l -> prime q) -> (p | fold_right Z.mul 1 l) -> In p l.
Proof.
  intros Pp. pose proof (prime_ge_2 p Pp). induction l as [|q l IH]; intros H1 D; cbn [fold_right] in D.
  - apply Z.divide_1_r_nonneg in D; lia.
  - destruct (prime_mult p Pp _ _ D) as [D'|D'].
    + left. symmetry. apply prime_div_prime; auto. apply H1. now left.
    + right. apply IH; [|exact D']. intros. apply H1. now right.
Qed.
Lemma proper_divisor g : 0 < g -> (g | 2 ^ 256 - 1) -> g <> 2 ^ 256 - 1 ->
  exists p, In p factors_M /\ (g | (2 ^ 256 - 1) / p).
Proof.
  intros Hg [h Hh] Ne. assert (2 ^ 256 - 1 > 0) by reflexivity.
  assert (1 < h) by (clear - Hg Hh Ne H; set (M := 2 ^ 256 - 1) in *; clearbody M;
    destruct (Z_le_gt_dec h 0); [nia|]; destruct (Z.eq_dec h 1) as [->|]; lia).
  destruct (prime_divisor h) as (p & Pp & [k Hk]); [lia|]. pose proof (prime_ge_2 p Pp).
  exists p. split.
  - apply prime_divides_prod; [exact Pp|exact factors_prime|]. rewrite factors_prod, Hh, Hk. exists (k * g). ring.
  - exists k. rewrite Hh, Hk. replace (k * p * g) with (k * g * p) by ring. apply Z.div_mul. lia.
Qed.
