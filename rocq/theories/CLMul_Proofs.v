(** Carry-less multiplication with integer multiplies: digits base 16. *)
From Coq Require Import Btauto ZArith List Bool Lia.
From Verif Require Import Word Word_Proofs Ops_Model Crypto_Model AES_Spec.
Import ListNotations.
Local Open Scope Z_scope.

(** ** numbers from base 16 digits *)
Fixpoint val (f : Z -> Z) (n : nat) : Z := match n with O => 0 | S n => f 0 + 16 * val (fun p => f (p + 1)) n end.
Lemma val_ext f g n : (forall p, 0 <= p < Z.of_nat n -> f p = g p) -> val f n = val g n.
Proof.
  revert f g. induction n as [|n IH]; intros f g H; [reflexivity|]. cbn [val]. rewrite (H 0) by lia. f_equal. f_equal. apply IH. intros p Hp. apply H. lia.
Qed.
Lemma val_nonneg f n : (forall p, 0 <= p -> 0 <= f p) -> 0 <= val f n.
Proof. revert f. induction n as [|n IH]; intros f H; cbn [val]; [lia|]. pose proof (H 0). pose proof (IH (fun p => f (p + 1)) ltac:(intros; apply H; lia)). lia. Qed.
Lemma val_bits f : forall n c r, (forall p, 0 <= p -> 0 <= f p < 16) -> 0 <= c -> 0 <= r < 4 -> Z.testbit (val f n) (4 * c + r) = (c <? Z.of_nat n) && Z.testbit (f c) r.
Proof.
  intros n. revert f. induction n as [|n IH]; intros f c r Hf Hc Hr.
  - cbn [val]. rewrite Z.bits_0. destruct (Z.ltb_spec c (Z.of_nat 0)); [lia|reflexivity].
  - cbn [val]. set (V := val _ n). pose proof (Hf 0 ltac:(lia)) as F0. destruct (Z.eq_dec c 0) as [->|Hc0].
    + destruct (Z.ltb_spec 0 (Z.of_nat (S n))); [|lia]. cbn [andb]. replace (4 * 0 + r) with r by lia.
      rewrite <- (Z.mod_pow2_bits_low (f 0 + 16 * V) 4 r) by lia. change (2 ^ 4) with 16. replace ((f 0 + 16 * V) mod 16) with (f 0); [reflexivity|].
      rewrite Z.mul_comm, Z.mod_add by lia. symmetry. apply Z.mod_small. lia.
    + replace (4 * c + r) with (4 * (c - 1) + r + 4) by lia. rewrite <- (Z.div_pow2_bits (f 0 + 16 * V) 4) by lia. change (2 ^ 4) with 16.
      replace ((f 0 + 16 * V) / 16) with V by (rewrite Z.mul_comm, Z.div_add by lia; rewrite (Z.div_small (f 0)) by lia; lia).
      unfold V. rewrite IH; [|intros p Hp; apply Hf; lia|lia|lia]. replace (c - 1 + 1) with c by lia. f_equal. destruct (Z.ltb_spec (c - 1) (Z.of_nat n)), (Z.ltb_spec c (Z.of_nat (S n))); lia.
Qed.
(** ** convolution *)
Fixpoint cv (f : Z -> Z) (n : nat) (g : Z -> Z) (c : Z) : Z := match n with O => 0 | S n => f 0 * g c + cv (fun p => f (p + 1)) n g (c - 1) end.
Lemma cv_neg f n g c : (forall q, q < 0 -> g q = 0) -> c < 0 -> cv f n g c = 0.
Proof. intros Hg. revert f c. induction n as [|n IH]; intros f c Hc; cbn [cv]; [reflexivity|]. rewrite Hg, IH by lia. lia. Qed.
Lemma val_shift h N : h (-1) = 0 -> val (fun c => h (c - 1)) (S N) = 16 * val h N.
Proof. intros H. cbn [val]. change (0 - 1) with (-1). rewrite H. cbn [Z.add]. f_equal. apply val_ext. intros p Hp. f_equal. lia. Qed.
Lemma val_lin a f b g N : val (fun c => a * f c + b * g c) N = a * val f N + b * val g N.
Proof. revert f g. induction N as [|N IH]; intros f g; cbn [val]; [lia|]. rewrite (IH (fun p => f (p + 1)) (fun p => g (p + 1))). lia. Qed.
Lemma val_more g m N : (forall q, Z.of_nat m <= q -> g q = 0) -> (m <= N)%nat -> val g N = val g m.
Proof.
  revert g m. induction N as [|N IH]; intros g m H HN; [now replace m with O by lia|]. destruct m as [|m].
  - cbn [val]. rewrite (H 0) by lia. rewrite (IH (fun p => g (p + 1)) O); [reflexivity|intros q Hq; apply H; lia|lia].
  - cbn [val]. rewrite (IH (fun p => g (p + 1)) m); [reflexivity|intros q Hq; apply H; lia|lia].
Qed.
Lemma val_cv f g n m N : (forall q, q < 0 -> g q = 0) -> (forall q, Z.of_nat m <= q -> g q = 0) -> (n + m <= N)%nat -> val (cv f n g) N = val f n * val g m.
Proof.
  intros Hn Hm. revert f N. induction n as [|n IH]; intros f N HN.
  - cbn [val]. rewrite (val_ext _ (fun c => 0 * g c + 0 * g c)) by (intros; cbn [cv]; lia). rewrite val_lin. lia.
  - destruct N as [|N]; [lia|]. rewrite (val_ext _ (fun c => f 0 * g c + 1 * (fun c => cv (fun p => f (p + 1)) n g (c - 1)) c)) by (intros; cbn [cv]; lia). rewrite val_lin.
    rewrite (val_shift (cv (fun p => f (p + 1)) n g) N) by (apply cv_neg; [exact Hn|lia]). rewrite IH by lia. rewrite (val_more g m (S N)) by (auto; lia). cbn [val]. ring.
Qed.
Lemma cv_bound f n g c : (forall p, 0 <= p -> 0 <= f p <= 1) -> (forall q, 0 <= g q <= 1) -> 0 <= cv f n g c <= Z.of_nat n /\
  (cv f n g c = Z.of_nat n -> forall p, 0 <= p < Z.of_nat n -> f p = 1 /\ g (c - p) = 1).
Proof.
  intros Hf Hg. revert f c Hf. induction n as [|n IH]; intros f c Hf; cbn [cv]; [split; [lia|intros _ p Hp; lia]|].
  destruct (IH (fun p => f (p + 1)) (c - 1)) as (B & E); [intros p Hp; apply Hf; lia|]. pose proof (Hf 0 ltac:(lia)). pose proof (Hg c). split; [nia|].
  intros EQ p Hp. destruct (Z.eq_dec p 0) as [->|Hp0]; [rewrite Z.sub_0_r; nia|]. specialize (E ltac:(nia) (p - 1) ltac:(lia)). replace (p - 1 + 1) with p in E by lia. replace (c - 1 - (p - 1)) with (c - p) in E by lia. exact E.
Qed.

(** ** residue classes of a 64-bit number *)
Definition bz (a k : Z) : Z := Z.b2z (Z.testbit a k).
Lemma bz_range a k : 0 <= bz a k <= 1. Proof. unfold bz. destruct (Z.testbit a k); cbn; lia. Qed.
Definition cls (a i : Z) : Z -> Z := fun p => bz a (4 * p + i).
Definition kmask (i : Z) : Z := k1_ * 2 ^ i.
Lemma kmask_val : k1_ = val (fun _ => 1) 16. Proof. vm_compute. reflexivity. Qed.
Lemma val_mul2 f i n : 2 ^ i * val f n = val (fun p => 2 ^ i * f p) n.
Proof. rewrite (val_ext (fun p => 2 ^ i * f p) (fun p => 2 ^ i * f p + 0 * f p)) by (intros; lia). rewrite val_lin. lia. Qed.
Lemma kmask_bits i c r : 0 <= i < 4 -> 0 <= c -> 0 <= r < 4 -> Z.testbit (kmask i) (4 * c + r) = (c <? 16) && (r =? i).
Proof.
  intros Hi Hc Hr. unfold kmask. rewrite kmask_val, Z.mul_comm, val_mul2, val_bits.
  - f_equal. rewrite Z.mul_1_r, Z.pow2_bits_eqb by lia. apply Z.eqb_sym.
  - intros p Hp. rewrite Z.mul_1_r. split; [apply Z.pow_nonneg; lia|]. change 16 with (2 ^ 4). apply Z.pow_lt_mono_r; lia.
  - lia.
  - lia.
Qed.
Lemma idx4 m : 0 <= m -> exists c r, m = 4 * c + r /\ 0 <= c /\ 0 <= r < 4.
Proof. intros H. exists (m / 4), (m mod 4). pose proof (Z.div_mod m 4). pose proof (Z.mod_pos_bound m 4). pose proof (Z.div_pos m 4). lia. Qed.
Lemma land_cls a i : 0 <= a < 2 ^ 64 -> 0 <= i < 4 -> Z.land a (kmask i) = 2 ^ i * val (cls a i) 16.
Proof.
  intros Ha Hi. apply Z.bits_inj'. intros m Hm. destruct (idx4 m Hm) as (c & r & -> & Hc & Hr). rewrite Z.land_spec, kmask_bits by lia. rewrite val_mul2, val_bits; [|intros p Hp|lia|lia].
  - change (Z.of_nat 16) with 16. destruct (c <? 16); [|now rewrite andb_false_r]. cbn [andb]. unfold cls, bz. destruct (Z.eqb_spec r i) as [->|Hne].
    + rewrite andb_true_r. destruct (Z.testbit a (4 * c + i)); cbn [Z.b2z]; rewrite ?Z.mul_1_r, ?Z.mul_0_r; [rewrite Z.pow2_bits_true by lia|rewrite Z.bits_0]; reflexivity.
    + rewrite andb_false_r. destruct (Z.testbit a (4 * c + i)); cbn [Z.b2z]; rewrite ?Z.mul_1_r, ?Z.mul_0_r; [rewrite Z.pow2_bits_false by lia|rewrite Z.bits_0]; reflexivity.
  - pose proof (bz_range a (4 * p + i)). unfold cls. assert (1 <= 2 ^ i < 16); [|nia]. split; [apply (Z.pow_le_mono_r 2 0 i); lia|]. change 16 with (2 ^ 4). apply Z.pow_lt_mono_r; lia.
Qed.
Definition full (a i : Z) : Prop := forall p, 0 <= p < 16 -> Z.testbit a (4 * p + i) = true.
Lemma cls_out a i q : 0 <= a < 2 ^ 64 -> 0 <= i < 4 -> q < 0 \/ 16 <= q -> cls a i q = 0.
Proof.
  intros Ha Hi [Hq|Hq]; unfold cls, bz.
  - rewrite Z.testbit_neg_r by lia. reflexivity.
  - rewrite (testbit_small a 64) by lia. reflexivity.
Qed.
Lemma cnt_lt a b i j c : 0 <= a < 2 ^ 64 -> 0 <= b < 2 ^ 64 -> 0 <= i < 4 -> 0 <= j < 4 -> ~ (full a i /\ full b j) -> 0 <= cv (cls a i) 16 (cls b j) c < 16.
Proof.
  intros Ha Hb Hi Hj HF. destruct (cv_bound (cls a i) 16 (cls b j) c) as (B & E); [intros; apply bz_range|intros; apply bz_range|].
  destruct (Z.eq_dec (cv (cls a i) 16 (cls b j) c) 16) as [E16|]; [|lia]. exfalso. apply HF. specialize (E E16).
  assert (c = 15). { assert (0 <= c < 16). { destruct (E 0 ltac:(lia)) as (_ & E0). destruct (Z_lt_ge_dec (c - 0) 0); [rewrite cls_out in E0 by lia; lia|]. destruct (Z_lt_ge_dec (c - 0) 16); [lia|]. rewrite cls_out in E0 by lia. lia. }
    destruct (E 15 ltac:(lia)) as (_ & E0). destruct (Z_lt_ge_dec (c - 15) 0); [rewrite cls_out in E0 by lia; lia|]. lia. }
  subst c. split; intros p Hp.
  - destruct (E p Hp) as (E0 & _). unfold cls, bz in E0. destruct (Z.testbit a (4 * p + i)); [reflexivity|cbn in E0; lia].
  - destruct (E (15 - p) ltac:(lia)) as (_ & E0). replace (15 - (15 - p)) with p in E0 by lia. unfold cls, bz in E0. destruct (Z.testbit b (4 * p + j)); [reflexivity|cbn in E0; lia].
Qed.
(** bits of one partial product at the positions congruent to i + j *)
Lemma prod_bits a b i j c : 0 <= a < 2 ^ 64 -> 0 <= b < 2 ^ 64 -> 0 <= i < 4 -> 0 <= j < 4 -> ~ (full a i /\ full b j) -> -2 <= c < 32 ->
  Z.testbit (Z.land a (kmask i) * Z.land b (kmask j)) (4 * c + (i + j)) = Z.odd (cv (cls a i) 16 (cls b j) c).
Proof.
  intros Ha Hb Hi Hj HF Hc. rewrite !land_cls by lia. replace (2 ^ i * val (cls a i) 16 * (2 ^ j * val (cls b j) 16)) with (val (cls a i) 16 * val (cls b j) 16 * 2 ^ (i + j)) by (rewrite Z.pow_add_r by lia; ring).
  rewrite <- (val_cv (cls a i) (cls b j) 16 16 32); [|intros; apply cls_out; lia|intros; apply cls_out; lia|lia].
  destruct (Z_lt_ge_dec c 0).
  - rewrite cv_neg by (try lia; intros; apply cls_out; lia). destruct (Z_lt_ge_dec (4 * c + (i + j)) 0); [now rewrite Z.testbit_neg_r by lia|]. rewrite Z.mul_pow2_bits_low by lia. reflexivity.
  - rewrite Z.mul_pow2_bits by lia. replace (4 * c + (i + j) - (i + j)) with (4 * c + 0) by lia. rewrite val_bits; [|intros p Hp; now apply cnt_lt|lia|lia].
    change (Z.of_nat 32) with 32. destruct (Z.ltb_spec c 32); [|lia]. cbn [andb]. apply Z.bit0_odd.
Qed.

(** when both residue classes are full the count 16 of column 15 carries *)
Definition fullb (a i : Z) : bool := Z.land a (kmask i) =? kmask i.
Lemma fullb_ok a i : 0 <= i < 4 -> fullb a i = true <-> full a i.
Proof.
  intros Hi. unfold fullb, full. rewrite Z.eqb_eq. split.
  - intros E p Hp. assert (T : Z.testbit (Z.land a (kmask i)) (4 * p + i) = Z.testbit (kmask i) (4 * p + i)) by now rewrite E. rewrite Z.land_spec, kmask_bits in T by lia. destruct (Z.ltb_spec p 16); [|lia]. rewrite Z.eqb_refl in T. now rewrite andb_true_r in T.
  - intros F. apply Z.bits_inj'. intros m Hm. rewrite Z.land_spec. destruct (idx4 m Hm) as (c & r & -> & Hc & Hr). rewrite kmask_bits by lia. destruct (Z.ltb_spec c 16), (Z.eqb_spec r i); cbn [andb]; rewrite ?andb_false_r; try reflexivity. subst r. rewrite F by lia. reflexivity.
Qed.
Lemma cls_full a i p : 0 <= a < 2 ^ 64 -> 0 <= i < 4 -> fullb a i = true -> cls a i p = if (0 <=? p) && (p <? 16) then 1 else 0.
Proof.
  intros Ha Hi F. apply fullb_ok in F; [|lia]. destruct (Z.leb_spec 0 p), (Z.ltb_spec p 16); cbn [andb]; try (apply cls_out; lia). unfold cls, bz. rewrite F by lia. reflexivity.
Qed.
Definition carry (f g : bool) (c : Z) : bool := f && g && ((c =? 16) || (c =? 17)).
Definition ind16 (p : Z) : Z := if (0 <=? p) && (p <? 16) then 1 else 0.
Lemma full_table : forallb (fun c => Bool.eqb (if c <? 0 then false else Z.testbit (k1_ * k1_) (4 * c)) (xorb (Z.odd (cv ind16 16 ind16 c)) ((c =? 16) || (c =? 17)))) (map (fun k => Z.of_nat k - 2) (seq 0 34)) = true.
Proof. vm_compute. reflexivity. Qed.
Lemma cv_ext2 f f' n g g' c : (forall p, f p = f' p) -> (forall q, g q = g' q) -> cv f n g c = cv f' n g' c.
Proof. revert f f' c. induction n as [|n IH]; intros f f' c Hf Hg; [reflexivity|]. cbn [cv]. rewrite Hf, Hg. f_equal. apply IH; auto. Qed.
Lemma prod_bits_all a b i j c : 0 <= a < 2 ^ 64 -> 0 <= b < 2 ^ 64 -> 0 <= i < 4 -> 0 <= j < 4 -> -2 <= c < 32 ->
  Z.testbit (Z.land a (kmask i) * Z.land b (kmask j)) (4 * c + (i + j)) = xorb (Z.odd (cv (cls a i) 16 (cls b j) c)) (carry (fullb a i) (fullb b j) c).
Proof.
  intros Ha Hb Hi Hj Hc. unfold carry. destruct (fullb a i) eqn:FA; [destruct (fullb b j) eqn:FB|].
  - rewrite (cv_ext2 (cls a i) ind16 16 (cls b j) ind16) by (intros; apply cls_full; assumption). cbn [andb].
    pose proof full_table as T. rewrite forallb_forall in T. specialize (T c). cbv beta in T. rewrite Bool.eqb_true_iff in T. rewrite <- T by (apply in_map_iff; exists (Z.to_nat (c + 2)); split; [lia|apply in_seq; lia]).
    unfold fullb in FA, FB. apply Z.eqb_eq in FA. apply Z.eqb_eq in FB. rewrite FA, FB. unfold kmask. replace (k1_ * 2 ^ i * (k1_ * 2 ^ j)) with (k1_ * k1_ * 2 ^ (i + j)) by (rewrite Z.pow_add_r by lia; ring).
    destruct (Z.ltb_spec c 0).
    + destruct (Z_lt_ge_dec (4 * c + (i + j)) 0); [now rewrite Z.testbit_neg_r by lia|]. now rewrite Z.mul_pow2_bits_low by lia.
    + rewrite Z.mul_pow2_bits by lia. f_equal. lia.
  - cbn [andb]. rewrite xorb_false_r. apply prod_bits; try lia. intros (_ & F). apply fullb_ok in F; [congruence|lia].
  - cbn [andb]. rewrite xorb_false_r. apply prod_bits; try lia. intros (F & _). apply fullb_ok in F; [congruence|lia].
Qed.

(** ** the specification *)
Notation clprod := poly_mul.
Lemma cv_top f n g c : cv f (S n) g c = cv f n g c + f (Z.of_nat n) * g (c - Z.of_nat n).
Proof.
  revert f c. induction n as [|n IH]; intros f c; [cbn [cv]; rewrite Z.sub_0_r; cbn [Z.of_nat]; lia|].
  change (cv f (S (S n)) g c) with (f 0 * g c + cv (fun p => f (p + 1)) (S n) g (c - 1)). rewrite IH. cbn [cv]. replace (Z.of_nat n + 1) with (Z.of_nat (S n)) by lia. replace (c - 1 - Z.of_nat n) with (c - Z.of_nat (S n)) by lia. lia.
Qed.
Lemma clprod_bit n a b m : 0 <= m -> Z.testbit (clprod n a b) m = Z.odd (cv (bz a) n (bz b) m).
Proof.
  intros Hm. induction n as [|n IH]; [cbn [clprod cv]; now rewrite Z.bits_0|]. rewrite cv_top. cbn [clprod]. rewrite Z.lxor_spec, IH, Z.odd_add. f_equal. unfold bz at 1. destruct (Z.testbit a (Z.of_nat n)); cbn [Z.b2z].
  - rewrite Z.shiftl_spec by lia. rewrite Z.mul_1_l. unfold bz. now destruct (Z.testbit b (m - Z.of_nat n)).
  - rewrite Z.bits_0. reflexivity.
Qed.
Lemma cv_ext f f' n g g' c c' : (forall p, f p = f' p) -> (forall q, g (c + q) = g' (c' + q)) -> cv f n g c = cv f' n g' c'.
Proof.
  revert f f' c c'. induction n as [|n IH]; intros f f' c c' Hf Hg; [reflexivity|]. cbn [cv]. rewrite Hf. pose proof (Hg 0) as G0. rewrite !Z.add_0_r in G0. rewrite G0. f_equal. apply IH; [intros; apply Hf|].
  intros q. specialize (Hg (q - 1)). replace (c - 1 + q) with (c + (q - 1)) by lia. replace (c' - 1 + q) with (c' + (q - 1)) by lia. exact Hg.
Qed.
Lemma cv4 al be n : forall f c r, f = al -> cv f (4 * n) be (4 * c + r) =
  cv (fun p => f (4 * p + 0)) n (fun q => be (4 * q + r)) c + cv (fun p => f (4 * p + 1)) n (fun q => be (4 * q + r - 1)) c +
  cv (fun p => f (4 * p + 2)) n (fun q => be (4 * q + r - 2)) c + cv (fun p => f (4 * p + 3)) n (fun q => be (4 * q + r - 3)) c.
Proof.
  clear. induction n as [|n IH] in al |- *; intros f c r _; [reflexivity|].
  replace (4 * S n)%nat with (S (S (S (S (4 * n))))) by lia. cbn [cv]. replace (4 * c + r - 1 - 1 - 1 - 1) with (4 * (c - 1) + r) by lia. rewrite (IH _ _ (c - 1) r eq_refl). cbv beta.
  replace (4 * c + r - 1 - 1) with (4 * c + r - 2) by lia. replace (4 * c + r - 2 - 1) with (4 * c + r - 3) by lia. change (0 + 1 + 1 + 1) with 3. change (0 + 1 + 1) with 2. change (0 + 1) with 1. change (4 * 0 + 0) with 0. change (4 * 0 + 1) with 1. change (4 * 0 + 2) with 2. change (4 * 0 + 3) with 3.
  assert (E : forall i g, cv (fun p => f (4 * p + i + 1 + 1 + 1 + 1)) n g (c - 1) = cv (fun p => f (4 * (p + 1) + i)) n g (c - 1)).
  { intros i g. apply cv_ext; [|reflexivity]. intros p. f_equal. lia. }
  rewrite (E 0), (E 1), (E 2), (E 3). lia.
Qed.
(** all four partial products of a residue class *)
Definition part (a b i j : Z) : Z := Z.land a (kmask i) * Z.land b (kmask j).
Definition col (i r c : Z) : Z := if i <=? r then c else c - 1.
Lemma cls_bits a b i r c : 0 <= a < 2 ^ 64 -> 0 <= b < 2 ^ 64 -> 0 <= i < 4 -> 0 <= r < 4 -> 0 <= c < 32 ->
  Z.odd (cv (fun p => bz a (4 * p + i)) 16 (fun q => bz b (4 * q + r - i)) c) =
  xorb (Z.testbit (part a b i ((r - i) mod 4)) (4 * c + r)) (carry (fullb a i) (fullb b ((r - i) mod 4)) (col i r c)).
Proof.
  intros Ha Hb Hi Hr Hc. unfold part, col. destruct (Z.leb_spec i r).
  - rewrite Z.mod_small by lia. replace (4 * c + r) with (4 * c + (i + (r - i))) by lia. rewrite prod_bits_all by lia. rewrite xorb_assoc, xorb_nilpotent, xorb_false_r. f_equal. apply cv_ext; [reflexivity|]. intros q. unfold cls. f_equal. lia.
  - replace ((r - i) mod 4) with (r - i + 4) by (apply (Z.mod_unique_pos _ _ (-1)); lia). replace (4 * c + r) with (4 * (c - 1) + (i + (r - i + 4))) by lia. rewrite prod_bits_all by lia. rewrite xorb_assoc, xorb_nilpotent, xorb_false_r. f_equal. apply cv_ext; [reflexivity|]. intros q. unfold cls. f_equal. lia.
Qed.
(** the wrong bits, as a function of which classes are full *)
Definition wrong (fa fb : Z -> bool) (c r : Z) : bool :=
  xorb (xorb (carry (fa 0) (fb (r mod 4)) (col 0 r c)) (carry (fa 1) (fb ((r - 1) mod 4)) (col 1 r c)))
       (xorb (carry (fa 2) (fb ((r - 2) mod 4)) (col 2 r c)) (carry (fa 3) (fb ((r - 3) mod 4)) (col 3 r c))).
Lemma clprod_parts a b c r : 0 <= a < 2 ^ 64 -> 0 <= b < 2 ^ 64 -> 0 <= r < 4 -> 0 <= c < 32 ->
  xorb (xorb (Z.testbit (part a b 0 (r mod 4)) (4 * c + r)) (Z.testbit (part a b 1 ((r - 1) mod 4)) (4 * c + r)))
       (xorb (Z.testbit (part a b 2 ((r - 2) mod 4)) (4 * c + r)) (Z.testbit (part a b 3 ((r - 3) mod 4)) (4 * c + r))) =
  xorb (Z.testbit (clprod 64 a b) (4 * c + r)) (wrong (fullb a) (fullb b) c r).
Proof.
  intros Ha Hb Hr Hc. rewrite clprod_bit by lia. change 64%nat with (4 * 16)%nat. rewrite (cv4 (bz a) (bz b) 16 (bz a) c r eq_refl). rewrite !Z.odd_add.
  rewrite (cls_bits a b 1 r c), (cls_bits a b 2 r c), (cls_bits a b 3 r c) by lia.
  replace (cv (fun p => bz a (4 * p + 0)) 16 (fun q => bz b (4 * q + r)) c) with (cv (fun p => bz a (4 * p + 0)) 16 (fun q => bz b (4 * q + r - 0)) c) by (apply cv_ext; [reflexivity|]; intros; f_equal; lia).
  rewrite (cls_bits a b 0 r c) by lia. unfold wrong. replace ((r - 0) mod 4) with (r mod 4) by (f_equal; lia). clear. btauto.
Qed.

(** ** one block of CLMulLower / CLMulUpper *)
Definition block (half : Z -> Z) (a b : Z) : Z :=
  let m i0 i1 i2 i3 := Z.lxor (Z.lxor (half (part a b 0 i0)) (half (part a b 1 i1))) (Z.lxor (half (part a b 2 i2)) (half (part a b 3 i3))) in
  Z.lor (Z.lor (Z.land (m 0 3 2 1) k1_) (Z.land (m 1 0 3 2) k2_)) (Z.lor (Z.land (m 2 1 0 3) k4_) (Z.land (m 3 2 1 0) k8_)).
Lemma block_high half a b m : (forall x, 0 <= half x < 2 ^ 64) -> 64 <= m -> Z.testbit (block half a b) m = false.
Proof.
  intros HH Hm. unfold block. cbv zeta. rewrite !Z.lor_spec, !Z.land_spec. rewrite (testbit_small k1_ 64), (testbit_small k2_ 64), (testbit_small k4_ 64), (testbit_small k8_ 64) by (try (split; [discriminate|reflexivity]); lia). now rewrite !andb_false_r.
Qed.
Lemma block_bits half off a b c r : 0 <= a < 2 ^ 64 -> 0 <= b < 2 ^ 64 -> (off = 0 \/ off = 16) ->
  (forall x m, 0 <= m < 64 -> Z.testbit (half x) m = Z.testbit x (4 * off + m)) -> (forall x, 0 <= half x < 2 ^ 64) -> 0 <= c < 16 -> 0 <= r < 4 ->
  Z.testbit (block half a b) (4 * c + r) = xorb (Z.testbit (half (clprod 64 a b)) (4 * c + r)) (wrong (fullb a) (fullb b) (off + c) r).
Proof.
  intros Ha Hb Ho HB HH Hc Hr.
  rewrite HB by lia. replace (4 * off + (4 * c + r)) with (4 * (off + c) + r) by lia. rewrite <- clprod_parts by lia.
  unfold block. cbv zeta. rewrite !Z.lor_spec, !Z.land_spec.
  change k1_ with (kmask 0). change k2_ with (kmask 1). change k4_ with (kmask 2). change k8_ with (kmask 3). rewrite !kmask_bits by lia. destruct (Z.ltb_spec c 16); [|lia]. cbn [andb].
  assert (G : r = 0 \/ r = 1 \/ r = 2 \/ r = 3) by lia.
  destruct G as [-> | [-> | [-> | ->]]]; cbn [Z.eqb Pos.eqb]; rewrite ?andb_false_r, ?andb_true_r, ?orb_false_r, ?orb_false_l; rewrite !Z.lxor_spec, !HB by lia;
    (match goal with |- context [4 * off + ?e] => replace (4 * off + e) with (4 * (off + c) + (e - 4 * c)) by lia end);
    (match goal with |- context [?e - 4 * c] => let k := fresh in set (k := e - 4 * c); first [replace k with 0 by (unfold k; lia)|replace k with 1 by (unfold k; lia)|replace k with 2 by (unfold k; lia)|replace k with 3 by (unfold k; lia)] end);
    reflexivity.
Qed.
Lemma carry_false f g c : c < 16 -> carry f g c = false.
Proof. intros. unfold carry. destruct (Z.eqb_spec c 16), (Z.eqb_spec c 17); try lia; now rewrite andb_false_r. Qed.
Lemma wrong_low fa fb c r : c < 16 -> wrong fa fb c r = false.
Proof. intros H. unfold wrong. assert (C : forall i, col i r c < 16) by (intros i; unfold col; destruct (i <=? r); lia). rewrite !carry_false by apply C. reflexivity. Qed.
Lemma wrong_none fa fb c r : (forall i j, 0 <= i < 4 -> 0 <= j < 4 -> fa i && fb j = false) -> wrong fa fb c r = false.
Proof.
  intros H. unfold wrong, carry. assert (M : forall x, 0 <= x mod 4 < 4) by (intros; apply Z.mod_pos_bound; lia). rewrite !H by (try lia; apply M). reflexivity.
Qed.
(** if some class of each operand is full, some bit is wrong *)
Definition fn4 (x0 x1 x2 x3 : bool) (i : Z) : bool := if i =? 0 then x0 else if i =? 1 then x1 else if i =? 2 then x2 else x3.
Definition bb : list bool := [true; false].
Lemma wrong_table : forallb (fun x0 => forallb (fun x1 => forallb (fun x2 => forallb (fun x3 => forallb (fun y0 => forallb (fun y1 => forallb (fun y2 => forallb (fun y3 =>
   implb ((x0 || x1 || x2 || x3) && (y0 || y1 || y2 || y3)) (existsb (fun c => existsb (fun r => wrong (fn4 x0 x1 x2 x3) (fn4 y0 y1 y2 y3) c r) [0; 1; 2; 3]) [16; 17])) bb) bb) bb) bb) bb) bb) bb) bb = true.
Proof. vm_compute. reflexivity. Qed.
Lemma fn4_ok f i : 0 <= i < 4 -> fn4 (f 0) (f 1) (f 2) (f 3) i = f i.
Proof. intros H. assert (G : i = 0 \/ i = 1 \/ i = 2 \/ i = 3) by lia. destruct G as [-> | [-> | [-> | ->]]]; reflexivity. Qed.
Lemma wrong_some fa fb i j : 0 <= i < 4 -> 0 <= j < 4 -> fa i = true -> fb j = true -> exists c r, 16 <= c < 32 /\ 0 <= r < 4 /\ wrong fa fb c r = true.
Proof.
  intros Hi Hj FA FB. pose proof wrong_table as T.
  assert (B : forall b, In b bb) by (intros []; cbn; auto).
  rewrite forallb_forall in T. specialize (T (fa 0) (B _)). rewrite forallb_forall in T. specialize (T (fa 1) (B _)). rewrite forallb_forall in T. specialize (T (fa 2) (B _)). rewrite forallb_forall in T. specialize (T (fa 3) (B _)). rewrite forallb_forall in T.
  specialize (T (fb 0) (B _)). rewrite forallb_forall in T. specialize (T (fb 1) (B _)). rewrite forallb_forall in T. specialize (T (fb 2) (B _)). rewrite forallb_forall in T. specialize (T (fb 3) (B _)).
  assert (SA : fa 0 || fa 1 || fa 2 || fa 3 = true). { rewrite <- (fn4_ok fa i Hi) in FA. unfold fn4 in FA. destruct (i =? 0), (i =? 1), (i =? 2); rewrite FA, ?orb_true_r; reflexivity. }
  assert (SB : fb 0 || fb 1 || fb 2 || fb 3 = true). { rewrite <- (fn4_ok fb j Hj) in FB. unfold fn4 in FB. destruct (j =? 0), (j =? 1), (j =? 2); rewrite FB, ?orb_true_r; reflexivity. }
  rewrite SA, SB in T. cbn [andb implb] in T. apply existsb_exists in T. destruct T as (c & Hc & T). apply existsb_exists in T. destruct T as (r & Hr & T).
  exists c, r. split; [destruct Hc as [<-|[<-|[]]]; lia|]. assert (Hr' : 0 <= r < 4) by (destruct Hr as [<-|[<-|[<-|[<-|[]]]]]; lia). split; [exact Hr'|].
  rewrite <- T. unfold wrong. assert (M : forall x, 0 <= x mod 4 < 4) by (intros; apply Z.mod_pos_bound; lia). rewrite !(fn4_ok fb) by apply M. reflexivity.
Qed.

(** ** all blocks *)
Definition lo64 (x : Z) : Z := wrap 64 x.
Definition hi64 (x : Z) : Z := wrap 64 (Z.shiftr x 64).
Lemma lo64_bits x m : 0 <= m < 64 -> Z.testbit (lo64 x) m = Z.testbit x (4 * 0 + m).
Proof. intros H. unfold lo64, wrap. rewrite Z.mod_pow2_bits_low by lia. reflexivity. Qed.
Lemma hi64_bits x m : 0 <= m < 64 -> Z.testbit (hi64 x) m = Z.testbit x (4 * 16 + m).
Proof. intros H. unfold hi64, wrap. rewrite Z.mod_pow2_bits_low by lia. rewrite Z.shiftr_spec by lia. f_equal. lia. Qed.
Lemma lo64_range x : 0 <= lo64 x < 2 ^ 64. Proof. apply Z.mod_pos_bound. reflexivity. Qed.
Lemma hi64_range x : 0 <= hi64 x < 2 ^ 64. Proof. apply Z.mod_pos_bound. reflexivity. Qed.
Lemma part_unfold a b : 
  (forall h : Z -> Z, block h a b =
   let m p q r s := Z.lxor (Z.lxor (h p) (h q)) (Z.lxor (h r) (h s)) in
   let A0 := Z.land a k1_ in let A1 := Z.land a k2_ in let A2 := Z.land a k4_ in let A3 := Z.land a k8_ in
   let B0 := Z.land b k1_ in let B1 := Z.land b k2_ in let B2 := Z.land b k4_ in let B3 := Z.land b k8_ in
   Z.lor (Z.lor (Z.land (m (A0 * B0) (A1 * B3) (A2 * B2) (A3 * B1)) k1_) (Z.land (m (A0 * B1) (A1 * B0) (A2 * B3) (A3 * B2)) k2_))
         (Z.lor (Z.land (m (A0 * B2) (A1 * B1) (A2 * B0) (A3 * B3)) k4_) (Z.land (m (A0 * B3) (A1 * B2) (A2 * B1) (A3 * B0)) k8_))).
Proof. intros h. unfold block, part. change (kmask 0) with k1_. change (kmask 1) with k2_. change (kmask 2) with k4_. change (kmask 3) with k8_. reflexivity. Qed.
Lemma clmul_lower_cons a0 a1 a b0 b1 b : clmul_lower (a0 :: a1 :: a) (b0 :: b1 :: b) = block lo64 a0 b0 :: block hi64 a0 b0 :: clmul_lower a b.
Proof. rewrite !part_unfold. reflexivity. Qed.
Lemma clmul_upper_cons a0 a1 a b0 b1 b : clmul_upper (a0 :: a1 :: a) (b0 :: b1 :: b) = block lo64 a1 b1 :: block hi64 a1 b1 :: clmul_upper a b.
Proof. rewrite !part_unfold. reflexivity. Qed.
Lemma block_lo a b : 0 <= a < 2 ^ 64 -> 0 <= b < 2 ^ 64 -> block lo64 a b = lo64 (clprod 64 a b).
Proof.
  intros Ha Hb. apply Z.bits_inj'. intros m Hm. destruct (Z_lt_ge_dec m 64).
  - destruct (idx4 m Hm) as (c & r & -> & Hc & Hr). rewrite (block_bits lo64 0) by (auto using lo64_bits, lo64_range; lia). rewrite wrong_low by lia. apply xorb_false_r.
  - rewrite block_high by (auto using lo64_range; lia). symmetry. apply (testbit_small _ 64); [apply lo64_range|lia].
Qed.
Lemma block_hi a b : 0 <= a < 2 ^ 64 -> 0 <= b < 2 ^ 64 -> block hi64 a b = hi64 (clprod 64 a b) <-> ~ (exists i j, 0 <= i < 4 /\ 0 <= j < 4 /\ full a i /\ full b j).
Proof.
  intros Ha Hb. split.
  - intros E (i & j & Hi & Hj & FA & FB). apply fullb_ok in FA; [|lia]. apply fullb_ok in FB; [|lia]. destruct (wrong_some _ _ i j Hi Hj FA FB) as (c & r & Hc & Hr & W).
    pose proof (block_bits hi64 16 a b (c - 16) r Ha Hb (or_intror eq_refl) hi64_bits hi64_range ltac:(lia) Hr) as B. rewrite E in B. replace (16 + (c - 16)) with c in B by lia. rewrite W in B. destruct (Z.testbit _ _); discriminate.
  - intros N. apply Z.bits_inj'. intros m Hm. destruct (Z_lt_ge_dec m 64).
    + destruct (idx4 m Hm) as (c & r & -> & Hc & Hr). rewrite (block_bits hi64 16) by (auto using hi64_bits, hi64_range; lia). rewrite wrong_none; [apply xorb_false_r|].
      intros i j Hi Hj. destruct (fullb a i) eqn:FA; [|reflexivity]. destruct (fullb b j) eqn:FB; [|reflexivity]. exfalso. apply N. exists i, j. apply fullb_ok in FA; [|lia]. apply fullb_ok in FB; [|lia]. auto.
    + rewrite block_high by (auto using hi64_range; lia). symmetry. apply (testbit_small _ 64); [apply hi64_range|lia].
Qed.
