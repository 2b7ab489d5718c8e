From Coq Require Import ZArith List Lia Bool Znumtheory.
From Verif Require Import Word Word_Proofs Arith_Model Pool_Model Pool_Spec.
Import ListNotations.
Local Open Scope Z_scope.

(* ------------------------ gcd ------------------------ *)
Lemma bsf_shift x : 0 < x -> exists m, Z.shiftr x (bsf x) = m /\ x = m * 2 ^ bsf x /\ Z.odd m = true /\ 0 < m /\ 0 <= bsf x.
Proof.
  intros Hx. destruct (bsf_spec x Hx) as (B1 & B2 & B3).
  exists (Z.shiftr x (bsf x)). rewrite shiftr_div by lia. set (k := bsf x) in *.
  pose proof (pow2_gt0 k B3) as Pk.
  assert (M : x mod 2 ^ k = 0).
  { apply Z.bits_inj'. intros j Hj. rewrite Z.testbit_0_l. destruct (Z_lt_dec j k).
    - rewrite Z.mod_pow2_bits_low by lia. apply B2. lia.
    - apply Z.mod_pow2_bits_high. lia. }
  pose proof (Z.div_mod x (2 ^ k) ltac:(lia)) as DM.
  split; [reflexivity|]. split; [lia|]. split; [|split; [nia|lia]].
  rewrite <- Z.bit0_odd. rewrite Z.div_pow2_bits by lia. exact B1.
Qed.

Lemma gcd_odd_pow2 m b k : 0 <= k -> Z.odd b = true -> Z.gcd (m * 2 ^ k) b = Z.gcd m b.
Proof.
  intros Hk Hb. rewrite (Z.gcd_comm (m * _)), (Z.gcd_comm m).
  assert (R : rel_prime b (2 ^ k)).
  { apply rel_prime_sym.
    assert (R1 : rel_prime 2 b).
    { apply prime_rel_prime; [apply prime_2|]. intros D. apply Z.odd_spec in Hb as (q & Hq). destruct D as (p & Hp). lia. }
    destruct (Z.eq_dec k 0) as [->|]; [apply rel_prime_1|].
    assert (G : Z.gcd (2 ^ k) b = 1).
    { replace k with (Z.of_nat (Z.to_nat k)) by lia. induction (Z.to_nat k) as [|j IH].
      - apply Z.gcd_1_l.
      - rewrite Nat2Z.inj_succ, Z.pow_succ_r by lia.
        apply Zgcd_1_rel_prime. apply rel_prime_sym. apply rel_prime_mult; apply rel_prime_sym; auto.
        apply Zgcd_1_rel_prime, IH. }
    apply Zgcd_1_rel_prime, G. }
  apply Z.divide_antisym_nonneg; try apply Z.gcd_nonneg.
  - apply Z.gcd_greatest; [apply Z.gcd_divide_l|].
    apply Gauss with (2 ^ k).
    + rewrite Z.mul_comm. apply Z.gcd_divide_r.
    + apply Zgcd_1_rel_prime. apply Zgcd_1_rel_prime in R.
      assert (D : (Z.gcd (Z.gcd b (m * 2 ^ k)) (2 ^ k) | Z.gcd b (2 ^ k))).
      { apply Z.gcd_greatest; [|apply Z.gcd_divide_r].
        eapply Z.divide_trans; [apply Z.gcd_divide_l|apply Z.gcd_divide_l]. }
      rewrite R in D. apply Z.divide_1_r_nonneg in D; [exact D|apply Z.gcd_nonneg].
  - apply Z.gcd_greatest; [apply Z.gcd_divide_l|]. apply Z.divide_mul_l, Z.gcd_divide_r.
Qed.

Lemma Coprime_loop_ok fuel : forall a b, 0 < a < 2 ^ 32 -> 0 < b < 2 ^ 32 -> Z.odd a = true -> Z.odd b = true ->
  (Z.to_nat (Z.log2 a + Z.log2 b) < fuel)%nat ->
  Coprime_loop fuel a b = Some (Z.gcd a b =? 1).
Proof.
  induction fuel as [|fuel IH]; intros a b Ha Hb Oa Ob Hf; [lia|].
  cbn [Coprime_loop].
  set (A := Z.max a b). set (B := Z.min a b).
  assert (HAB : 0 < B <= A /\ A < 2 ^ 32 /\ Z.odd A = true /\ Z.odd B = true /\ Z.gcd a b = Z.gcd A B /\ Z.log2 a + Z.log2 b = Z.log2 A + Z.log2 B).
  { unfold A, B. destruct (Z.max_spec a b) as [[? ->]|[? ->]]; destruct (Z.min_spec a b) as [[? ->]|[? ->]]; repeat split; auto; try lia; apply Z.gcd_comm || (f_equal; lia). }
  destruct HAB as (HB & HA & OA & OB & EG & EL). rewrite EG. clearbody A B.
  destruct (Z.eqb_spec B 1) as [->|HB1]. { rewrite Z.gcd_1_r. reflexivity. }
  rewrite wrap_small by lia.
  destruct (Z.eqb_spec (A - B) 0) as [Hz|Hz].
  - assert (A = B) by lia. subst A. rewrite Z.gcd_diag. f_equal. symmetry. apply Z.eqb_neq. lia.
  - destruct (bsf_shift (A - B)) as (m & -> & E & Om & Hm & Hk); [lia|].
    set (k := bsf (A - B)) in *.
    assert (Hk1 : 0 < k).
    { destruct (Z.eq_dec k 0) as [K0|]; [|lia]. exfalso. rewrite K0, Z.mul_1_r in E.
      rewrite <- E, Z.odd_sub, OA, OB in Om. discriminate. }
    assert (Hm2 : 2 * m <= A - B).
    { rewrite E. assert (2 ^ 1 <= 2 ^ k) by (apply Z.pow_le_mono_r; lia). nia. }
    assert (Hlog : Z.log2 m + 1 <= Z.log2 A).
    { replace (Z.log2 m + 1) with (Z.log2 (2 * m)) by (rewrite Z.log2_double by lia; lia).
      apply Z.log2_le_mono. lia. }
    rewrite IH; [|lia|lia|exact Om|exact OB|].
    + f_equal. f_equal. rewrite <- (gcd_odd_pow2 m B k) by auto. rewrite <- E.
      rewrite (Z.gcd_comm A B). rewrite Z.gcd_comm. apply Z.gcd_sub_diag_r.
    + pose proof (Z.log2_nonneg m). pose proof (Z.log2_nonneg B). pose proof (Z.log2_nonneg A). lia.
Qed.

Lemma CoprimeNonzero_ok a b : 0 < a < 2 ^ 32 -> 0 < b < 2 ^ 32 ->
  CoprimeNonzero a b = Some (Z.gcd a b =? 1).
Proof.
  intros Ha Hb. unfold CoprimeNonzero.
  destruct (Z.eqb_spec a 0), (Z.eqb_spec b 0); try lia. cbn [orb].
  destruct (bsf_shift a ltac:(lia)) as (ma & -> & Ea & Oa & Hma & Hka).
  destruct (bsf_shift b ltac:(lia)) as (mb & -> & Eb & Ob & Hmb & Hkb).
  set (ka := bsf a) in *. set (kb := bsf b) in *.
  pose proof (pow2_gt0 ka Hka). pose proof (pow2_gt0 kb Hkb).
  destruct (Z.eqb_spec (Z.min ka kb) 0) as [Hmin|Hmin]; cbn [negb].
  - rewrite Coprime_loop_ok; [|nia|nia|exact Oa|exact Ob|].
    + f_equal. f_equal. rewrite Ea, Eb.
      destruct (Z.eq_dec ka 0) as [K|K].
      * rewrite K, Z.mul_1_r. rewrite (Z.gcd_comm ma (mb * _)), gcd_odd_pow2 by auto. apply Z.gcd_comm.
      * assert (kb = 0) as -> by lia. rewrite Z.mul_1_r. rewrite gcd_odd_pow2 by auto. reflexivity.
    + assert (Z.log2 ma < 32) by (apply Z.log2_lt_pow2; nia).
      assert (Z.log2 mb < 32) by (apply Z.log2_lt_pow2; nia).
      lia.
  - assert (0 < ka /\ 0 < kb) as [K1 K2] by lia. f_equal. symmetry. apply Z.eqb_neq. intros G.
    assert (D : (2 | Z.gcd a b)).
    { assert (P : forall k m x, 0 < k -> x = m * 2 ^ k -> (2 | x)).
      { intros k m x Hk ->. exists (m * 2 ^ (k - 1)).
        replace k with (Z.succ (k - 1)) at 1 by lia. rewrite Z.pow_succ_r by lia. ring. }
      apply Z.gcd_greatest; eauto. }
    rewrite G in D. apply Z.divide_1_r_nonneg in D; lia.
Qed.

Lemma Find_loop_ok size bound inc target fuel : 2 < size < 2 ^ 32 -> 0 < inc -> bound < 2 ^ 32 ->
  Z.gcd target size = 1 -> target < bound -> 
  forall x, 0 < x <= target -> (inc | target - x) -> bound + inc < 2 ^ 32 -> (Z.to_nat (target - x) < fuel)%nat ->
  exists c, Find_loop fuel size bound inc x = Some c /\ x <= c <= target /\ Z.gcd c size = 1.
Proof.
  intros Hs Hi Hb HG Ht. induction fuel as [|fuel IH]; intros x Hx Hd Hov Hf; [lia|].
  cbn [Find_loop]. destruct (Z.ltb_spec x bound); [|lia].
  rewrite CoprimeNonzero_ok by lia. destruct (Z.eqb_spec (Z.gcd x size) 1) as [E|E].
  - exists x. split; [reflexivity|]. split; [lia|exact E].
  - assert (x <> target) by (intros ->; contradiction).
    destruct Hd as (q & Hq). assert (0 < q) by nia.
    rewrite wrap_small by nia.
    destruct (IH (x + inc)) as (c & E1 & E2 & E3).
    + split; [lia|]. nia.
    + exists (q - 1). lia.
    + lia.
    + nia.
    + exists c. split; [exact E1|]. split; [lia|exact E3].
Qed.

Lemma FindAnotherCoprime_ok size start : 0 < size -> 0 <= start -> start + 16 * size + 2 < 2 ^ 32 ->
  exists c, FindAnotherCoprime size start = Some c /\ Z.gcd c size = 1 /\ 0 < c < start + 16 * size /\ (2 < size -> start <= c).
Proof.
  intros Hs Hst Hov. unfold FindAnotherCoprime. destruct (Z.leb_spec size 2).
  - exists 1. split; [reflexivity|]. split; [apply Z.gcd_1_l|]. lia.
  - set (inc := if Z.odd size then 1 else 2).
    rewrite (wrap_small 32 (size * 16)) by lia. rewrite wrap_small by lia.
    assert (Hx0 : start <= Z.lor start 1 <= start + 1 /\ Z.odd (Z.lor start 1) = true).
    { rewrite <- Z.bit0_odd, Z.lor_spec. cbn [Z.testbit]. rewrite orb_true_r. split; [|reflexivity].
      destruct (Z.odd start) eqn:O.
      - assert (Z.lor start 1 = start).
        { apply Z.bits_inj'. intros k Hk. rewrite Z.lor_spec. change 1 with (2 ^ 0). rewrite Z.pow2_bits_eqb by lia.
          destruct (Z.eqb_spec 0 k) as [<-|]; [rewrite Z.bit0_odd, O; reflexivity|apply orb_false_r]. }
        lia.
      - assert (Z.lor start 1 = start + 1); [|lia].
        pose proof (Z.div_mod start 2 ltac:(lia)) as DM. 
        assert (Hev : start mod 2 = 0).
        { rewrite Zmod_odd. rewrite O. reflexivity. }
        rewrite Hev in DM.
        apply Z.bits_inj'. intros k Hk. rewrite Z.lor_spec.
        replace (start + 1) with (1 + 2 ^ 1 * (start / 2)) by (change (2 ^ 1) with 2; lia).
        rewrite DM at 1. replace (2 * (start / 2) + 0) with (0 + 2 ^ 1 * (start / 2)) by (change (2 ^ 1) with 2; lia).
        rewrite !testbit_split by (cbn; lia). destruct (Z.ltb_spec k 1).
        + rewrite Z.testbit_0_l. reflexivity.
        + rewrite (testbit_small 1 1 k) by lia. apply orb_false_r. }
    destruct Hx0 as [Hx0 Ox0]. set (x0 := Z.lor start 1) in *.
    (* target: least x >= x0 with x = 1 mod size *)
    set (target := x0 + (1 - x0) mod size).
    pose proof (Z.mod_pos_bound (1 - x0) size ltac:(lia)) as MB.
    pose proof (Z.div_mod (1 - x0) size ltac:(lia)) as DM.
    assert (HG : Z.gcd target size = 1).
    { assert (target = 1 + (- ((1 - x0) / size)) * size) as ->.
      { unfold target. lia. }
            apply Zgcd_1_rel_prime. apply bezout_rel_prime.
      apply Bezout_intro with 1 ((1 - x0) / size). ring. }
    assert (HD : (inc | target - x0)).
    { unfold inc. destruct (Z.odd size) eqn:Os.
      - apply Z.divide_1_l.
      - assert (O : Z.odd (target - x0) = false).
        { replace (target - x0) with ((1 - x0) - size * ((1 - x0) / size)) by (unfold target; lia).
          rewrite !Z.odd_sub, Z.odd_mul, Os, Ox0. reflexivity. }
        exists ((target - x0) / 2).
        pose proof (Z.div_mod (target - x0) 2 ltac:(lia)) as D2. rewrite Zmod_odd, O in D2. lia. }
    destruct (Find_loop_ok size (start + size * 16) inc target (Z.to_nat (start + size * 16))) with (x := x0) as (c & E1 & E2 & E3).
    + lia. + unfold inc; destruct (Z.odd size); lia. + lia. + exact HG.
    + unfold target. lia.
    + split; [|unfold target; lia].
      destruct (Z.eq_dec x0 0) as [X|]; [|lia]. rewrite X in Ox0. discriminate.
    + exact HD.
    + unfold inc; destruct (Z.odd size); lia.
    + unfold target. lia.
    + exists c. split; [exact E1|]. split; [exact E3|]. unfold target in E2. split; [|lia]. 
      assert (0 < x0). { destruct (Z.eq_dec x0 0) as [X|]; [|lia]. rewrite X in Ox0. discriminate. }
      lia.
Qed.

(* ------------------------ shuffled iota ------------------------ *)
Fixpoint iter_next (k : nat) (coprime size cur : Z) : Z :=
  match k with O => cur | S j => iter_next j coprime size (Iota_Next coprime cur size) end.

Lemma Iota_Next_ok coprime cur size : 0 < size < 2 ^ 32 -> 0 <= cur < size -> 0 <= coprime -> cur + coprime < 2 ^ 32 ->
  Iota_Next coprime cur size = (cur + coprime) mod size.
Proof.
  intros. unfold Iota_Next. rewrite (wrap_small 32 (cur + coprime)) by lia.
  pose proof (Z.mod_pos_bound (cur + coprime) size ltac:(lia)). apply wrap_small. lia.
Qed.

Lemma iter_next_ok k : forall coprime size cur, 0 < size < 2 ^ 32 -> 0 <= cur < size -> 0 <= coprime -> size + coprime <= 2 ^ 32 ->
  iter_next k coprime size cur = (cur + Z.of_nat k * coprime) mod size.
Proof.
  induction k as [|k IH]; intros coprime size cur Hs Hc Hco Hov.
  - cbn [iter_next]. rewrite Z.mul_0_l, Z.add_0_r, Z.mod_small by lia. reflexivity.
  - cbn [iter_next]. rewrite Iota_Next_ok by lia.
    rewrite IH; [|lia|apply Z.mod_pos_bound; lia|lia|lia].
    rewrite Zplus_mod_idemp_l. f_equal. lia.
Qed.

Lemma iter_next_inj coprime size cur i j : 0 < size < 2 ^ 32 -> 0 <= cur < size -> 0 <= coprime -> size + coprime <= 2 ^ 32 ->
  Z.gcd coprime size = 1 -> Z.of_nat i < size -> Z.of_nat j < size ->
  iter_next i coprime size cur = iter_next j coprime size cur -> i = j.
Proof.
  intros Hs Hc Hco Hov HG Hi Hj E. rewrite !iter_next_ok in E by auto.
  assert (D : (size | (Z.of_nat i - Z.of_nat j) * coprime)).
  { apply Z.mod_divide; [lia|].
    replace ((Z.of_nat i - Z.of_nat j) * coprime) with ((cur + Z.of_nat i * coprime) - (cur + Z.of_nat j * coprime)) by ring.
    rewrite Zminus_mod, E, Z.sub_diag. apply Z.mod_0_l. lia. }
  rewrite Z.mul_comm in D. apply Gauss in D.
  - destruct D as (q & Hq). assert (q = 0) by nia. lia.
  - apply Zgcd_1_rel_prime. rewrite Z.gcd_comm. exact HG.
Qed.

(** from any start, size steps visit every index exactly once *)
Lemma iter_next_perm coprime size cur : 0 < size < 2 ^ 32 -> 0 <= cur < size -> 0 <= coprime -> size + coprime <= 2 ^ 32 ->
  Z.gcd coprime size = 1 ->
  NoDup (map (fun k => iter_next k coprime size cur) (seq 0 (Z.to_nat size))) /\
  forall x, 0 <= x < size <-> In x (map (fun k => iter_next k coprime size cur) (seq 0 (Z.to_nat size))).
Proof.
  intros Hs Hc Hco Hov HG.
  set (l := map (fun k => iter_next k coprime size cur) (seq 0 (Z.to_nat size))).
  assert (ND : NoDup l).
  { unfold l. assert (G : forall m s, (Z.of_nat (s + m) <= size) -> NoDup (map (fun k => iter_next k coprime size cur) (seq s m))).
    { induction m as [|m IH]; intros s Hm; [constructor|]. cbn [seq map]. constructor.
      - intros Hin. apply in_map_iff in Hin as (k & Ek & Hk). apply in_seq in Hk.
        apply iter_next_inj in Ek; auto; lia.
      - apply IH. lia. }
    apply G. lia. }
  assert (Rng : forall x, In x l -> 0 <= x < size).
  { intros x Hx. apply in_map_iff in Hx as (k & <- & Hk). rewrite iter_next_ok by auto. apply Z.mod_pos_bound. lia. }
  split; [exact ND|]. intros x. split; [|apply Rng]. intros Hx.
  assert (Inc : incl (map Z.of_nat (seq 0 (Z.to_nat size))) l).
  { apply NoDup_length_incl; [exact ND| |].
    - unfold l. rewrite !map_length. lia.
    - intros y Hy. apply Rng in Hy. apply in_map_iff. exists (Z.to_nat y). split; [lia|]. apply in_seq. lia. }
  apply Inc. apply in_map_iff. exists (Z.to_nat x). split; [lia|]. apply in_seq. lia.
Qed.

Lemma victims_from_iter n : forall coprime size prev,
  victims_from n coprime size prev = map (fun k => iter_next (S k) coprime size prev) (seq 0 n).
Proof.
  induction n as [|n IH]; intros coprime size prev; [reflexivity|].
  cbn [victims_from seq map]. f_equal. rewrite IH. rewrite <- seq_shift, map_map. reflexivity.
Qed.

Lemma Worker_victims_ok worker nw : 0 <= worker < nw -> nw <= 64 ->
  exists vs, Worker_victims worker nw = Some (worker :: vs) /\
    length (worker :: vs) = Z.to_nat (Z.min 4 nw) /\
    NoDup (worker :: vs) /\ Forall (fun v => 0 <= v < nw) (worker :: vs).
Proof.
  intros Hw Hn. unfold Worker_victims, kMaxVictims.
  rewrite (wrap_small 32) by lia.
  destruct (FindAnotherCoprime_ok nw ((worker + 1) * 257 + worker * 13)) as (c & -> & HG & Hc & _); [lia|lia|lia|].
  eexists; split; [reflexivity|].
  rewrite victims_from_iter. set (m := Z.to_nat (Z.min 4 nw - 1)).
  assert (E : worker :: map (fun k => iter_next (S k) c nw worker) (seq 0 m)
            = map (fun k => iter_next k c nw worker) (seq 0 (S m))).
  { cbn [seq map iter_next]. f_equal. rewrite <- seq_shift, map_map. reflexivity. }
  rewrite E. split; [rewrite map_length, seq_length; lia|].
  destruct (iter_next_perm c nw worker) as [ND Rng]; try lia.
  assert (Spl : seq 0 (Z.to_nat nw) = seq 0 (S m) ++ seq (S m) (Z.to_nat nw - S m)).
  { replace (Z.to_nat nw) with (S m + (Z.to_nat nw - S m))%nat at 1 by lia. apply seq_app. }
  rewrite Spl, map_app in ND. rewrite Spl, map_app in Rng. split.
  - revert ND. generalize (map (fun k => iter_next k c nw worker) (seq 0 (S m))) as l1.
    intros l1. generalize (map (fun k => iter_next k c nw worker) (seq (S m) (Z.to_nat nw - S m))) as l2.
    intros l2. induction l1 as [|a l1 IH]; intros ND; [constructor|].
    cbn in ND. inversion ND as [|? ? Hnin ND']; subst. constructor; [|apply IH, ND'].
    intros Hin. apply Hnin. apply in_or_app. left; exact Hin.
  - apply Forall_forall. intros x Hx. apply Rng. apply in_or_app. left. exact Hx.
Qed.

(* ------------------------ division of the range ------------------------ *)
Definition rbound (begin q r w : Z) : Z := begin + w * q + Z.min w r.

Lemma Divide_loop_ok n : forall w begin q r, 0 <= w -> 0 <= q -> 0 <= r -> 0 <= begin ->
  rbound begin q r (w + Z.of_nat n) < 2 ^ 64 ->
  Divide_loop n w (rbound begin q r w) q r =
  map (fun k => (rbound begin q r (w + Z.of_nat k), rbound begin q r (w + Z.of_nat k + 1))) (seq 0 n).
Proof.
  induction n as [|n IH]; intros w begin q r Hw Hq Hr Hb Hov; [reflexivity|].
  cbn [Divide_loop seq map].
  assert (E : wrap 64 (rbound begin q r w + q + (if w <? r then 1 else 0)) = rbound begin q r (w + 1)).
  { unfold rbound in *. rewrite wrap_small; destruct (Z.ltb_spec w r); nia. }
  rewrite E. f_equal; [rewrite Z.add_0_r; reflexivity|].
  rewrite IH; [|lia|lia|lia|lia|].
  - rewrite <- seq_shift, map_map. apply map_ext. intros k. f_equal; f_equal; lia.
  - replace (w + 1 + Z.of_nat n) with (w + Z.of_nat (S n)) by lia. exact Hov.
Qed.

Lemma Divide_ok begin end_ nw : 0 <= begin <= end_ -> end_ < 2 ^ 64 -> 0 < nw ->
  let q := (end_ - begin) / nw in let r := (end_ - begin) mod nw in
  DivideRangeAmongWorkers begin end_ nw =
    map (fun k => (rbound begin q r (Z.of_nat k), rbound begin q r (Z.of_nat k + 1))) (seq 0 (Z.to_nat nw)) /\
  rbound begin q r 0 = begin /\ rbound begin q r nw = end_.
Proof.
  intros Hb He Hn q r. unfold DivideRangeAmongWorkers. rewrite (wrap_small 64 (end_ - begin)) by lia.
  fold q r.
  pose proof (Z.div_mod (end_ - begin) nw ltac:(lia)) as DM. pose proof (Z.mod_pos_bound (end_ - begin) nw ltac:(lia)) as MB.
  fold q r in DM, MB.
  assert (Hq : 0 <= q) by (apply Z.div_pos; lia).
  assert (E0 : rbound begin q r 0 = begin) by (unfold rbound; rewrite Z.min_l by lia; lia).
  assert (En : rbound begin q r nw = end_) by (unfold rbound; rewrite Z.min_r by lia; nia).
  split; [|auto]. rewrite <- E0 at 1. rewrite Divide_loop_ok; try lia.
  - apply map_ext. intros k. f_equal; f_equal; lia.
  - rewrite Z2Nat.id by lia. rewrite Z.add_0_l. lia.
Qed.

Lemma Divide_spec begin end_ nw : 0 <= begin <= end_ -> end_ < 2 ^ 64 -> 0 < nw ->
  exists bound : Z -> Z,
    bound 0 = begin /\ bound nw = end_ /\
    (forall w, 0 <= w < nw -> bound w <= bound (w + 1)) /\
    (forall w w', 0 <= w < nw -> 0 <= w' < nw -> Z.abs ((bound (w + 1) - bound w) - (bound (w' + 1) - bound w')) <= 1) /\
    DivideRangeAmongWorkers begin end_ nw = map (fun k => (bound (Z.of_nat k), bound (Z.of_nat k + 1))) (seq 0 (Z.to_nat nw)).
Proof.
  intros Hb He Hn. destruct (Divide_ok begin end_ nw Hb He Hn) as (E & E0 & En).
  set (q := (end_ - begin) / nw) in *. set (r := (end_ - begin) mod nw) in *.
  assert (Hq : 0 <= q) by (apply Z.div_pos; lia).
  exists (rbound begin q r). split; [exact E0|]. split; [exact En|]. split; [|split; [|exact E]].
  - intros w Hw. unfold rbound. nia.
  - intros w w' Hw Hw'. unfold rbound. nia.
Qed.

