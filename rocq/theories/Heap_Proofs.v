From Coq Require Import ZArith List Lia Bool Permutation FinFun.
From Verif Require Import Word Word_Proofs Vec_Model Vec_Proofs Tune_Proofs Heap_Model Sort_Spec.
Import ListNotations.
Local Open Scope Z_scope.

Section G.
Context {K : Type} (dk : K).
Definition g (l : list K) (i : Z) : K := nth (Z.to_nat i) l dk.
Lemma rd_g (l : list K) i : 0 <= i < zlen l -> rd l i = Some (g l i).
Proof. intros H. unfold rd, g. destruct (Z.ltb_spec i 0); [lia|]. apply nth_error_nth'. unfold zlen in H. lia. Qed.
Lemma g_rd (l : list K) i x : rd l i = Some x -> g l i = x.
Proof. unfold rd, g. destruct (i <? 0); [discriminate|]. intros H. now apply nth_error_nth. Qed.
Lemma g_ext (l l' : list K) : zlen l = zlen l' -> (forall i, 0 <= i < zlen l -> g l i = g l' i) -> l = l'.
Proof.
  intros HL H. apply (nth_ext _ _ dk dk); [unfold zlen in HL; lia|]. intros n Hn. specialize (H (Z.of_nat n) ltac:(unfold zlen; lia)). unfold g in H. now rewrite Nat2Z.id in H.
Qed.

Lemma swap_perm (l l' : list K) i j : zlen l' = zlen l -> 0 <= i < zlen l -> 0 <= j < zlen l ->
  (forall k, 0 <= k < zlen l -> g l' k = if k =? i then g l j else if k =? j then g l i else g l k) -> Permutation l l'.
Proof.
  intros HL Hi Hj H. apply (Permutation_nth _ _ dk). split; [unfold zlen in HL; lia|].
  set (i' := Z.to_nat i). set (j' := Z.to_nat j).
  exists (fun n => if Nat.eqb n i' then j' else if Nat.eqb n j' then i' else n). unfold zlen in *. split; [|split].
  - intros n Hn. destruct (Nat.eqb_spec n i'); [unfold j'; lia|]. destruct (Nat.eqb_spec n j'); [unfold i'; lia|lia].
  - intros x y Hx Hy. destruct (Nat.eqb_spec x i'); destruct (Nat.eqb_spec y i'); destruct (Nat.eqb_spec x j'); destruct (Nat.eqb_spec y j'); subst; try lia; intros; subst; try lia.
  - intros n Hn. specialize (H (Z.of_nat n) ltac:(lia)). unfold g in H. rewrite Nat2Z.id in H. rewrite H.
    destruct (Z.eqb_spec (Z.of_nat n) i); destruct (Nat.eqb_spec n i'); try (unfold i' in *; lia); [reflexivity|].
    destruct (Z.eqb_spec (Z.of_nat n) j); destruct (Nat.eqb_spec n j'); try (unfold j' in *; lia); reflexivity.
Qed.

Lemma perm_prefix (l l' : list K) i (P : K -> Prop) : Permutation l l' -> 0 <= i -> (forall k, i <= k < zlen l -> g l' k = g l k) ->
  (forall k, 0 <= k < i -> k < zlen l -> P (g l k)) -> forall k, 0 <= k < i -> k < zlen l -> P (g l' k).
Proof.
  intros HP Hi HE H k Hk1 Hk2. pose proof (Permutation_length HP) as HL.
  assert (ES : skipn (Z.to_nat i) l' = skipn (Z.to_nat i) l).
  { apply (nth_ext _ _ dk dk); [rewrite !skipn_length; lia|]. intros n Hn. rewrite skipn_length in Hn. specialize (HE (i + Z.of_nat n) ltac:(unfold zlen; lia)).
    unfold g in HE. replace (Z.to_nat (i + Z.of_nat n)) with (Z.to_nat i + n)%nat in HE by lia.
    rewrite <- (firstn_skipn (Z.to_nat i) l) in HE at 1. rewrite <- (firstn_skipn (Z.to_nat i) l') in HE at 1.
    rewrite !app_nth2 in HE by (rewrite firstn_length; lia). rewrite !firstn_length in HE.
    replace (Z.to_nat i + n - Nat.min (Z.to_nat i) (length l'))%nat with n in HE by lia. replace (Z.to_nat i + n - Nat.min (Z.to_nat i) (length l))%nat with n in HE by lia. exact HE. }
  assert (PF : Permutation (firstn (Z.to_nat i) l) (firstn (Z.to_nat i) l')).
  { apply (Permutation_app_inv_r (skipn (Z.to_nat i) l)). rewrite firstn_skipn. rewrite <- ES, firstn_skipn. exact HP. }
  assert (IN : In (g l' k) (firstn (Z.to_nat i) l')).
  { unfold g. rewrite <- (firstn_skipn (Z.to_nat i) l') at 1. rewrite app_nth1 by (rewrite firstn_length; unfold zlen in *; lia). apply nth_In. rewrite firstn_length. unfold zlen in *. lia. }
  apply (Permutation_in _ (Permutation_sym PF)) in IN. apply (In_nth _ _ dk) in IN. destruct IN as (n & Hn & E). rewrite firstn_length in Hn.
  rewrite <- E. specialize (H (Z.of_nat n) ltac:(lia) ltac:(unfold zlen; lia)). unfold g in H. rewrite Nat2Z.id in H.
  rewrite <- (firstn_skipn (Z.to_nat i) l) in H. rewrite app_nth1 in H by (rewrite firstn_length; lia). exact H.
Qed.
End G.

Section Heap.
Context {K : Type} (dk : K) (lt : K -> K -> bool) (N1 : Z).
Hypothesis SW : strict_weak lt.
Hypothesis HN1 : 1 <= N1.
Notation g := (g dk).
Let irrefl : forall a, lt a a = false := proj1 SW.
Let trans : forall a b c, lt a b = true -> lt b c = true -> lt a c = true := proj1 (proj2 SW).
Let ntrans : forall a b c, lt a b = false -> lt b c = false -> lt a c = false := proj2 (proj2 SW).
Lemma lt_asym a b : lt a b = true -> lt b a = false.
Proof. intros H. destruct (lt b a) eqn:E; [|reflexivity]. pose proof (trans a b a H E) as X. pose proof (irrefl a) as Y. congruence. Qed.

Lemma key_at_ok (l : list K) j : 0 <= j < zlen l -> key_at N1 l (N1 * j) = Some (g l j).
Proof. intros H. unfold key_at. rewrite (Z.mul_comm N1 j), Z.mod_mul by lia. rewrite Z.eqb_refl, Z.div_mul by lia. now apply rd_g. Qed.
Lemma key_at0 (l : list K) : 0 < zlen l -> key_at N1 l 0 = Some (g l 0).
Proof. intros H. rewrite <- (key_at_ok l 0) by lia. now rewrite Z.mul_0_r. Qed.
Lemma key_swap_ok (l : list K) i j : 0 <= i < zlen l -> 0 <= j < zlen l ->
  exists l', key_swap N1 l (N1 * i) (N1 * j) = Some l' /\ zlen l' = zlen l /\ Permutation l l' /\
  forall k, 0 <= k < zlen l -> g l' k = if k =? i then g l j else if k =? j then g l i else g l k.
Proof.
  intros Hi Hj. unfold key_swap. rewrite !key_at_ok by assumption. rewrite !(Z.mul_comm N1), !Z.div_mul by lia.
  destruct (wr_some l i (g l j) Hi) as (l1 & E1 & L1 & R1). rewrite E1. destruct (wr_some l1 j (g l i) ltac:(lia)) as (l2 & E2 & L2 & R2).
  exists l2. split; [exact E2|]. split; [lia|].
  assert (G : forall k, 0 <= k < zlen l -> g l2 k = if k =? i then g l j else if k =? j then g l i else g l k).
  { intros k Hk. apply g_rd. rewrite R2, R1. destruct (Z.eqb_spec k j); destruct (Z.eqb_spec k i); subst; try reflexivity. now rewrite (rd_g dk) by lia. }
  split; [|exact G]. apply (swap_perm dk l l2 i j); auto; lia.
Qed.

Definition par (j : Z) : Z := (j - 1) / 2.
Definition hp (s n : Z) (l : list K) : Prop := forall j, 0 < j < n -> s <= par j -> lt (g l (par j)) (g l j) = false.

Lemma par_cases j p : 0 < j -> par j = p -> j = 2 * p + 1 \/ j = 2 * p + 2.
Proof. unfold par. intros. Z.div_mod_to_equations. lia. Qed.
Lemma par_l p : par (2 * p + 1) = p. Proof. unfold par. Z.div_mod_to_equations. lia. Qed.
Lemma par_r p : par (2 * p + 2) = p. Proof. unfold par. Z.div_mod_to_equations. lia. Qed.
Lemma par_lt j : 0 < j -> 0 <= par j < j. Proof. unfold par. intros. Z.div_mod_to_equations. lia. Qed.

Lemma sift_ok (s n : Z) : 0 <= s -> N1 * (n + 1) < 2 ^ 62 -> forall fuel (l : list K) p, s <= p < n -> n <= zlen l -> n - p < Z.of_nat fuel ->
  (forall j, 0 < j < n -> s <= par j -> par j <> p -> lt (g l (par j)) (g l j) = false) ->
  (forall j, 0 < j < n -> par j = p -> 0 < p -> s <= par p -> lt (g l (par p)) (g l j) = false) ->
  exists l', sift_down lt N1 fuel l (N1 * n) (N1 * p) = Some l' /\ zlen l' = zlen l /\ Permutation l l' /\ hp s n l' /\
  forall k, 0 <= k < zlen l -> (k < p \/ n <= k) -> g l' k = g l k.
Proof.
  intros Hs HB. induction fuel as [|f IH]; intros l p Hp HL HF I1 I2; [lia|].
  cbn [sift_down]. destruct (Z.ltb_spec (N1 * p) (N1 * n)); [|nia].
  rewrite (wrap_small 64 (2 * (N1 * p) + N1)) by nia. rewrite (wrap_small 64 (2 * (N1 * p) + 2 * N1)) by nia.
  replace (2 * (N1 * p) + N1) with (N1 * (2 * p + 1)) by lia. replace (2 * (N1 * p) + 2 * N1) with (N1 * (2 * p + 2)) by lia.
  destruct (Z.leb_spec (N1 * n) (N1 * (2 * p + 1))) as [Hno|Hleft].
  { exists l. split; [reflexivity|]. split; [reflexivity|]. split; [apply Permutation_refl|]. split; [|auto].
    intros j Hj Hpj. apply I1; auto. intros E. assert (n <= 2 * p + 1) by nia. destruct (par_cases j p ltac:(lia) E); lia. }
  assert (HLn : 2 * p + 1 < n) by nia.
  rewrite (key_at_ok l p) by lia. rewrite (key_at_ok l (2 * p + 1)) by lia.
  set (c1 := if lt (g l p) (g l (2 * p + 1)) then 2 * p + 1 else p).
  assert (E1 : (if lt (g l p) (g l (2 * p + 1)) then N1 * (2 * p + 1) else N1 * p) = N1 * c1) by (unfold c1; destruct (lt _ _); reflexivity).
  rewrite E1.
  set (c2 := if 2 * p + 2 <? n then (if lt (g l c1) (g l (2 * p + 2)) then 2 * p + 2 else c1) else c1).
  assert (C1 : p <= c1 < n) by (unfold c1; destruct (lt _ _); lia).
  assert (E2 : (if N1 * (2 * p + 2) <? N1 * n
        then match key_at N1 l (N1 * c1) with
             | Some a => match key_at N1 l (N1 * (2 * p + 2)) with Some b => Some (if lt a b then N1 * (2 * p + 2) else N1 * c1) | None => None end
             | None => None end else Some (N1 * c1)) = Some (N1 * c2)).
  { unfold c2. destruct (Z.ltb_spec (2 * p + 2) n).
    - destruct (Z.ltb_spec (N1 * (2 * p + 2)) (N1 * n)); [|nia]. rewrite !key_at_ok by lia. destruct (lt (g l c1) (g l (2 * p + 2))); reflexivity.
    - destruct (Z.ltb_spec (N1 * (2 * p + 2)) (N1 * n)); [nia|reflexivity]. }
  rewrite E2. clear E1 E2.
  assert (C2 : (c2 = p \/ par c2 = p) /\ p <= c2 < n /\ forall j, 0 < j < n -> par j = p -> lt (g l c2) (g l j) = false).
  { assert (HC1 : lt (g l c1) (g l (2 * p + 1)) = false /\ lt (g l c1) (g l p) = false).
    { unfold c1. destruct (lt (g l p) (g l (2 * p + 1))) eqn:E; [split; [apply irrefl|now apply lt_asym]|split; [exact E|apply irrefl]]. }
    unfold c2. destruct (Z.ltb_spec (2 * p + 2) n) as [Hr|Hr].
    - destruct (lt (g l c1) (g l (2 * p + 2))) eqn:E.
      + split; [right; apply par_r|]. split; [lia|]. intros j Hj Ej. destruct (par_cases j p ltac:(lia) Ej) as [-> | ->]; [|apply irrefl].
        eapply ntrans; [apply lt_asym; exact E|]. apply HC1.
      + split; [unfold c1; destruct (lt (g l p) _); [right; apply par_l|left; reflexivity]|]. split; [lia|].
        intros j Hj Ej. destruct (par_cases j p ltac:(lia) Ej) as [-> | ->]; [apply HC1|exact E].
    - split; [unfold c1; destruct (lt (g l p) _); [right; apply par_l|left; reflexivity]|]. split; [lia|].
      intros j Hj Ej. destruct (par_cases j p ltac:(lia) Ej) as [-> | ->]; [apply HC1|lia]. }
  assert (CP : c2 = p -> forall j, 0 < j < n -> par j = p -> lt (g l p) (g l j) = false) by (intros EQ j Hj1 Hj2; rewrite <- EQ at 1; now apply C2).
  assert (CM : c2 <> p -> lt (g l p) (g l c2) = true).
  { intros NE. unfold c2, c1 in *. destruct (lt (g l p) (g l (2 * p + 1))) eqn:EL.
    - destruct (Z.ltb_spec (2 * p + 2) n); [|exact EL]. destruct (lt (g l (2 * p + 1)) (g l (2 * p + 2))) eqn:ER; [|exact EL]. eapply trans; eauto.
    - destruct (Z.ltb_spec (2 * p + 2) n); [|congruence]. destruct (lt (g l p) (g l (2 * p + 2))) eqn:ER; [exact ER|congruence]. }
  destruct C2 as (CA & CB & CC). clearbody c2. clear c1 C1.
  destruct (Z.eqb_spec (N1 * c2) (N1 * p)) as [EQ|NE].
  { assert (c2 = p) by nia. exists l. split; [reflexivity|]. split; [reflexivity|]. split; [apply Permutation_refl|]. split; [|auto].
    intros j Hj Hpj. destruct (Z.eq_dec (par j) p) as [Ej|Nj]; [rewrite Ej; apply CP; auto|apply I1; auto]. }
  assert (NC : c2 <> p) by (intros ->; lia). destruct CA as [|CA]; [contradiction|]. specialize (CM NC).
  destruct (key_swap_ok l p c2) as (l1 & E1 & L1 & P1 & G1); [lia|lia|]. rewrite E1.
  assert (PP : par p < p \/ p = 0) by (destruct (Z.eq_dec p 0); [auto|left; apply par_lt; lia]).
  destruct (IH l1 c2) as (l2 & E2 & L2 & P2 & H2 & U2); try lia.
  - (* I1 *) intros j Hj Hpj Nj. pose proof (par_lt j ltac:(lia)). rewrite !G1 by lia.
    destruct (Z.eqb_spec (par j) p) as [Ej|Nj2].
    + (* child of p: new value at p is g l c2 *)
      destruct (Z.eqb_spec j p); [lia|]. destruct (Z.eqb_spec j c2) as [->|Nc]; [apply lt_asym; exact CM|apply CC; auto].
    + destruct (Z.eqb_spec (par j) c2); [contradiction|]. destruct (Z.eqb_spec j p) as [->|Np].
      * (* j = p, parent above *) apply I2; auto; lia.
      * destruct (Z.eqb_spec j c2) as [->|]; [contradiction|]. apply I1; auto.
  - (* I2 *) intros j Hj Ej Hc Hpc. rewrite CA. pose proof (par_lt j ltac:(lia)). rewrite !G1 by lia. rewrite Z.eqb_refl.
    destruct (Z.eqb_spec j p); [lia|]. destruct (Z.eqb_spec j c2); [lia|]. rewrite <- Ej. apply I1; auto; lia.
  - exists l2. split; [exact E2|]. split; [lia|]. split; [eapply Permutation_trans; eassumption|]. split; [exact H2|].
    intros k Hk Hc. rewrite U2 by lia. rewrite G1 by lia. destruct (Z.eqb_spec k p); [lia|]. destruct (Z.eqb_spec k c2); [lia|]. reflexivity.
Qed.

Lemma hp_root n (l : list K) : hp 0 n l -> forall j, 0 <= j < n -> lt (g l 0) (g l j) = false.
Proof.
  intros H. intros j Hj. destruct Hj as (Hj0 & Hjn). revert j Hj0 Hjn. apply (Zlt_0_ind (fun j => j < n -> lt (g l 0) (g l j) = false)).
  intros j IH Hj0 Hjn. destruct (Z.eq_dec j 0) as [->|NE]; [apply irrefl|]. pose proof (par_lt j ltac:(lia)). apply (ntrans _ (g l (par j))); [apply IH; lia|]. apply H; lia.
Qed.

Lemma build_ok n : 1 <= n -> N1 * (n + 1) < 2 ^ 62 -> forall (m : nat) fuel (l : list K), Z.of_nat m <= n -> n <= zlen l -> Z.of_nat m + n + 1 < Z.of_nat fuel -> hp (Z.of_nat m) n l ->
  exists l', build_heap lt N1 fuel l (N1 * n) (wrap 64 (N1 * (Z.of_nat m - 1))) = Some l' /\ zlen l' = zlen l /\ Permutation l l' /\ hp 0 n l' /\ forall k, n <= k < zlen l -> g l' k = g l k.
Proof.
  intros Hn HB. induction m as [|m IH]; intros fuel l Hm HL HF HH; (destruct fuel as [|f]; [lia|]); cbn [build_heap].
  - replace (N1 * (Z.of_nat 0 - 1)) with (- N1) by lia. rewrite Z.eqb_refl. exists l. split; [reflexivity|]. split; [reflexivity|]. split; [apply Permutation_refl|]. split; [exact HH|auto].
  - replace (Z.of_nat (S m) - 1) with (Z.of_nat m) by lia. rewrite (wrap_small 64 (N1 * Z.of_nat m)) by nia.
    destruct (Z.eqb_spec (N1 * Z.of_nat m) (wrap 64 (- N1))) as [E|_].
    { exfalso. unfold wrap in E. replace (- N1) with ((2 ^ 64 - N1) + (-1) * 2 ^ 64) in E by lia. rewrite Z.mod_add in E by lia. rewrite Z.mod_small in E by nia. nia. }
    destruct (sift_ok (Z.of_nat m) n ltac:(lia) HB (S f) l (Z.of_nat m)) as (l1 & E1 & L1 & P1 & H1 & U1); try lia.
    + intros j Hj Hpj Nj. apply HH; lia.
    + intros j Hj Ej H0 Hpp. pose proof (par_lt (Z.of_nat m) ltac:(lia)). lia.
    + rewrite E1. replace (wrap 64 (N1 * Z.of_nat m - N1)) with (wrap 64 (N1 * (Z.of_nat m - 1))) by (f_equal; lia).
      destruct (IH f l1) as (l2 & E2 & L2 & P2 & H2 & U2); try lia; [exact H1|].
      exists l2. split; [exact E2|]. split; [lia|]. split; [eapply Permutation_trans; eassumption|]. split; [exact H2|]. intros k Hk. rewrite U2, U1 by lia. reflexivity.
Qed.
Lemma hp_half n (l : list K) : hp ((n - 1) / 2 + 1) n l.
Proof. intros j Hj Hp. unfold par in Hp. exfalso. Z.div_mod_to_equations. lia. Qed.
Lemma build_full n fuel (l : list K) : 1 <= n <= zlen l -> N1 * (n + 1) < 2 ^ 62 -> 2 * n + 2 < Z.of_nat fuel ->
  exists l', build_heap lt N1 fuel l (N1 * n) (wrap 64 (wrap 64 (N1 * n - N1) / N1 / 2 * N1)) = Some l' /\ zlen l' = zlen l /\ Permutation l l' /\ hp 0 n l' /\ forall k, n <= k < zlen l -> g l' k = g l k.
Proof.
  intros Hn HB HF. rewrite (wrap_small 64 (N1 * n - N1)) by nia. replace (N1 * n - N1) with ((n - 1) * N1) by lia. rewrite Z.div_mul by lia.
  assert (0 <= (n - 1) / 2 < n) by (Z.div_mod_to_equations; lia).
  replace ((n - 1) / 2 * N1) with (N1 * (Z.of_nat (Z.to_nat ((n - 1) / 2 + 1)) - 1)) by lia.
  apply build_ok; try lia. rewrite Z2Nat.id by lia. apply hp_half.
Qed.

Lemma extract_ok n : N1 * (n + 1) < 2 ^ 62 -> forall (m : nat) fuel (l : list K), Z.of_nat m < n -> n <= zlen l -> 2 * Z.of_nat m + 1 < Z.of_nat fuel -> hp 0 (Z.of_nat m + 1) l ->
  (forall a b, 0 <= a < b -> Z.of_nat m < b < n -> lt (g l b) (g l a) = false) ->
  exists l', extract_loop lt N1 fuel l (N1 * Z.of_nat m) = Some l' /\ zlen l' = zlen l /\ Permutation l l' /\
    (forall a b, 0 <= a < b -> b < n -> lt (g l' b) (g l' a) = false) /\ forall k, n <= k < zlen l -> g l' k = g l k.
Proof.
  intros HB. induction m as [|m IH]; intros fuel l Hm HL HF HH HS; (destruct fuel as [|f]; [lia|]); cbn [extract_loop].
  - destruct (Z.eqb_spec (N1 * Z.of_nat 0) 0); [|lia]. exists l. split; [reflexivity|]. split; [reflexivity|]. split; [apply Permutation_refl|]. split; [|auto]. intros a b H1 H2. apply HS; lia.
  - destruct (Z.eqb_spec (N1 * Z.of_nat (S m)) 0); [nia|]. set (i := Z.of_nat (S m)) in *.
    destruct (key_swap_ok l 0 i) as (l1 & E1 & L1 & P1 & G1); [lia|lia|]. rewrite Z.mul_0_r in E1. rewrite E1.
    destruct (sift_ok 0 i ltac:(lia) ltac:(nia) (S f) l1 0) as (l2 & E2 & L2 & P2 & H2 & U2); try lia.
    + intros j Hj Hpj Nj. pose proof (par_lt j ltac:(lia)). rewrite !G1 by lia. destruct (Z.eqb_spec (par j) 0); [lia|]. destruct (Z.eqb_spec (par j) i); [lia|]. destruct (Z.eqb_spec j 0); [lia|]. destruct (Z.eqb_spec j i); [lia|]. apply HH; lia.
    + rewrite Z.mul_0_r in E2. rewrite E2. rewrite (wrap_small 64 (N1 * i - N1)) by nia. replace (N1 * i - N1) with (N1 * Z.of_nat m) by lia.
      (* the i smallest are all <= the old root, now at i *)
      assert (TOP : forall k, 0 <= k < i -> k < zlen l1 -> lt (g l2 i) (g l2 k) = false).
      { apply (perm_prefix dk l1 l2 i (fun x => lt (g l2 i) x = false)); auto; try lia; [intros k Hk; apply U2; lia|].
        intros k Hk Hk2. rewrite U2 by lia. rewrite !G1 by lia. destruct (Z.eqb_spec i 0); [lia|]. rewrite Z.eqb_refl.
        destruct (Z.eqb_spec k 0); [apply hp_root with (n := i + 1); [exact HH|lia]|]. destruct (Z.eqb_spec k i); [lia|]. apply hp_root with (n := i + 1); [exact HH|lia]. }
      destruct (IH f l2) as (l3 & E3 & L3 & P3 & S3 & U3); try lia.
      * replace (Z.of_nat m + 1) with i by lia. exact H2.
      * intros a b Hab Hb. destruct (Z.eq_dec b i) as [->|Nb]; [apply TOP; lia|].
        rewrite (U2 b) by lia. assert (EB : g l1 b = g l b). { rewrite G1 by lia. destruct (Z.eqb_spec b 0); [lia|]. destruct (Z.eqb_spec b i); [lia|reflexivity]. }
        rewrite EB. destruct (Z_lt_ge_dec a i) as [Ha|Ha].
        -- revert a Hab Ha. assert (X : forall k, 0 <= k < i -> k < zlen l1 -> lt (g l b) (g l2 k) = false); [|intros; apply X; lia].
           apply (perm_prefix dk l1 l2 i (fun x => lt (g l b) x = false)); auto; try lia; [intros k Hk; apply U2; lia|].
           intros k Hk Hk2. rewrite G1 by lia. destruct (Z.eqb_spec k 0); [apply HS; lia|]. destruct (Z.eqb_spec k i); [lia|]. apply HS; lia.
        -- rewrite U2 by lia. rewrite G1 by lia. destruct (Z.eqb_spec a 0); [lia|]. destruct (Z.eqb_spec a i); apply HS; lia.
      * exists l3. split; [exact E3|]. split; [lia|]. split; [eapply Permutation_trans; [exact P1|]; eapply Permutation_trans; eassumption|]. split; [exact S3|].
        intros k Hk. rewrite U3, U2, G1 by lia. destruct (Z.eqb_spec k 0); [lia|]. destruct (Z.eqb_spec k i); [lia|reflexivity].
Qed.

Lemma heap_sort_ok n fuel (l : list K) : 1 <= n <= zlen l -> N1 * (n + 1) < 2 ^ 62 -> 2 * n + 2 < Z.of_nat fuel ->
  exists l', heap_sort lt N1 fuel l (N1 * n) = Some l' /\ zlen l' = zlen l /\ Permutation l l' /\
    (forall a b, 0 <= a < b -> b < n -> lt (g l' b) (g l' a) = false) /\ forall k, n <= k < zlen l -> g l' k = g l k.
Proof.
  intros Hn HB HF. unfold heap_sort. destruct (Z.eqb_spec (N1 * n) N1) as [E|NE].
  - assert (n = 1) by nia. exists l. split; [reflexivity|]. split; [reflexivity|]. split; [apply Permutation_refl|]. split; [lia|auto].
  - destruct (build_full n fuel l Hn HB HF) as (l1 & E1 & L1 & P1 & H1 & U1). rewrite E1.
    rewrite (wrap_small 64 (N1 * n - N1)) by nia. replace (N1 * n - N1) with (N1 * Z.of_nat (Z.to_nat (n - 1))) by (rewrite Z2Nat.id by lia; lia).
    destruct (extract_ok n HB (Z.to_nat (n - 1)) fuel l1) as (l2 & E2 & L2 & P2 & S2 & U2); try lia; [rewrite Z2Nat.id by lia; replace (n - 1 + 1) with n by lia; exact H1|].
    exists l2. split; [exact E2|]. split; [lia|]. split; [eapply Permutation_trans; eassumption|]. split; [exact S2|]. intros k Hk. rewrite U2, U1 by lia. reflexivity.
Qed.

(** select: k keys indices; heap over the first k+1 *)
Lemma select_loop_ok n k : 0 <= k < n -> N1 * (n + 1) < 2 ^ 62 -> forall (m : nat) fuel (l : list K) i, i = n - Z.of_nat m -> k + 1 <= i <= n -> n <= zlen l -> Z.of_nat m + n + 2 < Z.of_nat fuel -> hp 0 (k + 1) l ->
  (forall b, k + 1 <= b < i -> lt (g l b) (g l 0) = false) ->
  exists l', select_loop lt N1 fuel l (N1 * n) (N1 * (k + 1)) (N1 * i) = Some l' /\ zlen l' = zlen l /\ Permutation l l' /\ hp 0 (k + 1) l' /\
    (forall b, k + 1 <= b < n -> lt (g l' b) (g l' 0) = false) /\ forall j, n <= j < zlen l -> g l' j = g l j.
Proof.
  intros Hk HB. induction m as [|m IH]; intros fuel l i Ei Hi HL HF HH HS; (destruct fuel as [|f]; [lia|]); cbn [select_loop]; rewrite (wrap_small 64 (N1 * n - N1)) by nia.
  - destruct (Z.leb_spec (N1 * i) (N1 * n - N1)); [nia|]. exists l. split; [reflexivity|]. split; [reflexivity|]. split; [apply Permutation_refl|]. split; [exact HH|]. split; [|auto]. intros b Hb. apply HS; lia.
  - destruct (Z.leb_spec (N1 * i) (N1 * n - N1)) as [Hle|]; [|nia]. rewrite (key_at_ok l i) by lia. rewrite (key_at0 l) by lia.
    rewrite (wrap_small 64 (N1 * i + N1)) by nia. replace (N1 * i + N1) with (N1 * (i + 1)) by lia.
    destruct (lt (g l i) (g l 0)) eqn:EL.
    + destruct (key_swap_ok l 0 i) as (l1 & E1 & L1 & P1 & G1); [lia|lia|]. rewrite Z.mul_0_r in E1. rewrite E1.
      destruct (sift_ok 0 (k + 1) ltac:(lia) ltac:(nia) (S f) l1 0) as (l2 & E2 & L2 & P2 & H2 & U2); try lia.
      * intros j Hj Hpj Nj. pose proof (par_lt j ltac:(lia)). rewrite !G1 by lia. destruct (Z.eqb_spec (par j) 0); [lia|]. destruct (Z.eqb_spec (par j) i); [lia|]. destruct (Z.eqb_spec j 0); [lia|]. destruct (Z.eqb_spec j i); [lia|]. apply HH; lia.
      * rewrite Z.mul_0_r in E2. rewrite E2.
        (* new root <= old root *)
        assert (NR : lt (g l 0) (g l2 0) = false).
        { assert (X : forall j, 0 <= j < k + 1 -> j < zlen l1 -> lt (g l 0) (g l2 j) = false); [|apply X; lia].
          apply (perm_prefix dk l1 l2 (k + 1) (fun x => lt (g l 0) x = false)); auto; try lia; [intros j Hj; apply U2; lia|].
          intros j Hj Hj2. rewrite G1 by lia. destruct (Z.eqb_spec j 0); [now apply lt_asym|]. destruct (Z.eqb_spec j i); [lia|]. apply hp_root with (n := k + 1); [exact HH|lia]. }
        destruct (IH f l2 (i + 1)) as (l3 & E3 & L3 & P3 & H3 & S3 & U3); try lia; [exact H2| |].
        -- intros b Hb. rewrite (U2 b) by lia. rewrite G1 by lia. destruct (Z.eqb_spec b 0); [lia|]. destruct (Z.eqb_spec b i); [exact NR|]. eapply ntrans; [apply HS; lia|exact NR].
        -- exists l3. split; [exact E3|]. split; [lia|]. split; [eapply Permutation_trans; [exact P1|]; eapply Permutation_trans; eassumption|]. split; [exact H3|]. split; [exact S3|].
           intros j Hj. rewrite U3, U2, G1 by lia. destruct (Z.eqb_spec j 0); [lia|]. destruct (Z.eqb_spec j i); [lia|reflexivity].
    + destruct (IH f l (i + 1)) as (l3 & E3 & L3 & P3 & H3 & S3 & U3); try lia; [exact HH| |].
      * intros b Hb. destruct (Z.eq_dec b i) as [->|]; [exact EL|apply HS; lia].
      * exists l3. repeat split; auto.
Qed.

Lemma heap_select_ok n k fuel (l : list K) : 0 <= k < n -> n <= zlen l -> N1 * (n + 1) < 2 ^ 62 -> 2 * n + 2 < Z.of_nat fuel ->
  exists l', heap_select lt N1 fuel l (N1 * n) (N1 * k) = Some l' /\ zlen l' = zlen l /\ Permutation l l' /\
    (forall a, 0 <= a < k -> lt (g l' k) (g l' a) = false) /\ (forall b, k < b < n -> lt (g l' b) (g l' k) = false) /\ forall j, n <= j < zlen l -> g l' j = g l j.
Proof.
  intros Hk HL HB HF. unfold heap_select. rewrite (wrap_small 64 (N1 * k + N1)) by nia. replace (N1 * k + N1) with (N1 * (k + 1)) by lia.
  destruct (Z.eqb_spec (N1 * n) N1) as [E|NE].
  - assert (n = 1) by nia. exists l. split; [reflexivity|]. split; [reflexivity|]. split; [apply Permutation_refl|]. split; [lia|]. split; [lia|auto].
  - destruct (build_full (k + 1) fuel l ltac:(lia) ltac:(nia) ltac:(lia)) as (l1 & E1 & L1 & P1 & H1 & U1). rewrite E1.
    destruct (select_loop_ok n k Hk HB (Z.to_nat (n - (k + 1))) fuel l1 (k + 1)) as (l2 & E2 & L2 & P2 & H2 & S2 & U2); try lia; [exact H1|]. rewrite E2.
    rewrite (wrap_small 64 (N1 * (k + 1) - N1)) by nia. replace (N1 * (k + 1) - N1) with (N1 * k) by lia.
    destruct (key_swap_ok l2 0 k) as (l3 & E3 & L3 & P3 & G3); [lia|lia|]. rewrite Z.mul_0_r in E3. exists l3. split; [exact E3|]. split; [lia|].
    split; [eapply Permutation_trans; [exact P1|]; eapply Permutation_trans; eassumption|].
    assert (GK : g l3 k = g l2 0). { rewrite G3 by lia. destruct (Z.eqb_spec k 0) as [->|]; [reflexivity|]. now rewrite Z.eqb_refl. }
    rewrite GK. split; [|split].
    + intros a Ha. rewrite G3 by lia. destruct (Z.eqb_spec a 0); [apply hp_root with (n := k + 1); [exact H2|lia]|]. destruct (Z.eqb_spec a k); [lia|]. apply hp_root with (n := k + 1); [exact H2|lia].
    + intros b Hb. rewrite G3 by lia. destruct (Z.eqb_spec b 0); [lia|]. destruct (Z.eqb_spec b k); [lia|]. apply S2; lia.
    + intros j Hj. rewrite G3 by lia. destruct (Z.eqb_spec j 0); [lia|]. destruct (Z.eqb_spec j k); [lia|]. rewrite U2, U1 by lia. reflexivity.
Qed.
End Heap.
