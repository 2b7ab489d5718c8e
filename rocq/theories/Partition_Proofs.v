From Coq Require Import ZArith List Lia Bool Permutation.
From Verif Require Import Word Word_Proofs Vec_Model Vec_Proofs Partition_Model.
Import ListNotations.
Local Open Scope Z_scope.

Ltac ll := unfold zlen in *; repeat rewrite app_length in *; cbn [length] in *; lia.

Lemma perm_front {A} (y x t t' : list A) : Permutation t (x ++ t') -> Permutation (y ++ t) (x ++ y ++ t').
Proof. intros ->. apply Permutation_app_swap_app. Qed.
Lemma perm_use {A} (x l r r' : list A) : Permutation r (x ++ r') -> Permutation l r' -> Permutation (x ++ l) r.
Proof. intros -> ->. reflexivity. Qed.
Lemma perm_nil {A} (l r : list A) : Permutation (l ++ []) (r ++ []) -> Permutation l r.
Proof. now rewrite !app_nil_r. Qed.
Ltac front x r := match r with
  | x ++ ?t => constr:(Permutation_refl (x ++ t))
  | ?y ++ ?t => let p := front x t in constr:(perm_front y x _ _ p)
  end.
(** permutations of the same appended lists *)
Ltac papp := apply perm_nil; rewrite <- ?app_assoc; repeat rewrite app_nil_l;
  repeat match goal with |- Permutation (?x ++ ?l) ?r => let p := front x r in refine (perm_use x l r _ p _) end; apply Permutation_refl.

Lemma app_inv_len {A} (a b c d : list A) : length a = length c -> a ++ b = c ++ d -> a = c /\ b = d.
Proof.
  revert c. induction a as [|x a IH]; intros [|y c] HL H; cbn in *; try discriminate; [auto|]. injection H as -> H. destruct (IH c ltac:(lia) H) as (-> & ->). auto.
Qed.
Section L.
Context {K : Type}.
Lemma split_at (l : list K) n : 0 <= n <= zlen l -> exists a b, l = a ++ b /\ zlen a = n.
Proof. intros H. exists (firstn (Z.to_nat n) l), (skipn (Z.to_nat n) l). split; [symmetry; apply firstn_skipn|now apply zlen_firstn]. Qed.
Lemma storeu_at (a x b v : list K) off : off = zlen a -> zlen v = zlen x -> storeu (a ++ x ++ b) off v = Some (a ++ v ++ b).
Proof.
  intros -> H. rewrite storeu_app by ll. f_equal. f_equal. f_equal.
  assert (length v = length x) as -> by ll. rewrite skipn_app, skipn_all, Nat.sub_diag. reflexivity.
Qed.
(** store into a gap with room for it *)
Lemma storeu_gap (a g b v : list K) off : off = zlen a -> zlen v <= zlen g ->
  exists g', storeu (a ++ g ++ b) off v = Some (a ++ v ++ g' ++ b) /\ zlen g' = zlen g - zlen v.
Proof.
  intros -> H. destruct (split_at g (zlen v)) as (g1 & g2 & -> & E); [ll|]. exists g2. split; [|ll].
  rewrite <- app_assoc. apply storeu_at; [reflexivity|lia].
Qed.
(** store ending at the end of a gap *)
Lemma storeu_gap_r (a g b v : list K) off : off = zlen a + zlen g - zlen v -> zlen v <= zlen g ->
  exists g', storeu (a ++ g ++ b) off v = Some (a ++ g' ++ v ++ b) /\ zlen g' = zlen g - zlen v.
Proof.
  intros -> H. destruct (split_at g (zlen g - zlen v)) as (g1 & g2 & -> & E); [ll|]. exists g1. split; [|ll].
  rewrite <- app_assoc. rewrite (app_assoc a g1). rewrite storeu_at; [now rewrite <- app_assoc|ll|ll].
Qed.
Lemma loadu_at (a x b : list K) off n : off = zlen a -> n = zlen x -> loadu (a ++ x ++ b) off n = Some x.
Proof. intros -> ->. rewrite loadu_app by ll. f_equal. unfold zlen. rewrite Nat2Z.id, firstn_app, firstn_all, Nat.sub_diag. cbn. apply app_nil_r. Qed.
Lemma select_map (f : K -> bool) v : select v (map f v) = filter f v.
Proof. induction v as [|x v IH]; [reflexivity|]. cbn. rewrite IH. destruct (f x); reflexivity. Qed.
Lemma filter_perm (f : K -> bool) v : Permutation (filter (fun x => negb (f x)) v ++ filter f v) v.
Proof.
  induction v as [|x v IH]; [constructor|]. cbn. destruct (f x); cbn; [|constructor; exact IH].
  rewrite <- Permutation_middle. constructor. exact IH.
Qed.
Lemma filter_Forall (f : K -> bool) v : Forall (fun x => f x = true) (filter f v).
Proof. apply Forall_forall. intros x H. apply filter_In in H. tauto. Qed.
End L.

Section P.
Context {K : Type} (lt : K -> K -> bool) (zero : K) (N : Z).
Variables (tail upper : list K -> list bool -> list K) (part : bool) (pivot : K).
Hypothesis HN : 1 <= N.
Hypothesis Htail : forall v m, zlen v = N -> length m = length v -> zlen (select v m) + zlen (tail v m) <= N.
Hypothesis Hupper : forall v m, zlen v = N -> length m = length v -> Permutation (upper v m) (select v (mask_not m)).

Notation PL := (fun x => negb (lt pivot x) = true).
Notation PR := (fun x => lt pivot x = true).
Notation fL := (filter (fun x => negb (lt pivot x))).
Notation fR := (filter (lt pivot)).
Notation SLR := (store_left_right lt N tail upper part false pivot).
Notation SLRL := (store_left_right_list lt N tail upper part false pivot).

Lemma sel_R v : select v (cmp lt pivot v) = fR v. Proof. apply select_map. Qed.
Lemma sel_L v : select v (mask_not (cmp lt pivot v)) = fL v.
Proof. unfold mask_not, cmp. rewrite map_map. apply select_map. Qed.
Lemma sel_nn v : select v (mask_not (mask_not (cmp lt pivot v))) = fR v.
Proof. unfold mask_not, cmp. rewrite !map_map. rewrite <- select_map. f_equal. apply map_ext. intros. apply negb_involutive. Qed.
Lemma fLR_len v : zlen (fL v) + zlen (fR v) = zlen v.
Proof. pose proof (Permutation_length (filter_perm (lt pivot) v)) as H. ll. Qed.
Lemma cmp_len v : length (cmp lt pivot v) = length v. Proof. apply map_length. Qed.
Lemma ncmp_len v : length (mask_not (cmp lt pivot v)) = length v. Proof. unfold mask_not, cmp. now rewrite !map_length. Qed.

Lemma slr_ok (A G1 U G2 R v : list K) w rem : zlen v = N -> N <= zlen G1 -> N <= zlen G2 -> w = zlen A -> rem = zlen G1 + zlen U + zlen G2 ->
  exists G1' G2' A2 R2, SLR v (A ++ G1 ++ U ++ G2 ++ R) w rem = Some ((A ++ A2) ++ G1' ++ U ++ G2' ++ (R2 ++ R), w + zlen A2, rem - N) /\
    zlen G1' = zlen G1 - zlen A2 /\ zlen G2' = zlen G2 - zlen R2 /\ Permutation (A2 ++ R2) v /\ Forall PL A2 /\ Forall PR R2.
Proof.
  intros Hv H1 H2 -> ->. pose proof (fLR_len v) as HLR. unfold store_left_right. rewrite sel_R, sel_L. destruct part.
  - set (up := upper v (mask_not (cmp lt pivot v))). assert (PU : Permutation up (fR v)) by (rewrite <- sel_nn; apply Hupper; [exact Hv|apply ncmp_len]).
    assert (LU : zlen up = zlen (fR v)) by (unfold zlen; f_equal; now apply Permutation_length).
    destruct (storeu_gap A G1 (U ++ G2 ++ R) (fL v ++ up) (zlen A)) as (g1 & E1 & L1); [reflexivity|ll|]. rewrite E1.
    destruct (storeu_gap_r (A ++ (fL v ++ up) ++ g1 ++ U) G2 R (fL v ++ up) (zlen G1 + zlen U + zlen G2 - N + zlen A)) as (g2 & E2 & L2); [ll|ll|].
    rewrite <- !app_assoc in E2. rewrite <- !app_assoc. rewrite E2.
    exists (up ++ g1), (g2 ++ fL v), (fL v), up. split; [|split; [|split; [|split; [|split]]]].
    + rewrite <- !app_assoc. repeat f_equal. lia.
    + ll.
    + ll.
    + rewrite PU. apply filter_perm.
    + apply (filter_Forall (fun x => negb (lt pivot x))).
    + eapply Permutation_Forall; [apply Permutation_sym; exact PU|apply filter_Forall].
  - unfold compress_store. rewrite sel_L. pose proof (Htail v (mask_not (cmp lt pivot v)) Hv (ncmp_len v)) as HT. rewrite sel_L in HT. set (tl := tail v (mask_not (cmp lt pivot v))) in *.
    destruct (storeu_gap A G1 (U ++ G2 ++ R) (fL v ++ tl) (zlen A)) as (g1 & E1 & L1); [reflexivity|ll|]. rewrite E1.
    unfold compress_blended_store. cbn [andb]. rewrite sel_R.
    destruct (storeu_gap_r (A ++ (fL v ++ tl) ++ g1 ++ U) G2 R (fR v) (zlen G1 + zlen U + zlen G2 - N + (zlen A + zlen (fL v)))) as (g2 & E2 & L2); [ll|ll|].
    rewrite <- !app_assoc in E2. rewrite <- !app_assoc. rewrite E2.
    exists (tl ++ g1), g2, (fL v), (fR v). split; [|split; [|split; [|split; [|split]]]].
    + rewrite <- !app_assoc. reflexivity.
    + ll.
    + ll.
    + apply filter_perm.
    + apply (filter_Forall (fun x => negb (lt pivot x))).
    + apply filter_Forall.
Qed.

Definition vecs (vs : list (list K)) : Prop := Forall (fun v => zlen v = N) vs.

Lemma slrl_ok : forall vs (A G1 U G2 R : list K) w rem, vecs vs -> N * zlen vs <= zlen G1 -> N * zlen vs <= zlen G2 -> w = zlen A -> rem = zlen G1 + zlen U + zlen G2 ->
  exists G1' G2' A2 R2, SLRL vs (A ++ G1 ++ U ++ G2 ++ R) w rem = Some ((A ++ A2) ++ G1' ++ U ++ G2' ++ (R2 ++ R), w + zlen A2, rem - N * zlen vs) /\
    zlen G1' = zlen G1 - zlen A2 /\ zlen G2' = zlen G2 - zlen R2 /\ Permutation (A2 ++ R2) (concat vs) /\ Forall PL A2 /\ Forall PR R2.
Proof.
  induction vs as [|v vs IH]; intros A G1 U G2 R w rem HV H1 H2 Hw Hr; cbn [store_left_right_list concat].
  - exists G1, G2, [], []. rewrite !app_nil_r. cbn [app]. split; [f_equal; f_equal; [f_equal; ll|ll]|]. split; [ll|]. split; [ll|]. split; [constructor|]. split; constructor.
  - apply Forall_cons_iff in HV. destruct HV as (Hv & HV). replace (zlen (v :: vs)) with (zlen vs + 1) in * by ll.
    pose proof (zlen_nonneg vs). assert (0 <= N * zlen vs) by nia. rewrite Z.mul_add_distr_l in *.
    destruct (slr_ok A G1 U G2 R v w rem) as (G1' & G2' & A2 & R2 & E & L1 & L2 & P & F1 & F2); try assumption; try lia. rewrite E.
    assert (LL : zlen A2 + zlen R2 = N) by (pose proof (Permutation_length P); ll).
    destruct (IH (A ++ A2) G1' U G2' (R2 ++ R) (w + zlen A2) (rem - N)) as (G1'' & G2'' & A3 & R3 & E' & L1' & L2' & P' & F1' & F2'); try assumption; try ll.
    exists G1'', G2'', (A2 ++ A3), (R3 ++ R2). rewrite E'. split; [|split; [|split; [|split; [|split]]]].
    + f_equal. f_equal; [f_equal|lia]; [|ll]. now rewrite <- !app_assoc.
    + ll.
    + ll.
    + rewrite <- P, <- P'. rewrite <- !app_assoc. apply Permutation_app_head. rewrite (Permutation_app_comm R2). rewrite <- app_assoc. apply Permutation_refl.
    + apply Forall_app; auto.
    + apply Forall_app; auto.
Qed.

Lemma slrl_mid : forall vs (A G R : list K) w rem, vecs vs -> N * (zlen vs + 1) <= zlen G -> w = zlen A -> rem = zlen G ->
  exists G' A2 R2, SLRL vs (A ++ G ++ R) w rem = Some ((A ++ A2) ++ G' ++ (R2 ++ R), w + zlen A2, rem - N * zlen vs) /\
    zlen G' = zlen G - zlen A2 - zlen R2 /\ Permutation (A2 ++ R2) (concat vs) /\ Forall PL A2 /\ Forall PR R2.
Proof.
  induction vs as [|v vs IH]; intros A G R w rem HV H1 Hw Hr; cbn [store_left_right_list concat].
  - exists G, [], []. rewrite !app_nil_r. cbn [app]. split; [f_equal; f_equal; [f_equal; ll|ll]|]. split; [ll|]. split; [constructor|]. split; constructor.
  - apply Forall_cons_iff in HV. destruct HV as (Hv & HV). replace (zlen (v :: vs)) with (zlen vs + 1) in * by ll.
    pose proof (zlen_nonneg vs). assert (0 <= N * zlen vs) by nia. rewrite !Z.mul_add_distr_l in *.
    destruct (split_at G N) as (G1 & G2 & -> & EG); [lia|]. assert (zlen G2 >= N * zlen vs + N) by ll. rewrite <- app_assoc.
    destruct (slr_ok A G1 [] G2 R v w rem) as (G1' & G2' & A2 & R2 & E & L1 & L2 & P & F1 & F2); try assumption; try ll. cbn [app] in E. rewrite E.
    assert (LL : zlen A2 + zlen R2 = N) by (pose proof (Permutation_length P); ll).
    rewrite (app_assoc G1').
    destruct (IH (A ++ A2) (G1' ++ G2') (R2 ++ R) (w + zlen A2) (rem - N)) as (G' & A3 & R3 & E' & L1' & P' & F1' & F2'); try assumption; try ll.
    exists G', (A2 ++ A3), (R3 ++ R2). rewrite E'. split; [|split; [|split; [|split]]].
    + f_equal. f_equal; [f_equal|lia]; [|ll]. now rewrite <- !app_assoc.
    + ll.
    + rewrite <- P, <- P'. rewrite <- !app_assoc. apply Permutation_app_head. rewrite (Permutation_app_comm R2). rewrite <- app_assoc. apply Permutation_refl.
    + apply Forall_app; auto.
    + apply Forall_app; auto.
Qed.

Lemma load4_ok (P a b c d Q : list K) p : zlen a = N -> zlen b = N -> zlen c = N -> zlen d = N -> p = zlen P -> load4 N (P ++ (a ++ b ++ c ++ d) ++ Q) p = Some (a, b, c, d).
Proof.
  intros Ha Hb Hc Hd ->. unfold load4. rewrite <- !app_assoc.
  rewrite (loadu_at P a) by lia.
  rewrite (app_assoc P a), (loadu_at (P ++ a) b) by ll. rewrite (app_assoc (P ++ a) b), (loadu_at ((P ++ a) ++ b) c) by ll.
  rewrite (app_assoc ((P ++ a) ++ b) c), (loadu_at (((P ++ a) ++ b) ++ c) d) by ll. reflexivity.
Qed.
Lemma four (l : list K) : zlen l = 4 * N -> exists a b c d, l = a ++ b ++ c ++ d /\ zlen a = N /\ zlen b = N /\ zlen c = N /\ zlen d = N.
Proof.
  intros H. destruct (split_at l N) as (a & l1 & -> & Ea); [lia|]. destruct (split_at l1 N) as (b & l2 & -> & Eb); [ll|]. destruct (split_at l2 N) as (c & d & -> & Ec); [ll|].
  exists a, b, c, d. split; [reflexivity|]. repeat split; try assumption. ll.
Qed.

Lemma ploop_ok : forall (m fuel : nat) (A G1 U G2 R : list K) w rem rl rr, (m < fuel)%nat -> zlen U = 4 * N * Z.of_nat m -> 8 * N <= zlen G1 + zlen G2 ->
  zlen G1 < 2 ^ 64 -> 8 * N < 2 ^ 64 -> w = zlen A -> rem = zlen G1 + zlen U + zlen G2 -> rl = zlen A + zlen G1 -> rr = rl + zlen U ->
  exists G' A2 R2, partition_loop lt N tail upper part false fuel pivot (A ++ G1 ++ U ++ G2 ++ R) w rem rl rr = Some ((A ++ A2) ++ G' ++ (R2 ++ R), w + zlen A2, zlen G1 + zlen G2) /\
    zlen G' = zlen G1 + zlen G2 /\ Permutation (A2 ++ R2) U /\ Forall PL A2 /\ Forall PR R2.
Proof.
  induction m as [|m IH]; intros fuel A G1 U G2 R w rem rl rr HF HU HG HS HN8 Hw Hr Hrl Hrr; (destruct fuel as [|f]; [lia|]); cbn [partition_loop].
  - assert (U = []) by (apply length_zero_iff_nil; ll). subst U. destruct (Z.eqb_spec rl rr); [|ll]. cbn [negb app].
    exists (G1 ++ G2), [], []. rewrite app_nil_r. cbn [app]. split; [rewrite <- !app_assoc; repeat f_equal; ll|]. split; [ll|]. split; [constructor|]. split; constructor.
  - assert (HU' : zlen U = 4 * N * Z.of_nat m + 4 * N) by lia. assert (0 <= 4 * N * Z.of_nat m) by nia.
    destruct (Z.eqb_spec rl rr); [lia|]. cbn [negb]. pose proof (zlen_nonneg G1). pose proof (zlen_nonneg G2).
    rewrite (wrap_small 64 (rl - w)) by lia. unfold kUnroll. destruct (Z.ltb_spec (4 * N) (rl - w)) as [Hc|Hc].
    + destruct (split_at U (4 * N * Z.of_nat m)) as (U1 & U2 & -> & EU); [lia|]. assert (EU2 : zlen U2 = 4 * N) by ll.
      destruct (four U2 EU2) as (a & b & c & d & -> & Ha & Hb & Hc' & Hd).
      assert (EL : load4 N (A ++ G1 ++ (U1 ++ a ++ b ++ c ++ d) ++ G2 ++ R) (rr - 4 * N) = Some (a, b, c, d)).
      { rewrite <- (load4_ok (A ++ G1 ++ U1) a b c d (G2 ++ R) (rr - 4 * N)); [f_equal; now rewrite <- !app_assoc|assumption|assumption|assumption|assumption|ll]. }
      rewrite EL. cbn [option_map].
      destruct (slrl_ok [a; b; c; d] A G1 U1 ((a ++ b ++ c ++ d) ++ G2) R w rem) as (G1' & G2' & A2 & R2 & E & L1 & L2 & P & F1 & F2); try assumption; try ll.
      { repeat constructor; assumption. }
      replace (A ++ G1 ++ U1 ++ ((a ++ b ++ c ++ d) ++ G2) ++ R) with (A ++ G1 ++ (U1 ++ a ++ b ++ c ++ d) ++ G2 ++ R) in E by (now rewrite <- !app_assoc).
      rewrite E. assert (LL : zlen A2 + zlen R2 = 4 * N) by (pose proof (Permutation_length P); cbn [concat] in *; ll).
      destruct (IH f (A ++ A2) G1' U1 G2' (R2 ++ R) (w + zlen A2) (rem - N * zlen [a; b; c; d]) rl (rr - 4 * N)) as (G' & A3 & R3 & E' & L' & P' & F1' & F2'); try ll.
      exists G', (A2 ++ A3), (R3 ++ R2). rewrite E'. split; [|split; [|split; [|split]]].
      * f_equal. f_equal; [f_equal|]; [|ll|ll]. now rewrite <- !app_assoc.
      * ll.
      * cbn [concat] in P. rewrite app_nil_r in P. rewrite <- P, <- P'. rewrite (Permutation_app_comm (A3 ++ R3)). rewrite <- !app_assoc. apply Permutation_app_head.
        rewrite (Permutation_app_comm R2). rewrite <- !app_assoc. apply Permutation_refl.
      * apply Forall_app; auto.
      * apply Forall_app; auto.
    + destruct (split_at U (4 * N)) as (U2 & U1 & -> & EU2); [lia|]. assert (EU : zlen U1 = 4 * N * Z.of_nat m) by ll.
      destruct (four U2 EU2) as (a & b & c & d & -> & Ha & Hb & Hc' & Hd).
      assert (EL : load4 N (A ++ G1 ++ ((a ++ b ++ c ++ d) ++ U1) ++ G2 ++ R) rl = Some (a, b, c, d)).
      { rewrite <- (load4_ok (A ++ G1) a b c d (U1 ++ G2 ++ R) rl); [f_equal; now rewrite <- !app_assoc|assumption|assumption|assumption|assumption|ll]. }
      rewrite EL. cbn [option_map].
      destruct (slrl_ok [a; b; c; d] A (G1 ++ a ++ b ++ c ++ d) U1 G2 R w rem) as (G1' & G2' & A2 & R2 & E & L1 & L2 & P & F1 & F2); try assumption; try ll.
      { repeat constructor; assumption. }
      replace (A ++ (G1 ++ a ++ b ++ c ++ d) ++ U1 ++ G2 ++ R) with (A ++ G1 ++ ((a ++ b ++ c ++ d) ++ U1) ++ G2 ++ R) in E by (now rewrite <- !app_assoc).
      rewrite E. assert (LL : zlen A2 + zlen R2 = 4 * N) by (pose proof (Permutation_length P); cbn [concat] in *; ll).
      destruct (IH f (A ++ A2) G1' U1 G2' (R2 ++ R) (w + zlen A2) (rem - N * zlen [a; b; c; d]) (rl + 4 * N) rr) as (G' & A3 & R3 & E' & L' & P' & F1' & F2'); try ll.
      exists G', (A2 ++ A3), (R3 ++ R2). rewrite E'. split; [|split; [|split; [|split]]].
      * f_equal. f_equal; [f_equal|]; [|ll|ll]. now rewrite <- !app_assoc.
      * ll.
      * cbn [concat] in P. rewrite app_nil_r in P. rewrite <- P, <- P'. rewrite <- !app_assoc. apply Permutation_app_head.
        rewrite (Permutation_app_comm R2). rewrite <- !app_assoc. apply Permutation_refl.
      * apply Forall_app; auto.
      * apply Forall_app; auto.
Qed.

Notation CS := (compress_store tail).
Lemma cs_ok (a g b v : list K) m off : zlen v = N -> length m = length v -> off = zlen a -> N <= zlen g ->
  exists g', CS v m (a ++ g ++ b) off = Some ((a ++ select v m) ++ g' ++ b, zlen (select v m)) /\ zlen g' = zlen g - zlen (select v m).
Proof.
  intros Hv Hm Ho Hg. unfold compress_store. pose proof (Htail v m Hv Hm) as HT.
  destruct (storeu_gap a g b (select v m ++ tail v m) off) as (g' & E & L); [exact Ho|ll|]. rewrite E.
  exists (tail v m ++ g'). split; [now rewrite <- !app_assoc|ll].
Qed.

Lemma rmloop_ok num_here MB : forall (m fuel : nat) (P Q BL X BR Y : list K) i rr bl br,
  (m < fuel)%nat -> 0 <= i -> N * Z.of_nat m <= num_here - i < N * Z.of_nat m + N -> num_here - i <= zlen P -> N <= num_here < 2 ^ 64 ->
  rr = zlen P -> bl = zlen BL -> br = MB + zlen BR -> zlen BL + zlen X = MB -> N * Z.of_nat m <= zlen X -> N * Z.of_nat m <= zlen Y ->
  exists P' Q' BL' X' BR' Y', P = P' ++ Q' /\ zlen Q' = N * Z.of_nat m /\
    rightmost_loop lt N tail fuel pivot (P ++ Q) num_here i rr (BL ++ X ++ BR ++ Y) bl br = Some (i + N * Z.of_nat m, zlen P', BL' ++ X' ++ BR' ++ Y', zlen BL', MB + zlen BR') /\
    Permutation (BL' ++ BR') (BL ++ BR ++ Q') /\ zlen BL' + zlen X' = MB /\ zlen (BL' ++ X' ++ BR' ++ Y') = zlen (BL ++ X ++ BR ++ Y) /\
    (Forall PL BL -> Forall PL BL') /\ (Forall PR BR -> Forall PR BR') /\ zlen BL' <= zlen BL + N * Z.of_nat m /\ zlen BR' <= zlen BR + N * Z.of_nat m.
Proof.
  induction m as [|m IH]; intros fuel P Q BL X BR Y i rr bl br HF Hi Hm HP Hn Hrr Hbl Hbr HX HX2 HY; (destruct fuel as [|f]; [lia|]); cbn [rightmost_loop]; rewrite (wrap_small 64 (num_here - N)) by lia.
  - destruct (Z.leb_spec i (num_here - N)); [lia|]. exists P, [], BL, X, BR, Y. rewrite !app_nil_r.
    split; [reflexivity|]. split; [ll|]. split; [repeat f_equal; lia|]. split; [apply Permutation_refl|]. split; [ll|]. split; [reflexivity|]. split; [auto|]. split; [auto|]. split; lia.
  - rewrite Nat2Z.inj_succ, <- Z.add_1_r, Z.mul_add_distr_l in *. assert (0 <= N * Z.of_nat m) by nia.
    destruct (Z.leb_spec i (num_here - N)); [|lia].
    destruct (split_at P (zlen P - N)) as (P1 & v & -> & EP); [lia|]. assert (Hv : zlen v = N) by ll.
    rewrite <- app_assoc. rewrite (loadu_at P1 v) by ll.
    destruct (cs_ok BL X (BR ++ Y) v (mask_not (cmp lt pivot v)) bl Hv (ncmp_len v) Hbl) as (X1 & E1 & L1); [lia|]. rewrite sel_L in E1, L1. rewrite E1.
    destruct (cs_ok (((BL ++ fL v) ++ X1) ++ BR) Y [] v (cmp lt pivot v) br Hv (cmp_len v)) as (Y1 & E2 & L2); [ll|lia|]. rewrite sel_R in E2, L2.
    rewrite !app_nil_r in E2. rewrite <- !app_assoc in E2. rewrite <- !app_assoc. rewrite E2. pose proof (fLR_len v) as LR.
    destruct (IH f P1 (v ++ Q) (BL ++ fL v) X1 (BR ++ fR v) Y1 (i + N) (rr - N) (bl + zlen (fL v)) (br + (N - zlen (fL v)))) as (P' & Q' & BL' & X' & BR' & Y' & -> & LQ & E & PM & LB & LT & F1 & F2 & S1 & S2); try ll.
    exists P', (Q' ++ v), BL', X', BR', Y'. split; [now rewrite <- !app_assoc|]. split; [ll|]. split.
    { rewrite <- !app_assoc in E. rewrite <- !app_assoc. rewrite E. f_equal. f_equal. f_equal. f_equal. f_equal. lia. }
    split; [|split; [|split; [|split; [|split; [|split]]]]].
    + rewrite PM. rewrite <- !app_assoc. apply Permutation_app_head. rewrite (Permutation_app_comm (fL v)). rewrite <- !app_assoc. apply Permutation_app_head.
      rewrite (Permutation_app_comm (fR v)). rewrite <- !app_assoc. apply Permutation_app_head. apply filter_perm.
    + ll.
    + rewrite LT. ll.
    + intros HF1. apply F1. apply Forall_app; split; [exact HF1|apply (filter_Forall (fun x => negb (lt pivot x)))].
    + intros HF2. apply F2. apply Forall_app; split; [exact HF2|apply filter_Forall].
    + ll.
    + ll.
Qed.

Lemma sel_mask_L (p z : list K) r : zlen p = r -> zlen p + zlen z = N ->
  select (p ++ z) (mask_and (mask_not (cmp lt pivot (p ++ z))) (first_n N r)) = fL p.
Proof.
  intros Hr HZ. rewrite first_n_eq by ll. replace (Z.to_nat r) with (length p) by ll. replace (Z.to_nat (N - r)) with (length z) by ll. clear.
  induction p as [|x p IH]; cbn.
  - induction z as [|y z IH]; [reflexivity|]. cbn. rewrite andb_false_r. exact IH.
  - rewrite andb_true_r. destruct (negb (lt pivot x)); [f_equal|]; exact IH.
Qed.
Lemma mask_and_len (a b : list bool) : length a = length b -> length (mask_and a b) = length a.
Proof. intros H. unfold mask_and. rewrite map_length, combine_length. lia. Qed.
Lemma first_n_len k : zlen (first_n N k) = N.
Proof. unfold first_n, zlen. rewrite map_length, seq_length. lia. Qed.

Lemma split_ok n num : N = 2 ^ n -> 0 <= n -> 2 * N < num -> num < 2 ^ 62 ->
  exists h m, rightmost_split N num = (h, m) /\ h + m = num /\ N <= h <= 9 * N /\ (m = 0 \/ (8 * N <= m /\ exists c, 0 <= c /\ m = 4 * N * c)).
Proof.
  intros En Hn0 H1 H2. unfold rightmost_split, kUnroll. assert (E : 4 * N = 2 ^ (n + 2)) by (rewrite Z.pow_add_r by lia; lia).
  replace (4 * N - 1) with (Z.ones (n + 2)) by (rewrite Z.ones_equiv, E; lia). rewrite Z.land_ones by lia. rewrite <- E.
  pose proof (Z.div_mod num (4 * N) ltac:(lia)) as DM. pose proof (Z.mod_pos_bound num (4 * N) ltac:(lia)) as MB. set (r := num mod (4 * N)) in *. set (q := num / (4 * N)) in *.
  assert (0 <= q) by (apply Z.div_pos; lia). clearbody r q. clear E.
  set (mn := r + (if r <? N then 4 * N else 0)). assert (HM : N <= mn < 5 * N /\ (mn = r \/ mn = r + 4 * N)) by (unfold mn; destruct (Z.ltb_spec r N); lia). assert (HM2 : mn <> r -> r < N) by (unfold mn; destruct (Z.ltb_spec r N); lia). clearbody mn.
  rewrite (wrap_small 64 (num - Z.min mn num)) by lia.
  destruct (Z.ltb_spec (num - Z.min mn num) (2 * 4 * N)).
  - exists num, 0. split; [reflexivity|]. split; [lia|]. split; [|left; reflexivity]. split; [lia|].
    destruct (Z.le_gt_cases num mn) as [|Hgt]; [lia|]. rewrite Z.min_l in H0 by lia. assert (HQ : N * q < N * 3) by (destruct HM as (HM & [->| ->]); lia). assert (q < 3) by nia.
    assert (N * q <= N * 2) by nia. assert (mn = r -> N * q < N * 2) by lia. destruct HM as (HMa & [HMb|HMb]); [|specialize (HM2 ltac:(lia)); lia]. assert (q < 2) by (specialize (H5 HMb); clear - H5 HN; nia). assert (N * q <= N * 1) by (clear - H6 HN; nia). lia.
  - exists (Z.min mn num), (num - Z.min mn num). split; [reflexivity|]. split; [lia|]. rewrite Z.min_l by lia. split; [lia|]. right. split; [lia|].
    destruct HM as (HM & [->| ->]); [exists q|exists (q - 1)]; split; lia.
Qed.

Lemma rightmost_ok n (keys buf : list K) : N = 2 ^ n -> 0 <= n -> 2 * N < zlen keys -> zlen keys < 2 ^ 62 -> 26 * N <= zlen buf ->
  exists M H G BL X BR, keys = M ++ H /\ partition_rightmost lt zero N tail pivot keys (zlen keys) buf = Some (M ++ G ++ BR, BL ++ X, zlen BL, zlen keys - zlen BR, zlen M) /\
    zlen G = zlen BL /\ zlen H <= 9 * N /\ Permutation (BL ++ BR) H /\ Forall PL BL /\ Forall PR BR /\ (zlen M = 0 \/ (8 * N <= zlen M /\ exists c, 0 <= c /\ zlen M = 4 * N * c)) /\ zlen BL + zlen X = zlen buf.
Proof.
  intros En Hn H1 H2 HB. destruct (split_ok n (zlen keys) En Hn H1 H2) as (h & mm & E & Esum & Hh & Hm). unfold partition_rightmost. rewrite E.
  destruct (split_at keys mm) as (M & H & EK & LM); [lia|]. assert (LH : zlen H = h) by (rewrite EK in Esum; ll).
  assert (EMB : max_buf N = 13 * N) by (unfold max_buf, kUnroll; lia). rewrite EMB.
  destruct (split_at buf (13 * N)) as (X0 & Y0 & EBUF & LX0); [lia|]. assert (LY0 : 13 * N <= zlen Y0 /\ zlen Y0 = zlen buf - 13 * N) by (rewrite EBUF in *; ll).
  pose proof (Z.div_mod h N ltac:(lia)) as DM. pose proof (Z.mod_pos_bound h N ltac:(lia)) as MBD. assert (0 <= h / N) by (apply Z.div_pos; lia). set (m := Z.to_nat (h / N)).
  assert (Em : N * Z.of_nat m = h - h mod N) by (unfold m; rewrite Z2Nat.id by lia; lia). set (r := h mod N) in *.
  assert (QL : h / N <= 9) by (apply Z.div_le_upper_bound; lia).
  destruct (rmloop_ok h (13 * N) m (S (Z.to_nat (zlen keys))) keys [] [] X0 [] Y0 0 (zlen keys) 0 (13 * N)) as (P' & Q' & BL' & X' & BR' & Y' & EP & LQ & EL & PM & LB & LT & F1 & F2 & S1 & S2); try ll; try (unfold m; nia).
  rewrite app_nil_r in EL. cbn [app] in EL. rewrite <- EBUF in EL. rewrite EL. clear EL.
  replace (h - (0 + N * Z.of_nat m)) with r by lia. specialize (F1 (Forall_nil _)). specialize (F2 (Forall_nil _)). cbn [app] in PM.
  (* the remaining r keys *)
  destruct (split_at P' (zlen P' - r)) as (M' & p & -> & LP); [rewrite EP in Esum; ll|]. assert (Lp : zlen p = r) by ll.
  assert (EMM : M' = M /\ H = p ++ Q').
  { assert (EQ : M ++ H = M' ++ (p ++ Q')) by (rewrite <- EK, EP; now rewrite <- !app_assoc).
    assert (LL : length M = length M') by (apply (f_equal (@length K)) in EQ; ll). destruct (app_inv_len _ _ _ _ LL EQ) as (-> & ->). auto. }
  destruct EMM as (-> & EH). rewrite EH in LH.
  assert (Q9 : N * Z.of_nat m <= 9 * N) by lia.
  assert (exists BL X BR Y, (if negb (r =? 0) then
      match load_n zero N keys (zlen (M ++ p) - r) r with
      | None => None
      | Some v => match CS v (mask_and (mask_not (cmp lt pivot v)) (first_n N r)) (BL' ++ X' ++ BR' ++ Y') (zlen BL') with
          | None => None
          | Some (buf, numL) => match CS v (cmp lt pivot v) buf (13 * N + zlen BR') with
              | None => None
              | Some (buf, _) => Some (buf, zlen BL' + numL, 13 * N + zlen BR' + (r - numL)) end end end
      else Some (BL' ++ X' ++ BR' ++ Y', zlen BL', 13 * N + zlen BR')) = Some (BL ++ X ++ BR ++ Y, zlen BL, 13 * N + zlen BR) /\
      Permutation (BL ++ BR) (p ++ Q') /\ zlen BL + zlen X = 13 * N /\ zlen (BL ++ X ++ BR ++ Y) = zlen buf /\ Forall PL BL /\ Forall PR BR) as (BL & X & BR & Y & ER & PM2 & LBX & LBUF & F1' & F2').
  { destruct (Z.eqb_spec r 0) as [R0|R0]; cbn [negb].
    - exists BL', X', BR', Y'. split; [reflexivity|]. assert (p = []) by (apply length_zero_iff_nil; ll). subst p. cbn [app]. repeat split; auto; [rewrite LT; ll].
    - rewrite load_n_ok by (try ll; rewrite EP; ll).
      assert (EPP : firstn (Z.to_nat r) (skipn (Z.to_nat (zlen (M ++ p) - r)) keys) = p).
      { rewrite EP, <- app_assoc. replace (Z.to_nat (zlen (M ++ p) - r)) with (length M) by ll. rewrite skipn_app, skipn_all, Nat.sub_diag. cbn [app skipn].
        replace (Z.to_nat r) with (length p) by ll. rewrite firstn_app, firstn_all, Nat.sub_diag. cbn. apply app_nil_r. }
      rewrite EPP. set (z := repeat zero (Z.to_nat (N - r))). assert (LZ : zlen z = N - r) by (unfold z, zlen; rewrite repeat_length; lia).
      assert (Hv : zlen (p ++ z) = N) by ll.
      destruct (cs_ok BL' X' (BR' ++ Y') (p ++ z) (mask_and (mask_not (cmp lt pivot (p ++ z))) (first_n N r)) (zlen BL') Hv) as (X1 & E1 & L1); [|reflexivity|ll|].
      { rewrite mask_and_len; [apply ncmp_len|]. rewrite ncmp_len. pose proof (first_n_len r). ll. }
      rewrite (sel_mask_L p z r Lp) in E1, L1 by lia. rewrite E1.
      destruct (cs_ok (((BL' ++ fL p) ++ X1) ++ BR') Y' [] (p ++ z) (cmp lt pivot (p ++ z)) (13 * N + zlen BR') Hv) as (Y1 & E2 & L2); [apply cmp_len|ll|rewrite EBUF in HB; ll|].
      rewrite sel_R, filter_app in E2, L2. rewrite !app_nil_r in E2. rewrite <- !app_assoc in E2. rewrite <- !app_assoc. rewrite E2.
      pose proof (fLR_len p) as LR.
      exists (BL' ++ fL p), X1, (BR' ++ fR p), (fR z ++ Y1). split; [rewrite <- !app_assoc; f_equal; f_equal; [f_equal|]; ll|]. split; [|split; [|split; [|split]]].
      + rewrite <- !app_assoc. rewrite (Permutation_app_comm (fL p)). rewrite <- !app_assoc. rewrite app_assoc, PM. rewrite (Permutation_app_comm p). apply Permutation_app_head.
        rewrite (Permutation_app_comm (fR p)). apply filter_perm.
      + ll.
      + rewrite EBUF in HB. ll.
      + apply Forall_app; split; [exact F1|apply (filter_Forall (fun x => negb (lt pivot x)))].
      + apply Forall_app; split; [exact F2|apply filter_Forall]. }
  rewrite ER. clear ER. replace (13 * N + zlen BR - 13 * N) with (zlen BR) by lia.
  rewrite (app_assoc BL X), (loadu_at (BL ++ X) BR Y) by ll.
  assert (LBR : zlen BL + zlen BR = h) by (pose proof (Permutation_length PM2); ll).
  destruct (split_at H (zlen H - zlen BR)) as (G & Hr & EGH & LG); [rewrite EH; ll|].
  assert (ES : storeu keys (zlen keys - zlen BR) BR = Some (M ++ G ++ BR)).
  { assert (LHr : zlen Hr = zlen BR) by (rewrite EGH in LG; ll). rewrite EK, EGH.
    transitivity (storeu ((M ++ G) ++ Hr ++ []) (zlen (M ++ G ++ Hr) - zlen BR) BR); [now rewrite app_nil_r, <- !app_assoc|].
    rewrite storeu_at; [now rewrite app_nil_r, <- !app_assoc|ll|ll]. }
  rewrite ES. exists M, H, G, BL, (X ++ BR ++ Y), BR. split; [exact EK|]. split; [rewrite <- !app_assoc; f_equal; f_equal; lia|].
  split; [rewrite EH in LG; ll|]. split; [rewrite EH; ll|]. split; [rewrite EH; exact PM2|]. split; [exact F1'|]. split; [exact F2'|]. split; [rewrite LM; exact Hm|ll].
Qed.

Lemma srb_ok (A G R BL X v : list K) wr bl : zlen v = N -> N <= zlen G -> N <= zlen X -> wr = zlen A + zlen G -> bl = zlen BL ->
  exists G' X', store_right_and_buf lt N tail pivot v (A ++ G ++ R) wr (BL ++ X) bl = Some (A ++ G' ++ (fR v ++ R), wr - zlen (fR v), (BL ++ fL v) ++ X', bl + zlen (fL v)) /\
   zlen G' = zlen G - zlen (fR v) /\ zlen X' = zlen X - zlen (fL v).
Proof.
  intros Hv HG HX -> ->. pose proof (fLR_len v) as LR. unfold store_right_and_buf.
  destruct (cs_ok BL X [] v (mask_not (cmp lt pivot v)) (zlen BL) Hv (ncmp_len v) eq_refl HX) as (X' & E1 & L1). rewrite sel_L, !app_nil_r in E1. rewrite sel_L in L1. rewrite E1, sel_R.
  replace (N - zlen (fL v)) with (zlen (fR v)) by lia. replace (firstn (Z.to_nat (zlen (fR v))) (fR v)) with (fR v) by (unfold zlen; rewrite Nat2Z.id; symmetry; apply firstn_all).
  destruct (storeu_gap_r A G R (fR v) (zlen A + zlen G - zlen (fR v)) eq_refl) as (G' & E2 & L2); [ll|]. rewrite E2. exists G', X'. split; [reflexivity|]. split; lia.
Qed.

Theorem partition_ok n (keys buf : list K) : N = 2 ^ n -> 0 <= n -> 2 * N < zlen keys -> zlen keys < 2 ^ 62 -> 26 * N <= zlen buf ->
  exists L R buf', partition lt zero N tail upper part false pivot keys (zlen keys) buf = Some (L ++ R, buf', zlen L) /\
    zlen buf' = zlen buf /\ Permutation (L ++ R) keys /\ Forall PL L /\ Forall PR R.
Proof.
  intros En Hn H1 H2 HB. destruct (rightmost_ok n keys buf En Hn H1 H2 HB) as (M & H & G & BL & X & BR & EK & ER & LG & LH & PM & F1 & F2 & HM & LBX).
  unfold partition. rewrite ER. cbv zeta. rewrite Z.sub_0_r. assert (LBR : zlen BL + zlen BR = zlen H) by (pose proof (Permutation_length PM); ll).
  assert (LK : zlen keys = zlen M + zlen H) by (rewrite EK; ll).
  destruct HM as [HM|(HM & c & Hc0 & Hc)].
  - rewrite HM. cbn [Z.eqb negb]. assert (M = []) by (apply length_zero_iff_nil; ll). subst M. cbn [app] in *.
    change (BL ++ X) with ([] ++ BL ++ X). rewrite (loadu_at [] BL X) by ll. change (G ++ BR) with ([] ++ G ++ BR). rewrite (storeu_at [] G BR BL) by ll. cbn [app].
    exists BL, BR, (BL ++ X). split; [reflexivity|]. split; [ll|]. split; [rewrite EK; exact PM|]. split; assumption.
  - destruct (Z.eqb_spec (zlen M) 0); [lia|]. cbn [negb]. unfold kUnroll.
    destruct (split_at M (4 * N)) as (ML & M1 & -> & LML); [lia|]. destruct (split_at M1 (zlen M1 - 4 * N)) as (U & MR & -> & LU); [ll|]. assert (LMR : zlen MR = 4 * N) by ll.
    destruct (four ML LML) as (l0 & l1 & l2 & l3 & -> & L0 & L1 & L2 & L3). destruct (four MR LMR) as (r0 & r1 & r2 & r3 & -> & R0 & R1 & R2 & R3).
    set (k1 := ((l0 ++ l1 ++ l2 ++ l3) ++ U ++ r0 ++ r1 ++ r2 ++ r3) ++ G ++ BR).
    set (zM := zlen ((l0 ++ l1 ++ l2 ++ l3) ++ U ++ r0 ++ r1 ++ r2 ++ r3)) in *.
    assert (EZM : zM = 8 * N + zlen U) by (unfold zM; ll).
    assert (E1 : load4 N k1 0 = Some (l0, l1, l2, l3)). { rewrite <- (load4_ok [] l0 l1 l2 l3 ((U ++ r0 ++ r1 ++ r2 ++ r3) ++ G ++ BR) 0) by (first [assumption|reflexivity]). unfold k1. cbn [app]. now rewrite <- !app_assoc. }
    assert (E2 : load4 N k1 (zM - 4 * N) = Some (r0, r1, r2, r3)). { rewrite <- (load4_ok ((l0 ++ l1 ++ l2 ++ l3) ++ U) r0 r1 r2 r3 (G ++ BR) (zM - 4 * N)) by (first [assumption|ll]). unfold k1. now rewrite <- !app_assoc. }
    rewrite E1, E2.
    assert (Hc2 : 2 <= c) by nia. set (mm := Z.to_nat (c - 2)). assert (EU : zlen U = 4 * N * Z.of_nat mm) by (unfold mm; rewrite Z2Nat.id by lia; nia).
    destruct (ploop_ok mm (S (Z.to_nat (zlen keys))) [] (l0 ++ l1 ++ l2 ++ l3) U ((r0 ++ r1 ++ r2 ++ r3) ++ G) BR 0 (zlen keys - zlen BR) (4 * N) (zM - 4 * N)) as (G' & A2 & RR2 & EP & LG' & PP & FA & FR); try ll.
    { unfold mm. assert (c <= 4 * N * c) by (clear - Hc0 HN; nia). pose proof (zlen_nonneg H). lia. }
    replace ([] ++ (l0 ++ l1 ++ l2 ++ l3) ++ U ++ ((r0 ++ r1 ++ r2 ++ r3) ++ G) ++ BR) with k1 in EP by (unfold k1; cbn [app]; now rewrite <- !app_assoc).
    rewrite EP. clear EP. cbn [app]. rewrite Z.add_0_l.
    destruct (slrl_mid [l0; l1; l2; l3; r0; r1] A2 G' (RR2 ++ BR) (zlen A2) (zlen (l0 ++ l1 ++ l2 ++ l3) + zlen ((r0 ++ r1 ++ r2 ++ r3) ++ G))) as (G2 & A3 & RR3 & ES & LG2 & PS & FA3 & FR3).
    { repeat constructor; assumption. } { ll. } { reflexivity. } { lia. }
    rewrite ES. clear ES. assert (LAR : zlen A3 + zlen RR3 = 6 * N) by (pose proof (Permutation_length PS); cbn [concat] in *; ll).
    assert (LG2' : zlen G2 = 2 * N + zlen BL) by ll.
    destruct (srb_ok (A2 ++ A3) G2 (RR3 ++ RR2 ++ BR) BL X r2 (zlen A2 + zlen A3 + (zlen (l0 ++ l1 ++ l2 ++ l3) + zlen ((r0 ++ r1 ++ r2 ++ r3) ++ G) - N * zlen [l0; l1; l2; l3; r0; r1])) (zlen BL)) as (G3 & X3 & E3 & LG3 & LX3); try ll.
    rewrite E3. pose proof (fLR_len r2) as LR2. pose proof (fLR_len r3) as LR3.
    match goal with |- context [store_right_and_buf _ _ _ _ r3 _ ?w _ ?b] => destruct (srb_ok (A2 ++ A3) G3 (fR r2 ++ RR3 ++ RR2 ++ BR) (BL ++ fL r2) X3 r3 w b) as (G4 & X4 & E4 & LG4 & LX4); try ll end.
    rewrite E4. rewrite <- (Z.add_assoc (zlen BL)).
    rewrite <- (app_nil_l (((BL ++ fL r2) ++ fL r3) ++ X4)), (loadu_at [] ((BL ++ fL r2) ++ fL r3) X4) by ll. cbn [app].
    rewrite (storeu_at (A2 ++ A3) G4) by ll.
    exists ((A2 ++ A3) ++ (BL ++ fL r2) ++ fL r3), (fR r3 ++ fR r2 ++ RR3 ++ RR2 ++ BR), (((BL ++ fL r2) ++ fL r3) ++ X4).
    split; [f_equal; f_equal; [f_equal; now rewrite <- !app_assoc|ll]|]. split; [ll|]. split; [|split].
    + rewrite EK. cbn [concat] in PS. rewrite app_nil_r in PS.
      transitivity ((A3 ++ RR3) ++ (A2 ++ RR2) ++ (fL r2 ++ fR r2) ++ (fL r3 ++ fR r3) ++ BL ++ BR); [papp|].
      rewrite PS, PP, PM, !filter_perm. papp.
    + repeat (apply Forall_app; split); auto; apply (filter_Forall (fun x => negb (lt pivot x))).
    + repeat (apply Forall_app; split); auto; apply filter_Forall.
Qed.
End P.
