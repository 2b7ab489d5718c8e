(** Proofs about dynamic dispatch. *)
From Coq Require Import ZArith List Lia Bool Btauto.
From Verif Require Import Word Word_Proofs Arith_Model Arith_Spec Arith_Proofs Targets_Model Targets_Spec.
Import ListNotations.
Local Open Scope Z_scope.

Definition off (a : arch) : Z := a_highest a + 1 - a_max a.
Definition arch_ok (a : arch) : Prop :=
  0 <= off a /\ 1 <= a_max a <= 15 /\ length (a_list a) = Z.to_nat (a_max a) /\
  (forall k b, nth_error (a_list a) k = Some (Some b) -> b = Z.of_nat k + off a) /\ a_highest a < EMU128.

Fixpoint aligned_b (l : list (option Z)) (o : Z) : bool :=
  match l with [] => true | Some b :: r => (b =? o) && (b <? EMU128) && aligned_b r (o + 1) | None :: r => aligned_b r (o + 1) end.
Lemma aligned_nth l : forall o, aligned_b l o = true -> forall k b, nth_error l k = Some (Some b) -> b = Z.of_nat k + o /\ b < EMU128.
Proof.
  induction l as [|x l IH]; intros o H k b E; [destruct k; discriminate|].
  destruct k as [|k]; cbn [nth_error] in E.
  - injection E as ->. cbn [aligned_b] in H. apply andb_prop in H as (H & _). apply andb_prop in H as (H1 & H2). apply Z.eqb_eq in H1. apply Z.ltb_lt in H2. lia.
  - assert (H' : aligned_b l (o + 1) = true) by (cbn [aligned_b] in H; destruct x; [apply andb_prop in H; tauto|exact H]).
    destruct (IH (o + 1) H' k b E). lia.
Qed.
Lemma all_archs_ok a : In a all_archs -> arch_ok a.
Proof.
  intros H. assert (B : forallb (fun a => (0 <=? off a) && (1 <=? a_max a) && (a_max a <=? 15) && (length (a_list a) =? Z.to_nat (a_max a))%nat && aligned_b (a_list a) (off a) && (a_highest a <? EMU128)) all_archs = true) by (vm_compute; reflexivity).
  rewrite forallb_forall in B. specialize (B a H). repeat (apply andb_prop in B as (B & ?)).
  match goal with X : aligned_b _ _ = true |- _ => pose proof (aligned_nth _ _ X) as A end. unfold arch_ok. split; [lia|]. split; [lia|]. split; [now apply Nat.eqb_eq|].
  split; [intros k b E; apply (A k b E)|]. now apply Z.ltb_lt.
Qed.

Section A.
Context (a : arch) (HA : arch_ok a).

Lemma chosen_shift_bits x j : Z.testbit (chosen_shift a x) j = (1 <=? j) && (j <=? a_max a) && Z.testbit x (j - 1 + off a).
Proof.
  destruct HA as (O & M & _). unfold chosen_shift. fold (off a).
  destruct (Z.leb_spec 1 j); cbn [andb].
  2:{ destruct (Z.ltb_spec j 0); [now apply Z.testbit_neg_r|]. apply Z.shiftl_spec_low. lia. }
  rewrite Z.shiftl_spec by lia. rewrite Z.land_spec, Z.shiftr_spec by lia.
  assert (EO : Z.shiftl 1 (a_max a) - 1 = Z.ones (a_max a)) by (unfold Z.ones; lia).
  rewrite EO, Z.testbit_ones_nonneg by lia.
  replace (j - 1 <? a_max a) with (j <=? a_max a) by (destruct (Z.leb_spec j (a_max a)); destruct (Z.ltb_spec (j - 1) (a_max a)); lia). apply andb_comm.
Qed.

Context (targets static lib_static : Z).

Lemma mask_targets_bits j : 0 <= j -> Z.testbit (mask_targets a targets) j =
  (j =? 0) || (j =? a_max a + 1) || ((1 <=? j) && (j <=? a_max a) && Z.testbit targets (j - 1 + off a)).
Proof.
  intros Hj. destruct HA as (O & M & _). unfold mask_targets, mask_scalar. rewrite !Z.lor_spec, chosen_shift_bits, testbit_one_shl by lia.
  assert (E1 : Z.testbit 1 j = (j =? 0)) by (change 1 with (Z.shiftl 1 0); apply testbit_one_shl; lia). rewrite E1.
  destruct (j =? 0), (j =? a_max a + 1); cbn [orb]; rewrite ?orb_true_r, ?orb_false_r; reflexivity.
Qed.
Lemma update_mask_bits x j : 0 <= j -> Z.testbit (update_mask a x) j =
  (j =? a_max a + 1) || ((1 <=? j) && (j <=? a_max a) && Z.testbit x (j - 1 + off a)).
Proof.
  intros Hj. destruct HA as (O & M & _). unfold update_mask, mask_scalar. rewrite Z.lor_spec, chosen_shift_bits, testbit_one_shl by lia. apply orb_comm.
Qed.

Lemma bit_in_window t : dynamic a t -> exists j, 1 <= j <= a_max a /\ t = j - 1 + off a /\ nth_error (a_list a) (Z.to_nat (j - 1)) = Some (Some t).
Proof.
  intros H. destruct HA as (O & M & L & A & _). apply In_nth_error in H as (k & E).
  assert (k < length (a_list a))%nat by (apply nth_error_Some; congruence). pose proof (A k t E).
  exists (Z.of_nat k + 1). split; [lia|]. split; [lia|]. replace (Z.to_nat (Z.of_nat k + 1 - 1)) with k by lia. exact E.
Qed.

Lemma table_fallback : table_at a targets static (a_max a + 1) = Some (EFunc (fallback targets static)).
Proof.
  destruct HA as (O & M & L & _). unfold table_at. destruct (Z.leb_spec 0 (a_max a + 1)); [|lia].
  replace (Z.to_nat (a_max a + 1)) with (S (Z.to_nat (a_max a))) by lia. cbn [table nth_error].
  unfold table. cbn [nth_error]. rewrite nth_error_app2; rewrite map_length, L; [|lia]. now rewrite Nat.sub_diag.
Qed.
Lemma table_target j t : 1 <= j <= a_max a -> nth_error (a_list a) (Z.to_nat (j - 1)) = Some (Some t) -> Z.testbit targets t = true ->
  table_at a targets static j = Some (EFunc t).
Proof.
  intros Hj E T. destruct HA as (O & M & L & _). unfold table_at. destruct (Z.leb_spec 0 j); [|lia].
  replace (Z.to_nat j) with (S (Z.to_nat (j - 1))) by lia. unfold table. cbn [nth_error].
  rewrite nth_error_app1 by (rewrite map_length, L; lia). rewrite nth_error_map, E. cbn. unfold choose. now rewrite T.
Qed.

Lemma fallback_ok : last_resort targets static (fallback targets static).
Proof.
  unfold last_resort, fallback, member. destruct (Z.testbit targets EMU128); [now left|]. right.
  destruct (Z.testbit targets SCALAR); [left|right]; repeat split; congruence.
Qed.

(** reading the mask after an Update selects the right function *)
Lemma wrap_testbit x j : 0 <= j < 64 -> Z.testbit (wrap 64 x) j = Z.testbit x j.
Proof. intros. rewrite testbit_wrap by lia. destruct (Z.ltb_spec j 64); [|lia]. reflexivity. Qed.

Lemma index_update x : unit_ok a targets static -> exists i t, get_index a targets (update_mask a x) = Some i /\
  table_at a targets static i = Some (EFunc t) /\ selects a targets static x t.
Proof.
  intros (US & UT). pose proof HA as HA'. destruct HA' as (O & M & L & A & B). unfold get_index.
  set (w := wrap 64 (Z.land (update_mask a x) (mask_targets a targets))).
  assert (TW : forall j, 0 <= j < 64 -> Z.testbit w j = (j =? a_max a + 1) || ((1 <=? j) && (j <=? a_max a) && Z.testbit x (j - 1 + off a) && Z.testbit targets (j - 1 + off a))).
  { intros j Hj. unfold w. rewrite wrap_testbit by lia. rewrite Z.land_spec, update_mask_bits, mask_targets_bits by lia.
    destruct (Z.eqb_spec j 0); destruct (Z.eqb_spec j (a_max a + 1)); destruct (Z.leb_spec 1 j); destruct (Z.leb_spec j (a_max a)); cbn [orb andb]; try lia; try reflexivity. }
  assert (NZ : w <> 0). { intros E. specialize (TW (a_max a + 1) ltac:(lia)). rewrite E, Z.bits_0, Z.eqb_refl in TW. discriminate. }
  assert (R : in_u 64 w) by (unfold in_u, w; apply wrap_range; lia).
  destruct (ctz64_fallback_correct w R NZ) as (r & E & (L1 & L2) & HR).
  exists r. rewrite E.
  rewrite TW in L1 by lia. destruct (Z.eqb_spec r (a_max a + 1)) as [->|NE]; cbn [orb] in L1.
  - exists (fallback targets static). split; [reflexivity|]. split; [apply table_fallback|]. right. split; [|apply fallback_ok].
    intros u Hu Mu Mx. destruct (bit_in_window u Hu) as (j & Hj & -> & _). specialize (L2 j ltac:(lia)). rewrite TW in L2 by lia.
    unfold member in *. rewrite Mu, Mx in L2. destruct (Z.leb_spec 1 j); [|lia]. destruct (Z.leb_spec j (a_max a)); [|lia]. cbn [andb] in L2. rewrite orb_true_r in L2. discriminate.
  - apply andb_prop in L1 as (L1 & TT). apply andb_prop in L1 as (L1 & TX). apply andb_prop in L1 as (R1 & R2). apply Z.leb_le in R1, R2.
    set (t := r - 1 + off a) in *.
    assert (DY : dynamic a t /\ nth_error (a_list a) (Z.to_nat (r - 1)) = Some (Some t)).
    { destruct (UT t ltac:(lia) TT) as [D|D].
      - split; [exact D|]. destruct (bit_in_window t D) as (j & Hj & Et & N). replace r with j by lia. exact N.
      - exfalso. (* the window lies below EMU128 *) 
        unfold off in *. unfold EMU128, SCALAR in *. lia. }
    destruct DY as (DY & N). exists t. split; [reflexivity|]. split; [apply (table_target r t); auto|]. left.
    split; [exact DY|]. split; [exact TT|]. split; [exact TX|]. intros u Hu Mu Mx. destruct (bit_in_window u Hu) as (j & Hj & -> & _).
    destruct (Z.ltb_spec j r); [|lia]. specialize (L2 j ltac:(lia)). rewrite TW in L2 by lia. unfold member in *. rewrite Mu, Mx in L2.
    destruct (Z.leb_spec 1 j); [|lia]. destruct (Z.leb_spec j (a_max a)); [|lia]. cbn [andb] in L2. rewrite orb_true_r in L2. discriminate.
Qed.

Lemma index_init : get_index a targets 1 = Some 0 /\ table_at a targets static 0 = Some EInit.
Proof.
  split; [|reflexivity]. unfold get_index.
  assert (E : Z.land 1 (mask_targets a targets) = 1).
  { apply Z.bits_inj'. intros n Hn. rewrite Z.land_spec, mask_targets_bits by lia.
    assert (E1 : Z.testbit 1 n = (n =? 0)) by (change 1 with (Z.shiftl 1 0); apply testbit_one_shl; lia). rewrite E1. destruct (n =? 0); reflexivity. }
  rewrite E. reflexivity.
Qed.

(** ** one thread *)
Context (det : Z) (HD : det_ok det) (HU : unit_ok a targets static).

Definition SInv (disabled mock : Z) (s : dstate) : Prop :=
  d_mock s = mock /\ 0 <= mock < 2 ^ 63 /\
  (forall x, 0 <= x < 2 ^ 63 -> Z.land x (d_supported_mask s) = Z.land x (Z.lnot disabled)) /\
  (d_mask s = 1 \/ d_mask s = update_mask a (available lib_static det disabled mock)).

Lemma SInv_init : SInv 0 0 d_init.
Proof.
  split; [reflexivity|]. split; [lia|]. split; [|now left]. intros x Hx. cbn [d_init d_supported_mask].
  change (2 ^ 63 - 1) with (Z.ones 63). rewrite Z.land_ones by lia. rewrite Z.mod_small by lia. change (Z.lnot 0) with (-1). now rewrite Z.land_m1_r.
Qed.

Lemma det_nz : det <> 0.
Proof. destruct HD as (_ & H & _). unfold member in H. intros E. rewrite E, Z.bits_0 in H. discriminate. Qed.

Lemma supported_eq disabled mock s : SInv disabled mock s ->
  supported_targets a lib_static det s = (available lib_static det disabled mock, if mock =? 0 then set_mask s (update_mask a det) else s).
Proof.
  intros (E1 & HM & E2 & _). unfold supported_targets, available. rewrite E1. destruct HD as (HR & _).
  destruct (mock =? 0); cbn [set_mask d_supported_mask]; rewrite E2 by lia; reflexivity.
Qed.

Lemma drun_ok ops : forall disabled mock s, SInv disabled mock s -> Forall op_args ops -> queries_harmless det disabled mock ops ->
  exists res s', drun a targets static lib_static det ops s = Some (res, s') /\
    spec_results a targets static lib_static det disabled mock ops res.
Proof.
  induction ops as [|o ops IH]; intros disabled mock s HI HF HQ; [exists [], s; split; reflexivity|].
  inversion HF as [|? ? Ho HF']; subst. pose proof HI as (E1 & HM & E2 & EM). destruct o; cbn [drun spec_results queries_harmless] in *.
  - apply (IH d mock); auto. split; [exact E1|]. split; [exact HM|]. split; [reflexivity|now left].
  - apply (IH disabled t); auto. split; [reflexivity|]. split; [exact Ho|]. split; [exact E2|now left].
  - destruct HQ as (HQ1 & HQ). rewrite (supported_eq disabled mock s HI).
    set (s1 := if mock =? 0 then _ else _).
    assert (HI1 : SInv disabled mock s1).
    { unfold s1. destruct (Z.eqb_spec mock 0) as [E0|]; [|exact HI]. subst mock. split; [reflexivity|]. split; [lia|]. split; [exact E2|]. right.
      cbn [set_mask d_mask]. f_equal. unfold available. rewrite E0, Z.eqb_refl. destruct HQ1 as [C|C]; [congruence|]. rewrite C.
      destruct (Z.eqb_spec det 0); [now destruct det_nz|reflexivity]. }
    destruct (IH disabled mock s1 HI1 HF' HQ) as (res & s' & -> & SP). eexists _, _. split; [reflexivity|]. split; [reflexivity|exact SP].
  - unfold dispatch. destruct (index_update (available lib_static det disabled mock) HU) as (i & t & GI & TA & SEL). destruct EM as [EM|EM].
    + rewrite EM. destruct index_init as (-> & ->). rewrite (supported_eq disabled mock s HI).
      set (s1 := if mock =? 0 then _ else _). cbn [set_mask d_mask]. rewrite GI, TA.
      assert (HI1 : SInv disabled mock (set_mask s1 (update_mask a (available lib_static det disabled mock)))).
      { unfold s1. destruct (mock =? 0); (split; [exact E1|]; split; [exact HM|]; split; [exact E2|]; right; reflexivity). }
      destruct (IH disabled mock _ HI1 HF' HQ) as (res & s' & E & SP). unfold set_mask in E |- *. rewrite E. eexists _, _. split; [reflexivity|]. split; [exact SEL|exact SP].
    + rewrite EM, GI, TA. destruct (IH disabled mock s HI HF' HQ) as (res & s' & -> & SP). eexists _, _. split; [reflexivity|]. split; [exact SEL|exact SP].
Qed.

(** ** interleaved threads *)

Section C.
(** [P]: target sets that may be put into the mask; [Q]: values of supported_mask_ *)
Context (P Q : Z -> Prop) (allowed : dact -> Prop).
Hypothesis HP : P det.
Hypothesis HQ0 : Q (2 ^ 63 - 1).
Hypothesis HPQ : forall x m, P x -> Q m -> P (if Z.land x m =? 0 then Z.shiftl 1 lib_static else Z.land x m).
Hypothesis HAD : forall d, allowed (ADisable d) -> Q (Z.lnot d).
Hypothesis HAM : forall t, allowed (AMock t) -> t = 0 \/ P t.

Definition CInv (s : cstate) : Prop :=
  (d_mask (c_shared s) = 1 \/ exists x, d_mask (c_shared s) = update_mask a x /\ P x) /\
  Q (d_supported_mask (c_shared s)) /\ (d_mock (c_shared s) = 0 \/ P (d_mock (c_shared s))) /\
  (forall th, match c_pc s th with TMask _ t | TUpdate t => P t | _ => True end) /\
  Forall (fun c => exists x, P x /\ selects a targets static x (snd c)) (c_calls s).

Lemma upd_pc (pc : Z -> dpc) th p : (forall th, match pc th with TMask _ t | TUpdate t => P t | _ => True end) ->
  match p with TMask _ t | TUpdate t => P t | _ => True end ->
  forall th', match upd pc th p th' with TMask _ t | TUpdate t => P t | _ => True end.
Proof. intros H1 H2 th'. unfold upd. destruct (th' =? th); [exact H2|apply H1]. Qed.

Lemma dcall_ok th s on : CInv s -> CInv on -> exists s', dcall a targets static th s (d_mask (c_shared s)) (Some on) = Some s' /\ CInv s'.
Proof.
  intros (I1 & I2 & I3 & I4 & I5) HO. unfold dcall. destruct I1 as [E|(x & E & Px)].
  - rewrite E. destruct index_init as (-> & ->). eexists. split; [reflexivity|exact HO].
  - rewrite E. destruct (index_update x HU) as (i & t & -> & -> & SEL). eexists. split; [reflexivity|].
    split; [right; exists x; split; assumption|]. split; [exact I2|]. split; [exact I3|]. split; [now apply upd_pc|].
    constructor; [exists x; split; assumption|exact I5].
Qed.

Lemma CInv_step s th act s' : CInv s -> allowed act -> cstep a targets static lib_static det th act s = Some s' -> CInv s'.
Proof.
  intros HI AL E. pose proof HI as (I1 & I2 & I3 & I4 & I5). unfold cstep in E.
  assert (SUP : CInv (with_pc s th (c_shared s) (TSup false))) by (split; [exact I1|]; split; [exact I2|]; split; [exact I3|]; split; [now apply upd_pc|exact I5]).
  pose proof (I4 th) as PC. destruct (c_pc s th) eqn:EP, act; try discriminate.
  - injection E as <-. split; [exact I1|]. split; [now apply HAD|]. split; [exact I3|]. split; [now apply upd_pc|exact I5].
  - injection E as <-. split; [exact I1|]. split; [exact I2|]. split; [now apply HAM|]. split; [now apply upd_pc|exact I5].
  - injection E as <-. split; [exact I1|]. split; [exact I2|]. split; [exact I3|]. split; [now apply upd_pc|exact I5].
  - destruct (dcall_ok th s _ HI SUP) as (s1 & E1 & C). cbn zeta in E. rewrite E1 in E. now injection E as <-.
  - injection E as <-. destruct (Z.eqb_spec (d_mock (c_shared s)) 0) as [E0|E0].
    + split; [right; exists det; split; [reflexivity|exact HP]|]. split; [exact I2|]. split; [exact I3|]. split; [now apply upd_pc|exact I5].
    + split; [exact I1|]. split; [exact I2|]. split; [exact I3|]. split; [|exact I5]. apply upd_pc; [exact I4|]. destruct I3; [congruence|assumption].
  - injection E as <-. split; [exact I1|]. split; [exact I2|]. split; [exact I3|]. split; [|exact I5]. apply upd_pc; [exact I4|].
    destruct q; [exact I|]. now apply HPQ.
  - injection E as <-. split; [right; eexists; split; [reflexivity|exact PC]|]. split; [exact I2|]. split; [exact I3|]. split; [now apply upd_pc|exact I5].
  - destruct (dcall_ok th s _ HI SUP) as (s1 & E1 & C). cbn zeta in E. rewrite E1 in E. now injection E as <-.
  - injection E as <-. split; [now left|]. split; [exact I2|]. split; [exact I3|]. split; [now apply upd_pc|exact I5].
Qed.

Lemma CInv_reach s : creach a targets static lib_static det allowed s -> CInv s.
Proof.
  induction 1; [|eapply CInv_step; eauto].
  split; [now left|]. split; [exact HQ0|]. split; [now left|]. split; [intros; exact I|constructor].
Qed.

(** no enabled action is undefined: no null function pointer, no index outside the table *)
Lemma cstep_defined s th act : CInv s -> cenabled th act s = true -> exists s', cstep a targets static lib_static det th act s = Some s'.
Proof.
  intros HI EN. pose proof HI as (I1 & I2 & I3 & I4 & I5).
  assert (SUP : CInv (with_pc s th (c_shared s) (TSup false))) by (split; [exact I1|]; split; [exact I2|]; split; [exact I3|]; split; [now apply upd_pc|exact I5]).
  destruct (dcall_ok th s _ HI SUP) as (s1 & E1 & _).
  unfold cstep, cenabled in *. destruct (c_pc s th), act; try discriminate; eauto.
Qed.
End C.
End A.

(** ** enumeration of the targets *)

Lemma isolate_lowest x k : 0 <= k -> Z.testbit x k = true -> (forall j, 0 <= j < k -> Z.testbit x j = false) -> Z.land x (Z.lnot (x - 1)) = 2 ^ k.
Proof.
  intros Hk H1 H2. replace (Z.lnot (x - 1)) with (- x) by (unfold Z.lnot; lia).
  assert (EX : x = x / 2 ^ (k + 1) * 2 ^ (k + 1) + 2 ^ k).
  { assert (EM : x mod 2 ^ (k + 1) = 2 ^ k).
    { apply Z.bits_inj'. intros n Hn. rewrite Z.pow2_bits_eqb by lia. destruct (Z.ltb_spec n (k + 1)).
      - rewrite Z.mod_pow2_bits_low by lia. destruct (Z.eqb_spec k n) as [<-|]; [exact H1|apply H2; lia].
      - rewrite Z.mod_pow2_bits_high by lia. destruct (Z.eqb_spec k n); [lia|reflexivity]. }
    pose proof (Z.div_mod x (2 ^ (k + 1)) ltac:(pose proof (Z.pow_pos_nonneg 2 (k + 1)); lia)). lia. }
  set (q := x / 2 ^ (k + 1)) in *.
  assert (P : 2 ^ (k + 1) = 2 * 2 ^ k) by (rewrite Z.pow_add_r by lia; lia).
  assert (Pp : 0 < 2 ^ k) by (apply Z.pow_pos_nonneg; lia).
  assert (EN : - x = (- q - 1) * 2 ^ (k + 1) + 2 ^ k) by lia.
  apply Z.bits_inj'. intros n Hn. rewrite Z.land_spec, EN. rewrite EX at 1. rewrite Z.pow2_bits_eqb by lia.
  assert (BB : forall z, Z.testbit (z * 2 ^ (k + 1) + 2 ^ k) n = if n <? k + 1 then (k =? n) else Z.testbit z (n - (k + 1))).
  { intros z. destruct (Z.ltb_spec n (k + 1)).
    - rewrite <- (Z.mod_pow2_bits_low _ (k + 1)) by lia. rewrite Z.add_comm, Z.mod_add by lia. rewrite Z.mod_small by lia. apply Z.pow2_bits_eqb. lia.
    - replace n with (n - (k + 1) + (k + 1)) at 1 by lia. rewrite <- Z.div_pow2_bits by lia. rewrite Z.add_comm, Z.div_add by lia. rewrite Z.div_small by lia. reflexivity. }
  rewrite !BB. destruct (Z.ltb_spec n (k + 1)); [destruct (k =? n); reflexivity|].
  destruct (Z.eqb_spec k n); [lia|]. replace (- q - 1) with (Z.lnot q) by (unfold Z.lnot; lia). rewrite Z.lnot_spec by lia. apply andb_negb_r.
Qed.

Lemma generated_ok m : forall k t fuel, (m < fuel)%nat -> 0 <= k -> k + Z.of_nat m = 63 -> 0 <= t < 2 ^ 63 -> (forall j, 0 <= j < k -> Z.testbit t j = false) ->
  generated_targets fuel t = Some (map (fun i => 2 ^ (k + Z.of_nat i)) (filter (fun i => Z.testbit t (k + Z.of_nat i)) (seq 0 m))).
Proof.
  induction m as [|m IH]; intros k t fuel HF Hk Hm Ht HB.
  - assert (t = 0). { apply Z.bits_inj'. intros n Hn. rewrite Z.bits_0. destruct (Z.ltb_spec n k); [apply HB; lia|]. apply (testbit_small t 63); lia. }
    subst t. destruct fuel; [lia|]. reflexivity.
  - cbn [seq filter]. rewrite <- seq_shift. rewrite Z.add_0_r.
    assert (SH : forall u, map (fun i => 2 ^ (k + Z.of_nat i)) (filter (fun i => Z.testbit u (k + Z.of_nat i)) (map S (seq 0 m))) =
                 map (fun i => 2 ^ (k + 1 + Z.of_nat i)) (filter (fun i => Z.testbit u (k + 1 + Z.of_nat i)) (seq 0 m))).
    { intros u. clear. induction (seq 0 m) as [|i l IHl]; [reflexivity|]. cbn [map filter]. replace (k + Z.of_nat (S i)) with (k + 1 + Z.of_nat i) by lia.
      destruct (Z.testbit u (k + 1 + Z.of_nat i)); cbn [map]; rewrite IHl; [f_equal; f_equal; lia|reflexivity]. }
    destruct (Z.testbit t k) eqn:TK.
    + destruct fuel as [|fuel]; [lia|]. cbn [generated_targets map]. rewrite SH.
      assert (T0 : t <> 0) by (intros ->; rewrite Z.bits_0 in TK; discriminate). destruct (Z.eqb_spec t 0); [contradiction|].
      rewrite (swrap_small 64 (t - 1)) by (unfold in_s; lia).
      rewrite (isolate_lowest t k Hk TK HB).
      assert (CL : forall n, 0 <= n -> Z.testbit (Z.land t (t - 1)) n = if n <=? k then false else Z.testbit t n) by (apply (clear_lowest t k); assumption).
      assert (R1 : 0 <= Z.land t (t - 1) < 2 ^ 63) by (apply land_range; lia).
      assert (R2 : forall j, 0 <= j < k + 1 -> Z.testbit (Z.land t (t - 1)) j = false).
      { intros j Hj. rewrite CL by lia. destruct (Z.leb_spec j k); [reflexivity|lia]. }
      rewrite (IH (k + 1) (Z.land t (t - 1)) fuel ltac:(lia) ltac:(lia) ltac:(lia) R1 R2).
      rewrite Z.add_0_r. do 3 f_equal. apply filter_ext. intros i. rewrite CL by lia. destruct (Z.leb_spec (k + 1 + Z.of_nat i) k); [lia|reflexivity].
    + rewrite SH. apply IH; try lia. intros j Hj. destruct (Z.eq_dec j k) as [->|]; [exact TK|apply HB; lia].
Qed.

(** ** x86 detection *)
Lemma testbit_tbit t i : 0 <= t -> 0 <= i -> Z.testbit (tbit t) i = (i =? t).
Proof. intros. unfold tbit. now apply testbit_one_shl. Qed.
Lemma testbit_or_if c t bits i : Z.testbit (or_if c t bits) i = (c && Z.testbit t i) || Z.testbit bits i.
Proof. unfold or_if. destruct c; [rewrite Z.lor_spec; apply orb_comm|reflexivity]. Qed.
Lemma bit_set_testbit r i : 0 <= i -> bit_set r i = Z.testbit r i.
Proof.
  intros Hi. unfold bit_set. destruct (Z.testbit r i) eqn:E.
  - apply negb_true_iff, Z.eqb_neq. intros C. assert (X : Z.testbit (Z.land r (Z.shiftl 1 i)) i = true) by (rewrite Z.land_spec, testbit_one_shl, E, Z.eqb_refl by lia; reflexivity).
    rewrite C, Z.bits_0 in X. discriminate.
  - apply negb_false_iff, Z.eqb_eq. apply Z.bits_inj'. intros n Hn. rewrite Z.land_spec, testbit_one_shl, Z.bits_0 by lia.
    destruct (Z.eqb_spec n i) as [->|]; [rewrite E; reflexivity|apply andb_false_r].
Qed.
Lemma has_in cpuid g f : has cpuid g = true -> In f g -> flag cpuid f = true.
Proof. unfold has. rewrite forallb_forall. auto. Qed.

Section X.
Context (cpuid : Z -> Z -> Z -> Z) (x64 amd : bool) (xcr0 : Z).
Lemma flag_ok f : flag cpuid f = true <-> cpu_has cpuid f.
Proof.
  unfold cpu_has, member. destruct f; cbn [flag cpuid_bit]; rewrite ?andb_true_iff, ?Z.leb_le, bit_set_testbit by lia;
    change (2 ^ 31 + 1) with 2147483649; intuition (try congruence; try lia).
Qed.
Lemma has_all g l : (forall f, In f g <-> In f l) -> has cpuid g = true <-> cpu_all cpuid l.
Proof.
  intros H. unfold has, cpu_all. rewrite forallb_forall. split; intros X f Hf; [apply flag_ok, X, H, Hf|apply flag_ok, X, H, Hf].
Qed.
Ltac sameset := intros f; cbv [gSSE2 gSSSE3 gSSE4 gBMI2_FMA gF16C gAVX2 gAVX3 gAVX3_DL gAVX3_ZEN4 gAVX3_SPR gAVX10
   need_SSE2 need_SSSE3 need_SSE4 need_AVX2 need_AVX3 need_AVX3_DL need_AVX3_ZEN4 need_AVX3_SPR need_AVX10 app In]; tauto.
Lemma hSSE2 : has cpuid gSSE2 = true <-> cpu_all cpuid need_SSE2. Proof. apply has_all. sameset. Qed.
Lemma hSSSE3 : has cpuid gSSSE3 = true <-> cpu_all cpuid need_SSSE3. Proof. apply has_all. sameset. Qed.
Lemma hSSE4 : has cpuid gSSE4 = true <-> cpu_all cpuid need_SSE4. Proof. apply has_all. sameset. Qed.
Lemma hAVX2 : has cpuid gAVX2 = true <-> cpu_all cpuid need_AVX2. Proof. apply has_all. sameset. Qed.
Lemma hAVX3 : has cpuid gAVX3 = true <-> cpu_all cpuid need_AVX3. Proof. apply has_all. sameset. Qed.
Lemma hAVX3_DL : has cpuid gAVX3_DL = true <-> cpu_all cpuid need_AVX3_DL. Proof. apply has_all. sameset. Qed.
Lemma hAVX3_ZEN4 : has cpuid gAVX3_ZEN4 = true <-> cpu_all cpuid need_AVX3_ZEN4. Proof. apply has_all. sameset. Qed.
Lemma hAVX3_SPR : has cpuid gAVX3_SPR = true <-> cpu_all cpuid need_AVX3_SPR. Proof. apply has_all. sameset. Qed.
Lemma hAVX10 : has cpuid gAVX10 = true <-> cpu_all cpuid need_AVX10. Proof. apply has_all. sameset. Qed.

Definition v10 (v : Z) : bool := has cpuid gAVX10 && (v <=? Z.land (cpuid 36 0 1) 255).
Definition v512 : bool := v10 1 && bit_set (cpuid 36 0 1) 18.
Definition ymm : bool := bit_set (cpuid 1 0 2) 26 && bit_set (cpuid 1 0 2) 27 && bit_set xcr0 1 && bit_set xcr0 2.
Definition zmm : bool := ymm && (bit_set xcr0 5 && bit_set xcr0 6 && bit_set xcr0 7).
Lemma v10_ok v : v10 v = true <-> avx10_version_ge cpuid v.
Proof. unfold v10, avx10_version_ge. rewrite andb_true_iff, hAVX10, Z.leb_le. change 255 with (Z.ones 8). rewrite Z.land_ones by lia. reflexivity. Qed.
Lemma v512_ok : v512 = true <-> avx10_512 cpuid.
Proof. unfold v512, avx10_512, member. rewrite andb_true_iff, v10_ok, bit_set_testbit by lia. reflexivity. Qed.
Lemma ymm_ok : ymm = true <-> os_ymm cpuid xcr0.
Proof.
  unfold ymm, os_ymm, os_saves, member. rewrite !andb_true_iff, !bit_set_testbit by lia. cbn [In]. split.
  - intros (((A & B) & C) & D). split; [exact A|]. split; [exact B|]. intros c [<-|[<-|[]]]; assumption.
  - intros (A & B & C). repeat split; auto.
Qed.
Lemma zmm_ok : zmm = true <-> os_zmm cpuid xcr0.
Proof.
  unfold zmm. rewrite andb_true_iff, ymm_ok. unfold os_ymm, os_zmm, os_saves, member. rewrite !andb_true_iff, !bit_set_testbit by lia. cbn [In]. split.
  - intros ((A & B & C) & (D & E) & F). split; [exact A|]. split; [exact B|]. intros c [<-|[<-|[<-|[<-|[<-|[]]]]]]; auto.
  - intros (A & B & C). repeat split; auto; try (apply C; tauto). intros c [<-|[<-|[]]]; apply C; tauto.
Qed.

(** the bits before ZEN4 is considered *)
Definition pre (t : Z) : bool :=
  if t =? SSE2 then x64 || has cpuid gSSE2
  else if t =? SSSE3 then has cpuid gSSSE3
  else if t =? SSE4 then has cpuid gSSE4
  else if t =? AVX2 then has cpuid gAVX2 && ymm
  else if t =? AVX3 then (has cpuid gAVX3 || v512) && zmm
  else if t =? AVX3_DL then (has cpuid gAVX3_DL || v512) && zmm
  else if t =? AVX3_SPR then (has cpuid gAVX3_SPR || v512) && zmm
  else if t =? AVX10_2 then v10 2 && ymm
  else if t =? AVX10_2_512 then v10 2 && v512 && ymm
  else false.

Ltac clear_bits := repeat match goal with |- context [Z.testbit ?c ?i] => let v := eval vm_compute in (Z.testbit c i) in
      match v with true => change (Z.testbit c i) with true | false => change (Z.testbit c i) with false end end;
    rewrite ?andb_true_r, ?andb_false_r, ?orb_false_r, ?orb_true_r; cbn [orb andb negb];
    rewrite ?andb_true_r, ?andb_false_r, ?orb_false_r, ?orb_true_r.
Ltac rew_bits TI := repeat (rewrite TI || rewrite testbit_or_if || rewrite Z.lor_spec || rewrite Z.land_spec || (rewrite Z.lnot_spec by (vm_compute; discriminate))); clear_bits.

Definition all10 := [AVX10_2_512; AVX3_SPR; AVX10_2; AVX3_ZEN4; AVX3_DL; AVX3; AVX2; SSE4; SSSE3; SSE2].
Ltac eval_eqb := repeat match goal with |- context [?x =? ?y] => let v := eval vm_compute in (x =? y) in
      match v with true => change (x =? y) with true | false => change (x =? y) with false end end;
      repeat match goal with |- context [?x <=? ?y] => let v := eval vm_compute in (x <=? y) in
      match v with true => change (x <=? y) with true | false => change (x <=? y) with false end end; cbv iota; cbn [orb andb negb].
Ltac gen_bools :=
    repeat match goal with |- context [has cpuid ?g] => generalize (has cpuid g); intros ? end;
    repeat match goal with |- context [bit_set ?r ?i] => generalize (bit_set r i); intros ? end;
    repeat match goal with |- context [Z.testbit ?r ?i] => generalize (Z.testbit r i); intros ? end;
    repeat match goal with |- context [?x <=? ?y] => generalize (x <=? y); intros ? end.
Lemma if_testbit (c : bool) x y i : Z.testbit (if c then x else y) i = if c then Z.testbit x i else Z.testbit y i.
Proof. destruct c; reflexivity. Qed.
Lemma xsave_bits bits u : In u all10 -> Z.testbit (x86_xsave cpuid xcr0 bits) u =
  Z.testbit bits u && (if (u =? AVX3) || (u =? AVX3_DL) || (u =? AVX3_SPR) then zmm else if u <=? AVX2 then ymm else true).
Proof.
  intros Hu. unfold x86_xsave, zmm, ymm. repeat (destruct Hu as [<-|Hu]); [..|destruct Hu];
  eval_eqb; rew_bits if_testbit; gen_bools; clear; try reflexivity; btauto.
Qed.
Lemma avx10_bits bits u : In u all10 -> Z.testbit (x86_avx10 cpuid bits) u =
  Z.testbit bits u || (if (u =? AVX3) || (u =? AVX3_DL) || (u =? AVX3_SPR) then v512 else if u =? AVX10_2 then v10 2 else if u =? AVX10_2_512 then v10 2 && v512 else false).
Proof.
  intros Hu. unfold x86_avx10, v512, v10. repeat (destruct Hu as [<-|Hu]); [..|destruct Hu];
  eval_eqb; rew_bits if_testbit; gen_bools; clear; try reflexivity; btauto.
Qed.
Lemma groups_bits u : In u all10 -> Z.testbit (x86_groups cpuid x64) u =
  if u =? SSE2 then x64 || has cpuid gSSE2 else if u =? SSSE3 then has cpuid gSSSE3 else if u =? SSE4 then has cpuid gSSE4
  else if u =? AVX2 then has cpuid gAVX2 else if u =? AVX3 then has cpuid gAVX3 else if u =? AVX3_DL then has cpuid gAVX3_DL
  else if u =? AVX3_SPR then has cpuid gAVX3_SPR else false.
Proof.
  intros Hu. unfold x86_groups. repeat (destruct Hu as [<-|Hu]); [..|destruct Hu];
  eval_eqb; rew_bits if_testbit; gen_bools; clear; try reflexivity; destruct x64; btauto.
Qed.

Lemma detect_bits t : In t [AVX10_2_512; AVX3_SPR; AVX10_2; AVX3_DL; AVX3; AVX2; SSE4; SSSE3; SSE2] ->
  Z.testbit (x86_detect cpuid x64 amd xcr0) t = pre t /\
  Z.testbit (x86_detect cpuid x64 amd xcr0) AVX3_ZEN4 = pre AVX3_DL && has cpuid gAVX3_ZEN4 && amd.
Proof.
  intros Ht. unfold x86_detect, x86_zen4. set (bits := x86_xsave cpuid xcr0 (x86_avx10 cpuid (x86_groups cpuid x64))).
  assert (PB : forall u, In u [AVX10_2_512; AVX3_SPR; AVX10_2; AVX3_ZEN4; AVX3_DL; AVX3; AVX2; SSE4; SSSE3; SSE2] -> Z.testbit bits u = pre u).
  { intros u Hu. unfold bits. rewrite xsave_bits, avx10_bits, groups_bits by exact Hu. unfold pre. clear bits Ht t.
    repeat (destruct Hu as [<-|Hu]); [..|destruct Hu]; eval_eqb; rewrite ?orb_false_r, ?andb_true_r; reflexivity. }
  assert (LZ : negb (Z.land bits (tbit AVX3_DL) =? 0) = Z.testbit bits AVX3_DL).
  { pose proof (bit_set_testbit bits AVX3_DL ltac:(vm_compute; discriminate)) as X. exact X. }
  rewrite LZ, (PB AVX3_DL) by (cbn [In]; tauto).
  split.
  - rewrite testbit_or_if, testbit_tbit, (PB t) by (cbn [In] in *; try tauto; repeat (destruct Ht as [<-|Ht]; [vm_compute; discriminate|]); destruct Ht).
    replace (t =? AVX3_ZEN4) with false; [now rewrite andb_false_r|]. repeat (destruct Ht as [<-|Ht]; [reflexivity|]). destruct Ht.
  - rewrite testbit_or_if, testbit_tbit, (PB AVX3_ZEN4) by (try (cbn [In]; tauto); vm_compute; discriminate). rewrite Z.eqb_refl, andb_true_r. apply orb_false_r.
Qed.
End X.
